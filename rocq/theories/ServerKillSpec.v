(** What the HTTP server must do when its process is killed at any point of a
    request, also in the middle of a commit or a deletion.

    As ServerCrashSpec.v, with one more outcome for the request that gets no
    answer: of a PUT that was replacing an object, the object may be the old one
    and the upload gone. *)
From stdpp Require Import base numbers list option gmap sets.
From Verif Require Import Util Bytes PageIOModel PageIOSpec TokenModel HttpModel BatchProofs DirectModel DirectSpec DirectSeqSpec DirectLoadModel DirectSys.
From Verif Require Import DirectRestartSpec ServerModel ServerSpec ServerCrashSpec.
Open Scope N_scope.

(** [u'] is [u]; parts of [u] of which nothing is known may be known in [u']. *)
Record upload_more (u u' : qupload) : Prop := {
  um_key : qu_key u' = qu_key u;
  um_size : qu_size u' = qu_size u;
  um_created : qu_created u' = qu_created u;
  um_parts : forall off l, qu_parts u off = Some l -> l <> [] -> qu_parts u' off = Some l;
}.
(** The same objects and the same uploads. *)
Record alike (Q Q' : qstate) : Prop := {
  al_com : forall key, match q_com Q !! key, q_com Q' !! key with
    | Some co, Some co' => same_object co co' | None, None => True | _, _ => False end;
  al_up : forall id, match q_up Q !! id, q_up Q' !! id with
    | Some u, Some u' => upload_more u u' | None, None => True | _, _ => False end;
  al_ids : q_ids Q ⊆ q_ids Q';
}.

(** The effect of a request that got no answer because the process was killed. *)
Inductive loses_any (s : server) (Q : qstate) (rq : request) (Q' : qstate) : Prop :=
| la_loses Q0 : loses s Q rq Q0 -> alike Q0 Q' -> loses_any s Q rq Q'
(** PUT over an existing object: it may still be there although the upload is gone *)
| la_upload key tok receipts id size u :
    needs rq = Some (CommitObject key) -> permitted s rq (CommitObject key) -> rq_method rq = HPut tok receipts ->
    names s tok id size -> receipts_for s receipts id size -> q_up Q !! id = Some u -> is_Some (q_com Q !! qu_key u) ->
    alike (q_drop Q id) Q' -> loses_any s Q rq Q'.
Inductive survives_any (s : server) (Q : qstate) : event -> qstate -> Prop :=
| sy_answered rq r Q' : serves s Q rq r Q' -> survives_any s Q (Answered rq r) Q'
| sy_lost rq Q' : loses_any s Q rq Q' -> survives_any s Q (Lost rq) Q'
| sy_killed ids : q_ids Q ⊆ ids -> survives_any s Q Killed {| q_up := q_up Q; q_com := q_com Q; q_ids := ids |}.
Inductive survives_any_all (s : server) : qstate -> list event -> qstate -> Prop :=
| sya_nil Q : survives_any_all s Q [] Q
| sya_cons Q e Q1 es Q2 : survives_any s Q e Q1 -> survives_any_all s Q1 es Q2 -> survives_any_all s Q (e :: es) Q2.

(** ** The server running on a partition *)
(** As [served]; any call may be under way when the process is killed. *)
Inductive served_any (s : server) (c : dcfg) (y : dsys) (h : history) (lost : option request) (y' : dsys) : Prop :=
| served_any_intro ls css cs pend :
    dsteps c y ls y' ->
    Forall2 (fun x cs => runs (handle s (fst x)) cs (snd x)) h css -> Forall over (concat css) ->
    match lost with Some rq => cut (handle s rq) cs pend | None => cs = [] /\ pend = None end ->
    Forall over cs -> (forall op vs, (op, vs) ∈ cs -> VRet RPanicked ∉ vs) ->
    (forall op vs, pend = Some (op, vs) -> Forall (fun v => is_final v = false) vs) ->
    visible ls = call_labels 0 (concat css ++ cs ++ option_list pend) ->
    served_any s c y h lost y'.
(** No call is removing an object: a commit has not yet replaced one, a deletion has
    not begun.  Being killed while one is removed leaves two records for its key
    (C25), so the partition is not to be killed again. *)
Definition spares (y : dsys) : Prop :=
  forall p, p ∈ y_procs y -> match p with
    | PCommit4 _ _ (Some _) | PCommit5 _ _ _ (Some _) | PReap1 _ _ | PReap2 _ _ _ _ | PReap3 _ _ | PFinish _ => False | _ => True end.
(** The partition is killed and started again any number of times, at points that
    spare its objects. *)
Inductive server_runs (s : server) (c : dcfg) (pages : list (list N)) : list event -> dsys -> Prop :=
| runs_first y0 h lost y :
    fresh_partition c pages y0 -> sv_lpage s = dc_lpage c -> served_any s c y0 h lost y ->
    server_runs s c pages (session_events h lost) y
| runs_again es y1 y2 h lost y3 :
    server_runs s c pages es y1 -> ~ inexact c y1 -> spares y1 -> reopened c y1 y2 -> served_any s c y2 h lost y3 ->
    server_runs s c pages (es ++ Killed :: session_events h lost) y3.
(** At last it may be killed at any point. *)
Inductive server_killed (s : server) (c : dcfg) (pages : list (list N)) : list event -> dsys -> Prop :=
| killed_not es y : server_runs s c pages es y -> server_killed s c pages es y
| killed_last es y1 y2 h lost y3 :
    server_runs s c pages es y1 -> ~ inexact c y1 -> reopened c y1 y2 -> served_any s c y2 h lost y3 ->
    server_killed s c pages (es ++ Killed :: session_events h lost) y3.

(** ** Answers *)
(** The answers to GET and HEAD for a key with this object, or with none. *)
Definition answers_as (s : server) (key : list N) (d : option (list N)) (rq : request) (r : response) : Prop :=
  match d with
  | Some data => answers_with s key data rq r
  | None =>
      (forall range, needs rq = Some (ReadObject key) -> permitted s rq (ReadObject key) -> rq_method rq = HGet range ->
         r = Resp 404 \/ range <> None /\ r = Resp 416) /\
      (needs rq = Some (InspectObject key) -> permitted s rq (InspectObject key) -> r = Resp 404)
  end.
(** The object that the answer to a GET without a range shows: none if it is 404. *)
Definition shown (r : response) : option (list N) := match r with RespBody _ _ _ _ data => Some data | _ => None end.
