(** What the HTTP server must do when its process is killed and started again.

    Killing may interrupt one request, which then gets no answer.  Whatever was
    answered before stays as it was. *)
From stdpp Require Import base numbers list option gmap sets.
From Verif Require Import Util Bytes PageIOModel PageIOSpec TokenModel HttpModel BatchProofs DirectModel DirectSpec DirectSeqSpec DirectLoadModel DirectSys.
From Verif Require Import ServerModel ServerSpec.
Open Scope N_scope.

(** What happens to a server: a request is answered; the process is killed while it
    handles a request, which gets no answer; the process is killed and started
    again. *)
Inductive event := Answered (rq : request) (r : response) | Lost (rq : request) | Killed.

(** The effect of a request that got no answer because the process was killed. *)
Inductive loses (s : server) (Q : qstate) (rq : request) : qstate -> Prop :=
(** none; or that of the request as a whole *)
| lost_all : loses s Q rq Q
| lost_answer r Q' : serves s Q rq r Q' -> loses s Q rq Q'
(** POST: there may be an upload nobody has a token for *)
| lost_create key size Q' :
    needs rq = Some (CreateObject key size) -> permitted s rq (CreateObject key size) ->
    q_com Q' = q_com Q -> keeps_uploads Q Q' ->
    (forall id u, q_up Q' !! id = Some u -> q_up Q !! id = None ->
       id ∉ q_ids Q /\ exists created, u = {| qu_key := key; qu_size := size; qu_created := created; qu_parts := fun _ => None |}) ->
    loses s Q rq Q'
(** PATCH: the contents of this part of the upload are unknown, or they are the
    whole body *)
| lost_write key tok offset len body id size u d :
    needs rq = Some (WriteObject key) -> permitted s rq (WriteObject key) -> rq_method rq = HPatch tok offset len body ->
    names s tok id size -> q_up Q !! id = Some u -> valid_part (sv_lpage s) (qu_size u) offset len ->
    d = None \/ d = Some (stream_bytes body) /\ N.of_nat (length (stream_bytes body)) = len ->
    loses s Q rq (q_part Q id u offset d)
(** POST /: the first objects of the batch are stored *)
| lost_batch size body Q1 Q' :
    needs rq = Some BatchCreateObjects -> permitted s rq BatchCreateObjects -> rq_method rq = HPost size body ->
    batch_stores Q (concat body) None Q1 -> q_com Q' = q_com Q1 -> keeps_uploads Q1 Q' ->
    loses s Q rq Q'.

(** The objects and the uploads, with what was written to them, are there again. *)
Inductive survives (s : server) (Q : qstate) : event -> qstate -> Prop :=
| su_answered rq r Q' : serves s Q rq r Q' -> survives s Q (Answered rq r) Q'
| su_lost rq Q' : loses s Q rq Q' -> survives s Q (Lost rq) Q'
| su_killed ids : q_ids Q ⊆ ids -> survives s Q Killed {| q_up := q_up Q; q_com := q_com Q; q_ids := ids |}.
Inductive survives_all (s : server) : qstate -> list event -> qstate -> Prop :=
| sva_nil Q : survives_all s Q [] Q
| sva_cons Q e Q1 es Q2 : survives s Q e Q1 -> survives_all s Q1 es Q2 -> survives_all s Q (e :: es) Q2.

(** ** The server running on a partition *)
(** A handler that was killed: it has made the calls [cs], which have finished, and
    possibly one more, which has not. *)
Inductive cut : prog -> list (dop * list vis) -> option (dop * list vis) -> Prop :=
| cut_here p : cut p [] None
| cut_pending op k vs : cut (Call op k) [] (Some (op, vs))
| cut_call op k vs cs pend : cut (k vs) cs pend -> cut (Call op k) ((op, vs) :: cs) pend.
(** Being killed during a commit or a delete: see ServerKillSpec.v. *)
Definition settled_call (op : dop) : Prop := match op with OCommit _ _ | ODelete _ _ => False | _ => True end.

(** From [y] the partition serves the requests [h], one after another, and is then
    killed in the state [y'], in which the request [lost] may be under way. *)
Inductive served (s : server) (c : dcfg) (y : dsys) (h : history) (lost : option request) (y' : dsys) : Prop :=
| served_intro ls css cs pend :
    dsteps c y ls y' ->
    Forall2 (fun x cs => runs (handle s (fst x)) cs (snd x)) h css -> Forall over (concat css) ->
    match lost with Some rq => cut (handle s rq) cs pend | None => cs = [] /\ pend = None end ->
    Forall over cs -> (forall op vs, (op, vs) ∈ cs -> VRet RPanicked ∉ vs) ->
    (forall op vs, pend = Some (op, vs) -> settled_call op /\ Forall (fun v => is_final v = false) vs) ->
    visible ls = call_labels 0 (concat css ++ cs ++ option_list pend) ->
    served s c y h lost y'.
Definition session_events (h : history) (lost : option request) : list event :=
  map (fun x => Answered (fst x) (snd x)) h ++ map Lost (option_list lost).
(** A server on a partition that is killed and started again any number of times.
    When it is killed the records of the objects have an exact exponent (C24). *)
Inductive server_lives (s : server) (c : dcfg) (pages : list (list N)) : list event -> dsys -> Prop :=
| lives_first y0 h lost y :
    fresh_partition c pages y0 -> sv_lpage s = dc_lpage c -> served s c y0 h lost y ->
    server_lives s c pages (session_events h lost) y
| lives_again es y1 y2 h lost y3 :
    server_lives s c pages es y1 -> ~ inexact c y1 -> reopened c y1 y2 -> served s c y2 h lost y3 ->
    server_lives s c pages (es ++ Killed :: session_events h lost) y3.

(** Requests the model covers, with paths made of bytes; no handler has panicked. *)
Definition event_ok (s : server) (e : event) : Prop :=
  match e with
  | Answered rq r => request_ok s rq /\ Forall is_byte (rq_path rq) /\ r <> Aborted
  | Lost rq => request_ok s rq /\ Forall is_byte (rq_path rq)
  | Killed => True
  end.

(** ** Histories *)
Definition answered (es : list event) : history := omap (fun e => match e with Answered rq r => Some (rq, r) | _ => None end) es.
(** Request [rq] was made, answered or not. *)
Definition made (es : list event) (rq : request) : Prop := Lost rq ∈ es \/ exists r, Answered rq r ∈ es.
(** [bytes] were written to the part at [offset], and no request in [es] wrote to it
    afterwards. *)
Definition last_kept (s : server) (es : list event) (tok : list N) (offset : N) (bytes : list N) : Prop :=
  exists e1 rq receipt e2 len body,
    es = e1 ++ Answered rq (RespReceipt 202 receipt) :: e2 /\ rq_method rq = HPatch tok offset len body /\ stream_bytes body = bytes /\
    forall rq' tok' len' body', made e2 rq' -> rq_method rq' = HPatch tok' offset len' body' -> upload_of s tok' <> upload_of s tok.
(** A request that was not answered has not changed what is stored under [key]. *)
Definition untouched_lost (before : history) (key : list N) (rq : request) : Prop :=
  needs rq <> Some (DeleteObject key) /\
  (forall tok receipts, rq_method rq = HPut tok receipts -> exists key' size, upload_for before tok key' size /\ key' <> key) /\
  (forall size body es tail, needs rq = Some BatchCreateObjects -> rq_method rq = HPost size body ->
     Forall valid_entry es -> concat body = concat (map entry_bytes es) ++ tail -> key ∉ map fst es).
Definition leaves_alone_ev (before : list event) (key : list N) (es : list event) : Prop :=
  forall e1 e e2, es = e1 ++ e :: e2 ->
    match e with
    | Answered rq r => untouched (answered (before ++ e1)) key rq r
    | Lost rq => untouched_lost (answered (before ++ e1)) key rq
    | Killed => True
    end.
