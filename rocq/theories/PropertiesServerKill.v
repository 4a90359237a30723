(** C57: the HTTP server killed at any point. *)
From Coq Require Import ZifyBool ZifyNat ZifyN.
From stdpp Require Import base numbers option gmap sets functions list.
From Verif Require Import Util Bytes PageIOModel PageIOSpec TokenModel TokenProofs HttpModel BatchProofs DirectModel DirectSpec DirectBase DirectSeqSpec DirectDrive DirectSeq.
From Verif Require Import DirectSys DirectLoadModel DirectAlive DirectRestartSpec DirectRestart4 PropertiesToken PropertiesDirect PropertiesRestart.
From Verif Require Import ServerModel ServerSpec ServerProofs ServerHist ServerCrashSpec ServerCrash ServerKillSpec ServerKill ServerKillEvents PropertiesServer PropertiesServerCrash.
Open Scope N_scope.
Ltac Zify.zify_post_hook ::= idtac.

(** * C57 *)
(** The process is killed and started again any number of times, at any point but one
    at which an object is being removed, and at last at any point at all.  Then
    all answers are those of the object store of ServerSpec.v, where a request
    that got no answer has the effects [loses_any] lists.

    Missing for the full property: being killed again after having been killed while
    an object was being removed (C25 shows that objects then come back), records
    whose exponent is not exact (C24) and handlers that panicked. *)
Theorem C57_killed_at_any_point_partial : forall s c pages es y,
  is_mac (sv_mac s) -> cfg_ok c -> server_killed s c pages es y -> Forall (event_ok s) es ->
  exists Q, survives_any_all s q_empty es Q.
Proof.
  intros s c pages es y Hm Hc Hl Hok. exact (killed_survives s (fun m => proj1 (Hm m)) (fun m => proj2 (Hm m)) c pages es y Hc Hl Hok).
Qed.
Print Assumptions C57_killed_at_any_point_partial.

(** The histories of [C57_server_survives_restarts_partial] are among these. *)
Theorem C57_covers_restarts : forall s c pages es y,
  is_mac (sv_mac s) -> cfg_ok c -> server_lives s c pages es y -> Forall (event_ok s) es -> server_killed s c pages es y.
Proof.
  intros s c pages es y Hm Hc Hl Hok. constructor. exact (lives_runs s (fun m => proj1 (Hm m)) (fun m => proj2 (Hm m)) c pages es y Hc Hl Hok).
Qed.
Print Assumptions C57_covers_restarts.

(** Wherever it was killed, the server starts again. *)
Theorem C57_starts_again_after_any_kill_partial : forall s c pages es y,
  is_mac (sv_mac s) -> cfg_ok c -> server_runs s c pages es y -> Forall (event_ok s) es -> ~ inexact c y ->
  (exists init t, loadable c y init t (concat init)) /\
  forall init t order, loadable c y init t order -> exists y', opening c y t order = Some y'.
Proof.
  intros s c pages es y Hm Hc Hl Hok Hex.
  destruct (runs_survives s (fun m => proj1 (Hm m)) (fun m => proj2 (Hm m)) c pages es y Hc Hl Hok) as (_ & Hal & _ & z & lk & HA & _).
  split.
  - destruct (alive_loadable _ _ _ _ HA) as (init & t & Ho). exists init, t. split; [exact Ho|reflexivity].
  - intros init t order Hld. destruct (restart_alive c y z lk init t order Hc HA Hex Hal Hld) as (y' & _ & _ & E & _). eauto.
Qed.
Print Assumptions C57_starts_again_after_any_kill_partial.

(** Data that was uploaded and committed is there, wherever the process was killed,
    until a request deletes or replaces the object. *)
Theorem C57_uploaded_data_survives_any_kill_partial : forall s c pages y pre create tok mid commit receipts post lastrq r key data,
  let before := pre ++ [Answered create (RespUpload 202 tok)] ++ mid ++ [Answered commit (Resp 201)] in
  let es := before ++ post ++ [Answered lastrq r] in
  is_mac (sv_mac s) -> cfg_ok c -> server_killed s c pages es y -> Forall (event_ok s) es ->
  needs create = Some (CreateObject key (N.of_nat (length data))) -> rq_method commit = HPut tok receipts ->
  (forall i, i * 2 ^ sv_lpage s < N.of_nat (length data) ->
     last_kept s mid tok (i * 2 ^ sv_lpage s) (take (N.to_nat (2 ^ sv_lpage s)) (drop (N.to_nat (i * 2 ^ sv_lpage s)) data))) ->
  leaves_alone_ev before key post ->
  answers_with s key data lastrq r.
Proof.
  intros s c pages y pre create tok mid commit receipts post lastrq r key data before es Hm Hc Hl Hok Hn Em Hp HL.
  destruct (C57_killed_at_any_point_partial s c pages es y Hm Hc Hl Hok) as [Q HQ].
  eapply uploaded_survives_any; eassumption.
Qed.
Print Assumptions C57_uploaded_data_survives_any_kill_partial.

Theorem C57_batch_data_survives_any_kill_partial : forall s c pages y pre batch size body n post lastrq r,
  let before := pre ++ [Answered batch (RespCount 200 n)] in
  let es := before ++ post ++ [Answered lastrq r] in
  is_mac (sv_mac s) -> cfg_ok c -> server_killed s c pages es y -> Forall (event_ok s) es ->
  needs batch = Some BatchCreateObjects -> permitted s batch BatchCreateObjects -> rq_method batch = HPost size body ->
  exists objects tail, Forall valid_entry objects /\ concat body = concat (map entry_bytes objects) ++ tail /\
    n = N.of_nat (length objects) /\ (forall e tail', valid_entry e -> tail <> entry_bytes e ++ tail') /\
    forall e1 key data e2, objects = e1 ++ (key, data) :: e2 -> key ∉ map fst e2 -> leaves_alone_ev before key post ->
      answers_with s key data lastrq r.
Proof.
  intros s c pages y pre batch size body n post lastrq r before es Hm Hc Hl Hok Hn Hp Em.
  destruct (C57_killed_at_any_point_partial s c pages es y Hm Hc Hl Hok) as [Q HQ].
  eapply batch_survives_any; eassumption.
Qed.
Print Assumptions C57_batch_data_survives_any_kill_partial.

(** A PUT during which the process was killed happened entirely or not at all: an
    upload is created for a key and all parts of the data are written; [r0] is the
    answer to a GET of the key just before the PUT.  Afterwards GET and HEAD
    answer as for what [r0] shows (an object with these bytes, or none), or as
    for the uploaded data. *)
Theorem C57_interrupted_commit_all_or_nothing_partial : forall s c pages y pre create tok mid first r0 commit receipts post lastrq r key data,
  let before := (pre ++ [Answered create (RespUpload 202 tok)] ++ mid) ++ [Answered first r0] in
  let es := before ++ [Lost commit] ++ post ++ [Answered lastrq r] in
  is_mac (sv_mac s) -> cfg_ok c -> server_killed s c pages es y -> Forall (event_ok s) es ->
  needs create = Some (CreateObject key (N.of_nat (length data))) -> rq_method commit = HPut tok receipts ->
  (forall i, i * 2 ^ sv_lpage s < N.of_nat (length data) ->
     last_kept s mid tok (i * 2 ^ sv_lpage s) (take (N.to_nat (2 ^ sv_lpage s)) (drop (N.to_nat (i * 2 ^ sv_lpage s)) data))) ->
  needs first = Some (ReadObject key) -> permitted s first (ReadObject key) -> rq_method first = HGet None ->
  leaves_alone_ev (before ++ [Lost commit]) key post ->
  answers_as s key (shown r0) lastrq r \/ answers_as s key (Some data) lastrq r.
Proof.
  intros s c pages y pre create tok mid first r0 commit receipts post lastrq r key data before es Hm Hc Hl Hok Hn Em Hp G1 G2 G3 HL.
  destruct (C57_killed_at_any_point_partial s c pages es y Hm Hc Hl Hok) as [Q HQ].
  eapply lost_put; eassumption.
Qed.
Print Assumptions C57_interrupted_commit_all_or_nothing_partial.

(** The same for DELETE. *)
Theorem C57_interrupted_delete_all_or_nothing_partial : forall s c pages y pre first r0 del post lastrq r key,
  let before := pre ++ [Answered first r0] in
  let es := before ++ [Lost del] ++ post ++ [Answered lastrq r] in
  is_mac (sv_mac s) -> cfg_ok c -> server_killed s c pages es y -> Forall (event_ok s) es ->
  needs del = Some (DeleteObject key) ->
  needs first = Some (ReadObject key) -> permitted s first (ReadObject key) -> rq_method first = HGet None ->
  leaves_alone_ev (before ++ [Lost del]) key post ->
  answers_as s key (shown r0) lastrq r \/ answers_as s key None lastrq r.
Proof.
  intros s c pages y pre first r0 del post lastrq r key before es Hm Hc Hl Hok Hn G1 G2 G3 HL.
  destruct (C57_killed_at_any_point_partial s c pages es y Hm Hc Hl Hok) as [Q HQ].
  eapply lost_delete; eassumption.
Qed.
Print Assumptions C57_interrupted_delete_all_or_nothing_partial.

(** ** Examples *)
Definition session_any_b (css : list (list (dop * list vis))) (cs : list (dop * list vis)) (pd : option (dop * list vis)) : bool :=
  forallb over_b (concat css) && forallb over_b cs &&
  forallb (fun c => forallb (fun v => match v with VRet RPanicked => false | _ => true end) (snd c)) cs &&
  match pd with Some (op, vs) => forallb (fun v => negb (is_final v)) vs | None => true end.
Lemma served_any_by s c y ls y' l lost h css cs pd : dsteps c y ls y' -> exec_session s l lost = Some (h, css, cs, pd) -> session_any_b css cs pd = true ->
  visible ls = call_labels 0 (concat css ++ cs ++ option_list pd) -> served_any s c y h ((fun x => fst (fst x)) <$> lost) y'.
Proof.
  intros Hd Hx Hb HL. unfold exec_session in Hx. destruct (exec_all s l) as [[css' h']|] eqn:E; [|discriminate Hx]. cbn [mbind option_bind] in Hx.
  unfold session_any_b in Hb. apply andb_true_iff in Hb as [Hb B4]. apply andb_true_iff in Hb as [Hb B3]. apply andb_true_iff in Hb as [B1 B2].
  assert (Hrest : css' = css /\ h' = h /\ match (fun x : request * list (list vis) * option (list vis) => fst (fst x)) <$> lost with Some rq => cut (handle s rq) cs pd | None => cs = [] /\ pd = None end).
  { destruct lost as [[[rq rs] pend]|]; cbn [fmap option_fmap option_map fst].
    - destruct (exec_cut (handle s rq) rs pend) as [[cs' pd']|] eqn:E2; [|discriminate Hx]. cbn [mbind option_bind] in Hx. injection Hx as <- <- <- <-.
      split; [reflexivity|]. split; [reflexivity|]. eapply exec_cut_ok, E2.
    - injection Hx as <- <- <- <-. auto. }
  destruct Hrest as (-> & -> & Hcut).
  eapply served_any_intro; [exact Hd|eapply exec_all_runs, E|apply over_b_ok, B1|exact Hcut|apply over_b_ok, B2| | |exact HL].
  - intros op vs Hin Hp. rewrite forallb_forall in B3. apply elem_of_list_In, B3 in Hin. cbn [snd] in Hin. rewrite forallb_forall in Hin.
    apply elem_of_list_In, Hin in Hp. discriminate Hp.
  - intros op vs ->. apply Forall_forall. intros v Hv. rewrite forallb_forall in B4. apply elem_of_list_In, B4 in Hv. now apply negb_true_iff.
Qed.

(** Objects "a" and "b" are stored.  Another upload for "b" is created, written and
    committed; the process is killed when the commit is already on disk and the
    old "b" is being removed. *)
Definition exk_b : list N := [98].
Definition exk_path : list N := [47; 98].
Definition exk_up1 : list N := upload_token toy_mac (Itoken 21 0) 2.
Definition exk_up2 : list N := upload_token toy_mac (Itoken 31 0) 3.
Definition exk_rc (id : N) : list N := write_receipt toy_mac (Itoken id 0) 0.
Definition exk_create1 : request := ex_rq exk_path (CreateObject exk_b 2) (HPost 2 []).
Definition exk_patch1 : request := ex_rq exk_path (WriteObject exk_b) (HPatch exk_up1 0 2 [Data [8; 9]]).
Definition exk_put1 : request := ex_rq exk_path (CommitObject exk_b) (HPut exk_up1 (exk_rc 21)).
Definition exk_create2 : request := ex_rq exk_path (CreateObject exk_b 3) (HPost 3 []).
Definition exk_patch2 : request := ex_rq exk_path (WriteObject exk_b) (HPatch exk_up2 0 3 [Data [4; 5; 6]]).
Definition exk_put2 : request := ex_rq exk_path (CommitObject exk_b) (HPut exk_up2 (exk_rc 31)).
Definition exk_runs : list (list ev) :=
  [do_create 0 ex_k 5 1 2 ++ [ECall (OWrite 1 0 5 [Data [1; 2]; Data [3; 4; 5]])] ++ steps 1 (replicate 8 2)
   ++ [ECall (OCommit 1 false)] ++ steps 2 [20; 20; 20; 20; 21] ++ [EFlush] ++ steps 2 [21; 21]
   ++ do_create 3 [98] 2 21 22 ++ [ECall (OWrite 21 0 2 [Data [8; 9]])] ++ steps 4 (replicate 7 22)
   ++ [ECall (OCommit 21 false)] ++ steps 5 [30; 30; 30; 30; 31] ++ [EFlush] ++ steps 5 [31; 31]
   ++ do_create 6 [98] 3 31 32 ++ [ECall (OWrite 31 0 3 [Data [4; 5; 6]])] ++ steps 7 (replicate 7 32)
   ++ [ECall (ORead [98] None 0 None 8192)] ++ steps 8 [33; 33; 33]
   ++ [ECall (OCommit 31 false)] ++ steps 9 [40; 40; 40; 40; 41] ++ [EFlush] ++ steps 9 [41];
   [ECall (ORead ex_k None 1 (Some 4) 8192)] ++ steps 0 [50; 50; 50] ++ [ECall (ORead [98] None 0 None 8192)] ++ steps 1 [50; 50; 50]].
Definition exk_labels : list (list label) :=
  [[LCall 0 (OCreate [97] 5); LVis 0 (VRet (RCreated 1)); LCall 1 (OWrite 1 0 5 [Data [1; 2]; Data [3; 4; 5]]); LVis 1 (VRet RWritten);
    LCall 2 (OCommit 1 false); LVis 2 (VRet (RCommitted (Some 20)));
    LCall 3 (OCreate [98] 2); LVis 3 (VRet (RCreated 21)); LCall 4 (OWrite 21 0 2 [Data [8; 9]]); LVis 4 (VRet RWritten);
    LCall 5 (OCommit 21 false); LVis 5 (VRet (RCommitted (Some 30)));
    LCall 6 (OCreate [98] 3); LVis 6 (VRet (RCreated 31)); LCall 7 (OWrite 31 0 3 [Data [4; 5; 6]]); LVis 7 (VRet RWritten);
    LCall 8 (ORead [98] None 0 None 8192); LVis 8 (VRet (RReading 30 2 0 2)); LVis 8 (VChunk [8; 9]); LVis 8 (VEnd RDone);
    LCall 9 (OCommit 31 false)];
   [LCall 0 (ORead [97] None 1 (Some 4) 8192); LVis 0 (VRet (RReading 20 5 1 4)); LVis 0 (VChunk [2; 3; 4]); LVis 0 (VEnd RDone);
    LCall 1 (ORead [98] None 0 None 8192); LVis 1 (VRet (RReading 40 3 0 3)); LVis 1 (VChunk [4; 5; 6]); LVis 1 (VEnd RDone)]].
Definition exk_old : response := RespBody 200 [50] (content_range 0 2 2) 30 [8; 9].
Definition exk_new : response := RespBody 200 [51] (content_range 0 3 3) 40 [4; 5; 6].
Definition exk_pre : list event :=
  [Answered ex_create (RespUpload 202 ex_up); Answered ex_patch (RespReceipt 202 (exk_rc 1)); Answered ex_put (Resp 201);
   Answered exk_create1 (RespUpload 202 exk_up1); Answered exk_patch1 (RespReceipt 202 (exk_rc 21)); Answered exk_put1 (Resp 201)].
Definition exk_mid : list event := [Answered exk_patch2 (RespReceipt 202 (exk_rc 31))].
Definition exk_before : list event := (exk_pre ++ [Answered exk_create2 (RespUpload 202 exk_up2)] ++ exk_mid) ++ [Answered ex_get_b exk_old].
Definition exk_post : list event := [Killed; Answered ex_get (RespBody 206 [51] (content_range 1 4 5) 20 [2; 3; 4])].
Definition exk_events : list event := exk_before ++ [Lost exk_put2] ++ exk_post ++ [Answered ex_get_b exk_new].

Lemma exk_killed : exists y, server_killed ex_srv (ex_cfg 10 16384) (PropertiesTuples.ex_pages 1) exk_events y.
Proof.
  destruct (ex_sessions_show 10 16384 (hd [] exk_runs) (tl exk_runs) (fun _ => tt) exk_labels tt ltac:(vm_compute; reflexivity)) as (y0 & y & hs & H1 & H2 & H3 & _).
  destruct hs as [|l1 [|l2 [|]]]; try discriminate H3. unfold exk_labels in H3. cbn [fmap list_fmap] in H3. injection H3 as E1 E2.
  apply (sessions_last _ _ [l1] l2) in H2 as (y2 & y3 & H2 & X3 & X4 & S2); [|discriminate].
  apply sessions_one in H2 as S1.
  assert (served_any ex_srv (ex_cfg 10 16384) y0
    [(ex_create, RespUpload 202 ex_up); (ex_patch, RespReceipt 202 (exk_rc 1)); (ex_put, Resp 201);
     (exk_create1, RespUpload 202 exk_up1); (exk_patch1, RespReceipt 202 (exk_rc 21)); (exk_put1, Resp 201);
     (exk_create2, RespUpload 202 exk_up2); (exk_patch2, RespReceipt 202 (exk_rc 31)); (ex_get_b, exk_old)] (Some exk_put2) y2) as V1.
  { eapply (served_any_by ex_srv (ex_cfg 10 16384) y0 l1 y2
      [(ex_create, [[VRet (RCreated 1)]]); (ex_patch, [[VRet RWritten]]); (ex_put, [[VRet (RCommitted (Some 20))]]);
       (exk_create1, [[VRet (RCreated 21)]]); (exk_patch1, [[VRet RWritten]]); (exk_put1, [[VRet (RCommitted (Some 30))]]);
       (exk_create2, [[VRet (RCreated 31)]]); (exk_patch2, [[VRet RWritten]]); (ex_get_b, [[VRet (RReading 30 2 0 2); VChunk [8; 9]; VEnd RDone]])]
      (Some (exk_put2, [], Some [])));
      [exact S1|vm_compute; reflexivity|vm_compute; reflexivity|rewrite E1; vm_compute; reflexivity]. }
  assert (served_any ex_srv (ex_cfg 10 16384) y3 [(ex_get, RespBody 206 [51] (content_range 1 4 5) 20 [2; 3; 4]); (ex_get_b, exk_new)] None y) as V2.
  { eapply (served_any_by ex_srv (ex_cfg 10 16384) y3 l2 y
      [(ex_get, [[VRet (RReading 20 5 1 4); VChunk [2; 3; 4]; VEnd RDone]]); (ex_get_b, [[VRet (RReading 40 3 0 3); VChunk [4; 5; 6]; VEnd RDone]])] None);
      [exact S2|vm_compute; reflexivity|vm_compute; reflexivity|rewrite E2; vm_compute; reflexivity]. }
  exists y. exact (killed_last ex_srv _ _ _ _ _ _ _ _ (runs_first ex_srv _ _ _ _ _ _ H1 eq_refl V1) X3 X4 V2).
Qed.

(** All that [C57_interrupted_commit_all_or_nothing_partial] assumes. *)
Theorem C57_kill_example : exists y,
  is_mac (sv_mac ex_srv) /\ cfg_ok (ex_cfg 10 16384) /\ Forall (event_ok ex_srv) exk_events /\
  server_killed ex_srv (ex_cfg 10 16384) (PropertiesTuples.ex_pages 1) exk_events y /\
  needs exk_create2 = Some (CreateObject exk_b 3) /\
  (forall i, i * 2 ^ sv_lpage ex_srv < 3 ->
     last_kept ex_srv exk_mid exk_up2 (i * 2 ^ sv_lpage ex_srv)
       (take (N.to_nat (2 ^ sv_lpage ex_srv)) (drop (N.to_nat (i * 2 ^ sv_lpage ex_srv)) [4; 5; 6]))) /\
  needs ex_get_b = Some (ReadObject exk_b) /\ permitted ex_srv ex_get_b (ReadObject exk_b) /\ rq_method ex_get_b = HGet None /\
  leaves_alone_ev (exk_before ++ [Lost exk_put2]) exk_b exk_post.
Proof.
  destruct exk_killed as [y Hy]. exists y. split; [exact toy_is_mac|]. split; [constructor; cbn; lia|]. split.
  { unfold exk_events, exk_before, exk_post, exk_mid, exk_pre. cbn [app].
    repeat (apply Forall_cons; split; [try exact I; (split; [vm_compute; try split; try constructor|]); try split; try discriminate; vm_compute; repeat constructor|]). constructor. }
  split; [exact Hy|]. split; [vm_compute; reflexivity|]. split.
  { intros i Hi. cbn [sv_lpage ex_srv] in *. assert (i = 0) as -> by (destruct i as [|p]; [reflexivity|exfalso; change (2 ^ 10) with 1024 in Hi; lia]).
    exists [], exk_patch2, (exk_rc 31), [], 3, [Data [4; 5; 6]].
    split; [reflexivity|]. split; [reflexivity|]. split; [vm_compute; reflexivity|]. intros rq' tok' len' body' H Em.
    apply made_elem in H as (e & Hin & He). apply elem_of_nil in Hin. contradiction. }
  split; [vm_compute; reflexivity|]. split; [right; exists 100; split; [reflexivity|]; split; [reflexivity|]; reflexivity|]. split; [reflexivity|].
  intros h1 e h2 E. unfold exk_post in E. destruct h1 as [|x h1]; [injection E as <- <-; exact I|injection E as <- E; destruct h1 as [|x h1]; [injection E as <- <-|destruct h1; discriminate E]].
  split; [intros _ E; discriminate E|]. split; [intros tok receipts E; discriminate E|]. intros size body es tail E _. vm_compute in E. discriminate E.
Qed.
Print Assumptions C57_kill_example.

(** "a" is stored; the process is killed while it deletes it, and "a" is still there. *)
Definition exd_get : request := ex_rq ex_path (ReadObject ex_k) (HGet None).
Definition exd_del : request := ex_rq ex_path (DeleteObject ex_k) HDelete.
Definition exd_runs : list (list ev) :=
  [do_create 0 ex_k 5 1 2 ++ [ECall (OWrite 1 0 5 [Data [1; 2]; Data [3; 4; 5]])] ++ steps 1 (replicate 8 2)
   ++ [ECall (OCommit 1 false)] ++ steps 2 [20; 20; 20; 20; 21] ++ [EFlush] ++ steps 2 [21; 21]
   ++ [ECall (ORead ex_k None 0 None 8192)] ++ steps 3 [33; 33; 33]
   ++ [ECall (ODelete ex_k None)] ++ steps 4 [41; 41];
   [ECall (ORead ex_k None 0 None 8192)] ++ steps 0 [50; 50; 50]].
Definition exd_labels : list (list label) :=
  [[LCall 0 (OCreate [97] 5); LVis 0 (VRet (RCreated 1)); LCall 1 (OWrite 1 0 5 [Data [1; 2]; Data [3; 4; 5]]); LVis 1 (VRet RWritten);
    LCall 2 (OCommit 1 false); LVis 2 (VRet (RCommitted (Some 20)));
    LCall 3 (ORead [97] None 0 None 8192); LVis 3 (VRet (RReading 20 5 0 5)); LVis 3 (VChunk [1; 2; 3; 4; 5]); LVis 3 (VEnd RDone);
    LCall 4 (ODelete [97] None)];
   [LCall 0 (ORead [97] None 0 None 8192); LVis 0 (VRet (RReading 20 5 0 5)); LVis 0 (VChunk [1; 2; 3; 4; 5]); LVis 0 (VEnd RDone)]].
Definition exd_body : response := RespBody 200 [53] (content_range 0 5 5) 20 [1; 2; 3; 4; 5].
Definition exd_before : list event :=
  [Answered ex_create (RespUpload 202 ex_up); Answered ex_patch (RespReceipt 202 (exk_rc 1)); Answered ex_put (Resp 201)] ++ [Answered exd_get exd_body].
Definition exd_events : list event := exd_before ++ [Lost exd_del] ++ [Killed] ++ [Answered exd_get exd_body].
Theorem C57_kill_delete_example : exists y,
  is_mac (sv_mac ex_srv) /\ cfg_ok (ex_cfg 10 16384) /\ Forall (event_ok ex_srv) exd_events /\
  server_killed ex_srv (ex_cfg 10 16384) (PropertiesTuples.ex_pages 1) exd_events y /\
  needs exd_del = Some (DeleteObject ex_k) /\
  needs exd_get = Some (ReadObject ex_k) /\ permitted ex_srv exd_get (ReadObject ex_k) /\ rq_method exd_get = HGet None /\
  leaves_alone_ev (exd_before ++ [Lost exd_del]) ex_k [Killed].
Proof.
  destruct (ex_sessions_show 10 16384 (hd [] exd_runs) (tl exd_runs) (fun _ => tt) exd_labels tt ltac:(vm_compute; reflexivity)) as (y0 & y & hs & H1 & H2 & H3 & _).
  destruct hs as [|l1 [|l2 [|]]]; try discriminate H3. unfold exd_labels in H3. cbn [fmap list_fmap] in H3. injection H3 as E1 E2.
  apply (sessions_last _ _ [l1] l2) in H2 as (y2 & y3 & H2 & X3 & X4 & S2); [|discriminate].
  apply sessions_one in H2 as S1.
  assert (served_any ex_srv (ex_cfg 10 16384) y0
    [(ex_create, RespUpload 202 ex_up); (ex_patch, RespReceipt 202 (exk_rc 1)); (ex_put, Resp 201); (exd_get, exd_body)] (Some exd_del) y2) as V1.
  { eapply (served_any_by ex_srv (ex_cfg 10 16384) y0 l1 y2
      [(ex_create, [[VRet (RCreated 1)]]); (ex_patch, [[VRet RWritten]]); (ex_put, [[VRet (RCommitted (Some 20))]]);
       (exd_get, [[VRet (RReading 20 5 0 5); VChunk [1; 2; 3; 4; 5]; VEnd RDone]])]
      (Some (exd_del, [], Some [])));
      [exact S1|vm_compute; reflexivity|vm_compute; reflexivity|rewrite E1; vm_compute; reflexivity]. }
  assert (served_any ex_srv (ex_cfg 10 16384) y3 [(exd_get, exd_body)] None y) as V2.
  { eapply (served_any_by ex_srv (ex_cfg 10 16384) y3 l2 y [(exd_get, [[VRet (RReading 20 5 0 5); VChunk [1; 2; 3; 4; 5]; VEnd RDone]])] None);
      [exact S2|vm_compute; reflexivity|vm_compute; reflexivity|rewrite E2; vm_compute; reflexivity]. }
  exists y. split; [exact toy_is_mac|]. split; [constructor; cbn; lia|]. split.
  { unfold exd_events, exd_before. cbn [app].
    repeat (apply Forall_cons; split; [try exact I; (split; [vm_compute; try split; try constructor|]); try split; try discriminate; vm_compute; repeat constructor|]). constructor. }
  split; [exact (killed_last ex_srv _ _ _ _ _ _ _ _ (runs_first ex_srv _ _ _ _ _ _ H1 eq_refl V1) X3 X4 V2)|].
  split; [vm_compute; reflexivity|]. split; [vm_compute; reflexivity|]. split; [right; exists 100; split; [reflexivity|]; split; [reflexivity|]; reflexivity|]. split; [reflexivity|].
  intros h1 e h2 E. destruct h1 as [|x h1]; [injection E as <- <-; exact I|destruct h1; discriminate E].
Qed.
Print Assumptions C57_kill_delete_example.
