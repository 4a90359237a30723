(** C57: the HTTP server over kills and restarts. *)
From Coq Require Import ZifyBool ZifyNat ZifyN.
From stdpp Require Import base numbers option gmap sets functions list.
From Verif Require Import Util Bytes PageIOModel PageIOSpec TokenModel TokenProofs HttpModel BatchProofs DirectModel DirectSpec DirectBase DirectSeqSpec DirectDrive DirectSeq.
From Verif Require Import DirectSys DirectLoadModel DirectAlive DirectRestartSpec DirectRestart4 PropertiesToken PropertiesDirect PropertiesRestart.
From Verif Require Import ServerModel ServerSpec ServerProofs ServerHist ServerCrashSpec ServerCrash PropertiesServer.
Open Scope N_scope.
Ltac Zify.zify_post_hook ::= idtac.

(** * C57 *)
(** Requests are handled one after another by a server on a freshly formatted
    partition; the process is killed and started again any number of times,
    possibly while it handles a request.  Then all answers are those of the object
    store of ServerSpec.v with one set of uploads and objects for the whole history: a
    restart changes nothing, and a request that got no answer has the effects
    [loses] lists.

    Missing for the full property: being killed during a call to commit or delete
    (PropertiesServerKill.v), records whose exponent is not exact (C24) and handlers
    that panicked (C25 has refutations). *)
Theorem C57_server_survives_restarts_partial : forall s c pages es y,
  is_mac (sv_mac s) -> cfg_ok c -> server_lives s c pages es y -> Forall (event_ok s) es ->
  exists Q, survives_all s q_empty es Q.
Proof.
  intros s c pages es y Hm Hc Hl Hok.
  destruct (lives_survives s (fun m => proj1 (Hm m)) (fun m => proj2 (Hm m)) c pages es y Hc Hl Hok) as (_ & _ & z & lk & _ & _ & H & _). exact H.
Qed.
Print Assumptions C57_server_survives_restarts_partial.

(** The server can be started again: the index of the partition is readable, and
    opening succeeds whatever order its objects are loaded in. *)
Theorem C57_server_starts_again_partial : forall s c pages es y,
  is_mac (sv_mac s) -> cfg_ok c -> server_lives s c pages es y -> Forall (event_ok s) es -> ~ inexact c y ->
  (exists init t, loadable c y init t (concat init)) /\
  forall init t order, loadable c y init t order -> exists y', opening c y t order = Some y'.
Proof.
  intros s c pages es y Hm Hc Hl Hok Hex.
  destruct (lives_survives s (fun m => proj1 (Hm m)) (fun m => proj2 (Hm m)) c pages es y Hc Hl Hok) as (_ & Hal & z & lk & HA & _).
  split.
  - destruct (alive_loadable _ _ _ _ HA) as (init & t & Ho). exists init, t. split; [exact Ho|reflexivity].
  - intros init t order Hld. destruct (restart_alive c y z lk init t order Hc HA Hex Hal Hld) as (y' & _ & _ & E & _). eauto.
Qed.
Print Assumptions C57_server_starts_again_partial.

(** Whatever else is requested in between, and however often the server is killed and
    started again between or during these requests: an upload is created for a
    key, every part of the data is written and acknowledged and no later request,
    answered or not, writes to it, and the upload is committed with 201; as long
    as no later request deletes or replaces the object of that key, GET answers
    with exactly that data (or the requested range of it) and HEAD with its
    length. *)
Theorem C57_uploaded_data_survives_restarts_partial : forall s c pages y pre create tok mid commit receipts post lastrq r key data,
  let before := pre ++ [Answered create (RespUpload 202 tok)] ++ mid ++ [Answered commit (Resp 201)] in
  let es := before ++ post ++ [Answered lastrq r] in
  is_mac (sv_mac s) -> cfg_ok c -> server_lives s c pages es y -> Forall (event_ok s) es ->
  needs create = Some (CreateObject key (N.of_nat (length data))) -> rq_method commit = HPut tok receipts ->
  (forall i, i * 2 ^ sv_lpage s < N.of_nat (length data) ->
     last_kept s mid tok (i * 2 ^ sv_lpage s) (take (N.to_nat (2 ^ sv_lpage s)) (drop (N.to_nat (i * 2 ^ sv_lpage s)) data))) ->
  leaves_alone_ev before key post ->
  answers_with s key data lastrq r.
Proof.
  intros s c pages y pre create tok mid commit receipts post lastrq r key data before es Hm Hc Hl Hok Hn Em Hp HL.
  destruct (C57_server_survives_restarts_partial s c pages es y Hm Hc Hl Hok) as [Q HQ].
  eapply uploaded_survives; eassumption.
Qed.
Print Assumptions C57_uploaded_data_survives_restarts_partial.

(** The same for the objects of a batch that was answered. *)
Theorem C57_batch_data_survives_restarts_partial : forall s c pages y pre batch size body n post lastrq r,
  let before := pre ++ [Answered batch (RespCount 200 n)] in
  let es := before ++ post ++ [Answered lastrq r] in
  is_mac (sv_mac s) -> cfg_ok c -> server_lives s c pages es y -> Forall (event_ok s) es ->
  needs batch = Some BatchCreateObjects -> permitted s batch BatchCreateObjects -> rq_method batch = HPost size body ->
  exists objects tail, Forall valid_entry objects /\ concat body = concat (map entry_bytes objects) ++ tail /\
    n = N.of_nat (length objects) /\ (forall e tail', valid_entry e -> tail <> entry_bytes e ++ tail') /\
    forall e1 key data e2, objects = e1 ++ (key, data) :: e2 -> key ∉ map fst e2 -> leaves_alone_ev before key post ->
      answers_with s key data lastrq r.
Proof.
  intros s c pages y pre batch size body n post lastrq r before es Hm Hc Hl Hok Hn Hp Em.
  destruct (C57_server_survives_restarts_partial s c pages es y Hm Hc Hl Hok) as [Q HQ].
  eapply batch_survives; eassumption.
Qed.
Print Assumptions C57_batch_data_survives_restarts_partial.

(** ** Examples *)
(** Run a handler on given results of its calls, up to a call that does not return. *)
Fixpoint exec_cut (p : prog) (rs : list (list vis)) (pend : option (list vis)) : option (list (dop * list vis) * option (dop * list vis)) :=
  match rs, p with
  | [], _ => match pend, p with None, _ => Some ([], None) | Some vs, Call op _ => Some ([], Some (op, vs)) | Some _, Ret _ => None end
  | vs :: rs, Call op k => '(cs, pd) ← exec_cut (k vs) rs pend; Some ((op, vs) :: cs, pd)
  | _, _ => None
  end.
Lemma exec_cut_ok rs pend : forall p cs pd, exec_cut p rs pend = Some (cs, pd) -> cut p cs pd.
Proof.
  induction rs as [|vs rs IH]; intros p cs pd H.
  - cbn [exec_cut] in H. destruct pend as [vs|], p; cbn in H; try discriminate H; injection H as <- <-; constructor.
  - destruct p as [r|op k]; cbn [exec_cut] in H; [discriminate H|]. destruct (exec_cut (k vs) rs pend) as [[cs' pd']|] eqn:E; [|discriminate H].
    cbn [mbind option_bind] in H. injection H as <- <-. constructor. apply IH, E.
Qed.
(** The calls of a session, whose last request gets no answer. *)
Definition exec_session (s : server) (l : list (request * list (list vis))) (lost : option (request * list (list vis) * option (list vis))) :
  option (history * list (list (dop * list vis)) * list (dop * list vis) * option (dop * list vis)) :=
  '(css, h) ← exec_all s l;
  match lost with
  | None => Some (h, css, [], None)
  | Some (rq, rs, pend) => '(cs, pd) ← exec_cut (handle s rq) rs pend; Some (h, css, cs, pd)
  end.
Definition settled_call_b (op : dop) : bool := match op with OCommit _ _ | ODelete _ _ => false | _ => true end.
Definition session_b (css : list (list (dop * list vis))) (cs : list (dop * list vis)) (pd : option (dop * list vis)) : bool :=
  forallb over_b (concat css) && forallb over_b cs &&
  forallb (fun c => forallb (fun v => match v with VRet RPanicked => false | _ => true end) (snd c)) cs &&
  match pd with Some (op, vs) => settled_call_b op && forallb (fun v => negb (is_final v)) vs | None => true end.
Lemma served_by s c y ls y' l lost h css cs pd : dsteps c y ls y' -> exec_session s l lost = Some (h, css, cs, pd) -> session_b css cs pd = true ->
  visible ls = call_labels 0 (concat css ++ cs ++ option_list pd) -> served s c y h ((fun x => fst (fst x)) <$> lost) y'.
Proof.
  intros Hd Hx Hb HL. unfold exec_session in Hx. destruct (exec_all s l) as [[css' h']|] eqn:E; [|discriminate Hx]. cbn [mbind option_bind] in Hx.
  unfold session_b in Hb. apply andb_true_iff in Hb as [Hb B4]. apply andb_true_iff in Hb as [Hb B3]. apply andb_true_iff in Hb as [B1 B2].
  assert (Hrest : css' = css /\ h' = h /\ match (fun x : request * list (list vis) * option (list vis) => fst (fst x)) <$> lost with Some rq => cut (handle s rq) cs pd | None => cs = [] /\ pd = None end).
  { destruct lost as [[[rq rs] pend]|]; cbn [fmap option_fmap option_map fst].
    - destruct (exec_cut (handle s rq) rs pend) as [[cs' pd']|] eqn:E2; [|discriminate Hx]. cbn [mbind option_bind] in Hx. injection Hx as <- <- <- <-.
      split; [reflexivity|]. split; [reflexivity|]. eapply exec_cut_ok, E2.
    - injection Hx as <- <- <- <-. auto. }
  destruct Hrest as (-> & -> & Hcut).
  eapply served_intro; [exact Hd|eapply exec_all_runs, E|apply over_b_ok, B1|exact Hcut|apply over_b_ok, B2| | |exact HL].
  - intros op vs Hin Hp. rewrite forallb_forall in B3. apply elem_of_list_In, B3 in Hin. cbn [snd] in Hin. rewrite forallb_forall in Hin.
    apply elem_of_list_In, Hin in Hp. discriminate Hp.
  - intros op vs ->. apply andb_true_iff in B4 as [B4 B5]. split; [destruct op; try exact I; discriminate B4|].
    apply Forall_forall. intros v Hv. rewrite forallb_forall in B5. apply elem_of_list_In, B5 in Hv. now apply negb_true_iff.
Qed.
Lemma sessions_ne c y0 hs y : sessions c y0 hs y -> hs <> [].
Proof. intros H. destruct H; [discriminate|]. intros E. apply app_eq_nil in E as [_ E]. discriminate E. Qed.
Lemma sessions_inv c y0 L y : sessions c y0 L y ->
  (exists ls, L = [ls] /\ dsteps c y0 ls y) \/
  exists hs ls y1 y2, L = hs ++ [ls] /\ sessions c y0 hs y1 /\ ~ inexact c y1 /\ reopened c y1 y2 /\ dsteps c y2 ls y.
Proof. intros H. destruct H; [left; eauto|right; eauto 12]. Qed.
Lemma sessions_last c y0 hs ls y : hs <> [] -> sessions c y0 (hs ++ [ls]) y ->
  exists y1 y2, sessions c y0 hs y1 /\ ~ inexact c y1 /\ reopened c y1 y2 /\ dsteps c y2 ls y.
Proof.
  intros Hne H. apply sessions_inv in H as [(ls' & E & _)|(hs' & ls' & y1 & y2 & E & H1 & H2 & H3 & H4)].
  - apply (app_inj_tail hs [] ls ls') in E as [-> _]. contradiction.
  - apply app_inj_tail in E as [-> ->]. eauto 8.
Qed.
Lemma sessions_one c y0 ls y : sessions c y0 [ls] y -> dsteps c y0 ls y.
Proof.
  intros H. apply sessions_inv in H as [(ls' & E & H)|(hs' & ls' & y1 & y2 & E & H1 & _)]; [congruence|].
  apply (app_inj_tail [] hs' ls ls') in E as [<- _]. exfalso. exact (sessions_ne _ _ _ _ H1 eq_refl).
Qed.

(** An upload is created and written; the server is killed during the creation of
    another one.  It is committed; the server is killed while the object is
    read.  Then it is read. *)
Definition ex_create_b : request := ex_rq [47; 98] (CreateObject [98] 3) (HPost 3 []).
Definition ex57_runs : list (list ev) :=
  [do_create 0 ex_k 5 1 2 ++ [ECall (OWrite 1 0 5 [Data [1; 2]; Data [3; 4; 5]])] ++ steps 1 (replicate 8 2)
   ++ [ECall (OCreate [98] 3)] ++ steps 2 [2; 2; 3; 3] ++ [EFlush];
   [ECall (OCommit 1 false)] ++ steps 0 [20; 20; 20; 20; 21] ++ [EFlush] ++ steps 0 [21; 21] ++ [ECall (ORead ex_k None 1 (Some 4) 8192)] ++ steps 1 [21];
   [ECall (ORead ex_k None 1 (Some 4) 8192)] ++ steps 0 [30; 30; 30]].
Definition ex57_labels : list (list label) :=
  [[LCall 0 (OCreate [97] 5); LVis 0 (VRet (RCreated 1)); LCall 1 (OWrite 1 0 5 [Data [1; 2]; Data [3; 4; 5]]); LVis 1 (VRet RWritten); LCall 2 (OCreate [98] 3)];
   [LCall 0 (OCommit 1 false); LVis 0 (VRet (RCommitted (Some 20))); LCall 1 (ORead [97] None 1 (Some 4) 8192); LVis 1 (VRet (RReading 20 5 1 4))];
   [LCall 0 (ORead [97] None 1 (Some 4) 8192); LVis 0 (VRet (RReading 20 5 1 4)); LVis 0 (VChunk [2; 3; 4]); LVis 0 (VEnd RDone)]].
Definition ex57_receipt : list N := write_receipt toy_mac (Itoken 1 0) 0.
Definition ex57_mid : list event := [Answered ex_patch (RespReceipt 202 ex57_receipt); Lost ex_create_b; Killed].
Definition ex57_before : list event := [] ++ [Answered ex_create (RespUpload 202 ex_up)] ++ ex57_mid ++ [Answered ex_put (Resp 201)].
Definition ex57_post : list event := [Lost ex_get; Killed; Answered ex_stale (Resp 401)].
Definition ex57_events : list event := ex57_before ++ ex57_post ++ [Answered ex_get (RespBody 206 [51] (content_range 1 4 5) 20 [2; 3; 4])].
Lemma ex57_lives : exists y, server_lives ex_srv (ex_cfg 10 16384) (PropertiesTuples.ex_pages 1) ex57_events y.
Proof.
  destruct (ex_sessions_show 10 16384 (hd [] ex57_runs) (tl ex57_runs) (fun _ => tt) ex57_labels tt ltac:(vm_compute; reflexivity)) as (y0 & y & hs & H1 & H2 & H3 & _).
  destruct hs as [|l1 [|l2 [|l3 [|]]]]; try discriminate H3. unfold ex57_labels in H3. cbn [fmap list_fmap] in H3. injection H3 as E1 E2 E3.
  apply (sessions_last _ _ [l1; l2] l3) in H2 as (y4 & y5 & H2 & X1 & X2 & S3); [|discriminate].
  apply (sessions_last _ _ [l1] l2) in H2 as (y2 & y3 & H2 & X3 & X4 & S2); [|discriminate].
  apply sessions_one in H2 as S1.
  assert (served ex_srv (ex_cfg 10 16384) y0 [(ex_create, RespUpload 202 ex_up); (ex_patch, RespReceipt 202 ex57_receipt)] (Some ex_create_b) y2) as V1.
  { eapply (served_by ex_srv (ex_cfg 10 16384) y0 l1 y2 [(ex_create, [[VRet (RCreated 1)]]); (ex_patch, [[VRet RWritten]])] (Some (ex_create_b, [], Some [])));
      [exact S1|vm_compute; reflexivity|vm_compute; reflexivity|rewrite E1; vm_compute; reflexivity]. }
  assert (served ex_srv (ex_cfg 10 16384) y3 [(ex_put, Resp 201)] (Some ex_get) y4) as V2.
  { eapply (served_by ex_srv (ex_cfg 10 16384) y3 l2 y4 [(ex_put, [[VRet (RCommitted (Some 20))]])] (Some (ex_get, [], Some [VRet (RReading 20 5 1 4)])));
      [exact S2|vm_compute; reflexivity|vm_compute; reflexivity|rewrite E2; vm_compute; reflexivity]. }
  assert (served ex_srv (ex_cfg 10 16384) y5 [(ex_stale, Resp 401); (ex_get, RespBody 206 [51] (content_range 1 4 5) 20 [2; 3; 4])] None y) as V3.
  { eapply (served_by ex_srv (ex_cfg 10 16384) y5 l3 y [(ex_stale, []); (ex_get, [[VRet (RReading 20 5 1 4); VChunk [2; 3; 4]; VEnd RDone]])] None);
      [exact S3|vm_compute; reflexivity|vm_compute; reflexivity|rewrite E3; vm_compute; reflexivity]. }
  exists y.
  exact (lives_again ex_srv _ _ _ _ _ _ _ _ (lives_again ex_srv _ _ _ _ _ _ _ _ (lives_first ex_srv _ _ _ _ _ _ H1 eq_refl V1) X3 X4 V2) X1 X2 V3).
Qed.

Theorem C57_example : exists y,
  is_mac (sv_mac ex_srv) /\ cfg_ok (ex_cfg 10 16384) /\ Forall (event_ok ex_srv) ex57_events /\
  server_lives ex_srv (ex_cfg 10 16384) (PropertiesTuples.ex_pages 1) ex57_events y /\
  needs ex_create = Some (CreateObject ex_k 5) /\
  (forall i, i * 2 ^ sv_lpage ex_srv < 5 ->
     last_kept ex_srv ex57_mid ex_up (i * 2 ^ sv_lpage ex_srv)
       (take (N.to_nat (2 ^ sv_lpage ex_srv)) (drop (N.to_nat (i * 2 ^ sv_lpage ex_srv)) [1; 2; 3; 4; 5]))) /\
  leaves_alone_ev ex57_before ex_k ex57_post /\
  needs ex_get = Some (ReadObject ex_k) /\ permitted ex_srv ex_get (ReadObject ex_k).
Proof.
  destruct ex57_lives as [y Hy]. exists y. split; [exact toy_is_mac|]. split; [constructor; cbn; lia|]. split.
  { unfold ex57_events, ex57_before, ex57_post, ex57_mid. cbn [app].
    repeat (apply Forall_cons; split; [try exact I; (split; [vm_compute; try split; try constructor|]); try split; try discriminate; vm_compute; repeat constructor|]). constructor. }
  split; [exact Hy|]. split; [vm_compute; reflexivity|]. split.
  { intros i Hi. cbn [sv_lpage ex_srv] in *. assert (i = 0) as -> by (destruct i as [|p]; [reflexivity|exfalso; change (2 ^ 10) with 1024 in Hi; lia]).
    exists [], ex_patch, ex57_receipt, [Lost ex_create_b; Killed], 5, [Data [1; 2]; Data [3; 4; 5]].
    split; [reflexivity|]. split; [reflexivity|]. split; [vm_compute; reflexivity|]. intros rq' tok' len' body' H Em.
    apply made_elem in H as (e & Hin & He). apply elem_of_cons in Hin as [->|Hin]; [cbn in He; subst rq'; discriminate Em|].
    apply elem_of_list_singleton in Hin as ->. contradiction. }
  split.
  { intros h1 e h2 E. unfold ex57_post in E. destruct h1 as [|x h1]; [injection E as <- <-|injection E as <- E; destruct h1 as [|x h1]; [injection E as <- <-; exact I|injection E as <- E; destruct h1 as [|x h1]; [injection E as <- <-|destruct h1; discriminate E]]].
    - split; [vm_compute; discriminate|]. split; [intros tok receipts E; discriminate E|]. intros size body es tail E _. vm_compute in E. discriminate E.
    - split; [intros _ E; discriminate E|]. split; [intros tok receipts E; discriminate E|]. intros size body es tail E _. vm_compute in E. discriminate E. }
  split; [vm_compute; reflexivity|]. right. exists 100. split; [reflexivity|]. split; [reflexivity|]. reflexivity.
Qed.
Print Assumptions C57_example.
