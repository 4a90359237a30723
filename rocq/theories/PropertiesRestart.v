(** Property C25: opening a direct partition again after the process was killed. *)
From Coq Require Import ZifyBool ZifyNat ZifyN.
From stdpp Require Import base numbers list_numbers option gmap sets functions list.
From Verif Require Import Util Bytes BuddyModel BuddySpec BuddyProofs BuddyInv PageIOModel PageIOSpec TuplesModel TuplesSpec TuplesProofs TuplesDurable.
From Verif Require Import DirectModel DirectBase DirectSteps DirectInv DirectTup DirectAlloc DirectSpec DirectSeqSpec DirectSpaceSpec DirectSys DirectDrive.
From Verif Require Import DirectLoadModel DirectLog DirectAlive DirectRestart DirectRestartSpec DirectRestart4 PropertiesDirectSpace PropertiesDirectConc.
Open Scope N_scope.
Ltac Zify.zify_post_hook ::= idtac.

(** Full property: wherever the process is killed, opening again succeeds, each
    key has the object whose commit was acknowledged last, and the space of
    everything else is free.

    In general this is false (see the refutations below).  Proved here, for
    every history of calls whose metadata records have an exact exponent (C24)
    and in which no call panicked:
    - opening succeeds, in whatever order the entries are processed;
    - after a kill anywhere in the last of any number of sessions, what is found
      is as [crash] says: what is not being removed or published by an
      unfinished call is there, unchanged; an object not committed at that
      moment is there only with the content its key once had; the upload an
      unfinished commit was publishing has all its bytes;
    - if every commit and delete has returned, the committed objects are exactly
      those before the crash, the reserved space is exactly theirs and the
      uploads', and this can be repeated any number of times. *)

(** ** Opening succeeds *)
Lemma fresh_alloc c pages y : fresh_partition c pages y -> alloc_ok c.
Proof. intros HF. exists (h_alloc (y_sh y)). exact (fp_alloc _ _ _ HF). Qed.
Lemma alive_loadable c y z lk : Alive c y z lk -> exists init t, opens (dc_spage c) (sy_disk (h_tup (y_sh y))) init t.
Proof.
  intros [_ (pages & t0 & init & cs & Ho & HK) _ _].
  destruct (reopen _ _ _ _ _ _ Ho (k_valid _ _ _ _ _ _ HK) (k_fresh _ _ _ _ _ _ HK) (k_runs _ _ _ _ _ _ HK)) as (init2 & t2 & J & Ho2 & _). eauto.
Qed.

Theorem C25_opening_succeeds_partial : forall c pages y0 ls y,
  cfg_ok c -> fresh_partition c pages y0 -> dsteps c y0 ls y -> good_session c ls -> ~ inexact c y ->
  (exists init t order, loadable c y init t order) /\
  (forall init t order, loadable c y init t order -> exists y', opening c y t order = Some y').
Proof.
  intros c pages y0 ls y Hc HF Hs [G1 G2 G3] Hex.
  destruct (alive_steps c y0 ls y _ Hc G1 G2 G3 (fresh_alive c pages y0 ltac:(destruct Hc; lia) HF) Hs) as (ls' & z & lk & _ & _ & HA & _).
  split.
  - destruct (alive_loadable _ _ _ _ HA) as (init & t & Ho). exists init, t, (concat init). split; [exact Ho|reflexivity].
  - intros init t order Hl. destruct (restart_alive c y z lk init t order Hc HA Hex (fresh_alloc _ _ _ HF) Hl) as (y' & _ & _ & E & _). eauto.
Qed.
Print Assumptions C25_opening_succeeds_partial.

(** ** Any crash point *)
Notation sys_empty := {| z_state := ss_empty; z_procs := [] |}.
(** Any number of sessions, the process being killed anywhere in the last one. *)
Theorem C25_any_crash_partial : forall c pages y0 hs y1 y2 ls2 y3,
  cfg_ok c -> fresh_partition c pages y0 -> sessions c y0 hs y1 -> Forall (good_session c) hs -> Forall settled_history (removelast hs) ->
  ~ inexact c y1 -> reopened c y1 y2 -> dsteps c y2 ls2 y3 -> valid_calls (dc_lpage c) ls2 ->
  exists hs' z1 S ls2' z2,
    spec_sessions (dc_lpage c) sys_empty hs' z1 /\ Forall2 same_visible hs' hs /\
    crash (dc_lpage c) (once_committed (dc_lpage c) sys_empty hs' z1) z1 S /\
    spec_steps (dc_lpage c) {| z_state := S; z_procs := [] |} ls2' z2 /\ visible ls2' = visible ls2.
Proof.
  intros c pages y0 hs y1 y2 ls2 y3 Hc HF Hs Hg Hset Hex (init & t & order & Hl & Hop) Hs2 Hv2.
  destruct (sessions_refine_old c pages y0 hs y1 Hc HF Hs Hg Hset) as (hs' & z1 & lk & T1 & V1 & HA & _ & _ & HO & Hcur).
  destruct (restart_alive c y1 z1 lk init t order Hc HA Hex (fresh_alloc _ _ _ HF) Hl) as (y2' & S & lk2 & R1 & [R2 _] & R3 & _).
  assert (y2' = y2) as -> by congruence.
  destruct (good_any _ _ _ _ _ _ _ Hc Hv2 R3 Hs2) as (ls2' & z2 & lk3 & zz3 & T2 & V2 & _).
  exists hs', z1, S, ls2', z2. split; [exact T1|]. split; [exact V1|]. split; [exact (R2 _ Hcur HO)|]. auto.
Qed.
Print Assumptions C25_any_crash_partial.

(** ** Crashes when every commit and delete has returned *)
Theorem C25_sessions_partial : forall c pages y hs y',
  cfg_ok c -> fresh_partition c pages y -> sessions c y hs y' -> Forall (good_session c) hs -> Forall settled_history (removelast hs) ->
  exists hs' z', spec_sessions (dc_lpage c) {| z_state := ss_empty; z_procs := [] |} hs' z' /\ Forall2 same_visible hs' hs.
Proof.
  intros c pages y hs y' Hc HF Hs Hg Hset.
  destruct (sessions_refine c pages y hs y' Hc HF Hs Hg Hset) as (hs' & z' & lk & H1 & H2 & _). eauto.
Qed.
Print Assumptions C25_sessions_partial.

(** Such a chain of sessions can always go on. *)
Theorem C25_sessions_go_on_partial : forall c pages y hs y',
  cfg_ok c -> fresh_partition c pages y -> sessions c y hs y' -> Forall (good_session c) hs -> Forall settled_history (removelast hs) -> ~ inexact c y' ->
  (exists init t order, loadable c y' init t order) /\
  (forall init t order, loadable c y' init t order -> exists y2, opening c y' t order = Some y2).
Proof.
  intros c pages y hs y' Hc HF Hs Hg Hset Hex.
  destruct (sessions_refine c pages y hs y' Hc HF Hs Hg Hset) as (hs' & z' & lk & _ & _ & HA & _). split.
  - destruct (alive_loadable _ _ _ _ HA) as (init & t & Ho). exists init, t, (concat init). split; [exact Ho|reflexivity].
  - intros init t order Hl. destruct (restart_alive c y' z' lk init t order Hc HA Hex (fresh_alloc _ _ _ HF) Hl) as (y2 & _ & _ & E & _). eauto.
Qed.
Print Assumptions C25_sessions_go_on_partial.

(** Space: when no call is under way, also right after opening, every byte of
    the heap is either that of an existing object or free. *)
Theorem C25_space_partial : forall c pages y hs y',
  cfg_ok c -> fresh_partition c pages y -> sessions c y hs y' -> Forall (good_session c) hs -> Forall settled_history (removelast hs) ->
  ~ inexact c y' -> quiescent y' ->
  pairwise_disjoint (all_space c (y_sh y')) /\
  free_bytes (h_alloc (y_sh y')) + total_bytes (all_space c (y_sh y')) = dc_heap c /\
  (forall b, in_heap (dc_base c) (dc_heap c) b ->
     (exists p, p ∈ all_space c (y_sh y') /\ page_bytes p b) \/ (exists p, free_page (h_alloc (y_sh y')) p /\ page_bytes p b)) /\
  (forall p q, p ∈ all_space c (y_sh y') -> free_page (h_alloc (y_sh y')) q -> pages_disjoint p q).
Proof.
  intros c pages y hs y' Hc HF Hs Hg Hset Hex Hq.
  destruct (sessions_refine c pages y hs y' Hc HF Hs Hg Hset) as (hs' & z' & lk & _ & _ & HA & Hlk & _).
  assert (lk = []) as -> by (destruct Hlk; [assumption|contradiction]).
  destruct (al_good _ _ _ _ HA) as [(qs & sp & _ & _ & HS & HT & HAI & _)].
  destruct (a_alloc _ _ _ _ HAI) as [f HI]. rewrite app_nil_r, quiescent_held in HI by exact Hq.
  split; [exact (live_disjoint _ _ _ _ _ _ _ _ _ HI)|]. split; [exact (inv_bytes HI)|]. split.
  - intros b Hb. exact (heap_byte_owned _ _ _ _ _ _ _ _ _ _ HI Hb).
  - intros p q Hp Hq'. exact (live_free_disjoint _ _ _ _ _ _ _ _ _ _ _ HI Hp Hq').
Qed.
Print Assumptions C25_space_partial.

(** ** A driver for several sessions *)
Definition byte_b (x : N) : bool := x <? 256.
Definition load_b (c : dcfg) (y : dsys) : option (list (list tuple) * tsys) :=
  let d := sy_disk (h_tup (y_sh y)) in
  if forallb (fun p => (N.of_nat (length p) =? 2 ^ dc_spage c) && forallb byte_b p) d then
    init ← load_area (dc_spage c) (concat d);
    s ← tuples_new (dc_spage c) init;
    Some (init, {| sy_state := s; sy_flush := TIdle; sy_disk := d; sy_calls := 0%nat; sy_acked := [] |})
  else None.
Lemma load_b_ok c y init t : load_b c y = Some (init, t) -> opens (dc_spage c) (sy_disk (h_tup (y_sh y))) init t.
Proof.
  unfold load_b. destruct (forallb _ _) eqn:Ef; [|discriminate]. destruct (load_area _ _) as [i|] eqn:El; [|discriminate]. cbn [mbind option_bind].
  destruct (tuples_new _ i) as [s|] eqn:En; [|discriminate]. cbn [mbind option_bind]. intros H. injection H as <- <-.
  unfold opens. cbn [sy_state sy_flush sy_disk sy_calls sy_acked]. split; [|auto 10].
  apply Forall_forall. intros p Hp. rewrite forallb_forall in Ef. apply elem_of_list_In, Ef in Hp. apply andb_true_iff in Hp as [H1 H2].
  split; [now apply N.eqb_eq|]. apply Forall_forall. intros x Hx. rewrite forallb_forall in H2. apply elem_of_list_In, H2 in Hx. now apply N.ltb_lt.
Qed.
Definition exact_size_b (c : dcfg) (msize : N) : bool := metadata_page_pow2 (dc_spage c) msize =? alloc_pow2 (dc_spage c) msize.
Definition exact_sys_b (c : dcfg) (y : dsys) : bool :=
  forallb (fun ob => exact_size_b c (b_msize ob)) (h_objs (y_sh y)) &&
  forallb (fun p => match p with PCreate3 _ m _ _ | PCreate4 _ m _ _ _ => exact_size_b c m | _ => true end) (y_procs y).
Lemma exact_sys_b_ok c y : exact_sys_b c y = true -> ~ inexact c y.
Proof.
  unfold exact_sys_b. rewrite andb_true_iff, !forallb_forall. intros [H1 H2] [(r & ob & E & Hn)|(p & Hp & Hn)].
  - apply elem_of_list_lookup_2, elem_of_list_In, H1 in E. apply Hn. now apply N.eqb_eq.
  - apply elem_of_list_In, H2 in Hp. destruct p; try exact Hn; apply Hn; now apply N.eqb_eq.
Qed.

(** The process is killed; opening, the entries being processed in the order of
    the index. *)
Definition restart_b (c : dcfg) (y : dsys) : option dsys :=
  if exact_sys_b c y then '(init, t) ← load_b c y; opening c y t (concat init) else None.
Lemma restart_b_ok c y y' : restart_b c y = Some y' -> ~ inexact c y /\ reopened c y y'.
Proof.
  unfold restart_b. destruct (exact_sys_b c y) eqn:Ex; [|discriminate]. destruct (load_b c y) as [[init t]|] eqn:El; [|discriminate].
  cbn [mbind option_bind]. intros H. split; [now apply exact_sys_b_ok|]. exists init, t, (concat init). split; [|exact H].
  split; [now apply load_b_ok|reflexivity].
Qed.
Fixpoint drive_sessions (c : dcfg) (x : dsys * list (list label)) (es : list (list ev)) : option (dsys * list (list label)) :=
  match es with
  | [] => Some x
  | e :: es => y ← restart_b c (fst x); '(y', ls) ← drive c (y, []) e; drive_sessions c (y', snd x ++ [ls]) es
  end.
Definition ex_sessions (lpage heap : N) (e : list ev) (es : list (list ev)) : option (dsys * list (list label)) :=
  '(y, ls) ← ex_run lpage heap e; drive_sessions (ex_cfg lpage heap) (y, [ls]) es.
Lemma drive_sessions_ok c y0 es : forall x x', drive_sessions c x es = Some x' -> sessions c y0 (snd x) (fst x) -> sessions c y0 (snd x') (fst x').
Proof.
  induction es as [|e es IH]; intros x x' H Hs; cbn [drive_sessions] in H; [injection H as <-; exact Hs|].
  destruct (restart_b c (fst x)) as [y|] eqn:Er; [|discriminate]. cbn [mbind option_bind] in H.
  destruct (drive c (y, []) e) as [[y' ls]|] eqn:Ed; [|discriminate]. cbn [mbind option_bind] in H.
  apply IH in H; [exact H|]. cbn [fst snd]. apply restart_b_ok in Er as [H1 H2].
  eapply sn_next; [exact Hs|exact H1|exact H2|]. apply (drive_steps c y e (y, []) (y', ls) Ed). constructor.
Qed.
Lemma ex_sessions_show {A} lpage heap e es (t : dsys -> A) L (x : A) :
  (fun r => (visible <$> snd r, t (fst r))) <$> ex_sessions lpage heap e es = Some (L, x) ->
  exists y0 y hs, fresh_partition (ex_cfg lpage heap) (PropertiesTuples.ex_pages 1) y0 /\ sessions (ex_cfg lpage heap) y0 hs y /\
    visible <$> hs = L /\ t y = x.
Proof.
  unfold ex_sessions. destruct (ex_run lpage heap e) as [[y ls]|] eqn:E; [|discriminate]. cbn [mbind option_bind].
  destruct (drive_sessions _ _ _) as [[y' hs]|] eqn:Ed; [|discriminate]. cbn [fmap option_fmap option_map fst snd]. intros H.
  destruct (ex_run_steps _ _ _ _ _ E) as (y0 & H1 & H2). exists y0, y', hs. injection H as H3 H4.
  split; [exact H1|]. split; [|auto]. apply (drive_sessions_ok _ y0 es _ _ Ed). cbn [fst snd]. now constructor.
Qed.
Lemma session_visible c ls : valid_calls_b (dc_lpage c) (visible ls) = true ->
  forallb (fun l => match l with LCall _ (OCreate key _) => forallb byte_b key | _ => true end) (visible ls) = true ->
  forallb (fun l => negb (panic_label l)) (visible ls) = true -> good_session c ls.
Proof.
  intros H1 H2 H3. constructor; [now apply valid_calls_ok| |now apply no_panics_b].
  intros i key size Hin. rewrite forallb_forall in H2.
  assert (In (LCall i (OCreate key size)) (visible ls)) as Hv by (apply elem_of_list_In, visible_in; [discriminate|exact Hin]).
  apply H2 in Hv. cbn in Hv. rewrite forallb_forall in Hv. apply Forall_forall. intros x Hx. apply elem_of_list_In, Hv in Hx. now apply N.ltb_lt.
Qed.
Definition good_b (lpage : N) (L : list label) : bool :=
  valid_calls_b lpage L && forallb (fun l => match l with LCall _ (OCreate key _) => forallb byte_b key | _ => true end) L &&
  forallb (fun l => negb (panic_label l)) L.
Lemma good_b_ok c hs L : visible <$> hs = L -> forallb (good_b (dc_lpage c)) L = true -> Forall (good_session c) hs.
Proof.
  intros <- H. rewrite forallb_forall in H. apply Forall_forall. intros ls Hin.
  assert (In (visible ls) (visible <$> hs)) as Hv by (apply elem_of_list_In, elem_of_list_fmap; eauto).
  apply H in Hv. unfold good_b in Hv. rewrite !andb_true_iff in Hv. destruct Hv as [[H1 H2] H3]. now apply session_visible.
Qed.

(** ** Refutations *)
Definition do_commit (i : nat) (tok id free : N) : list ev :=
  [ECall (OCommit tok false)] ++ steps i [id; id; id; id; free] ++ [EFlush] ++ steps i [free; free].

(** The object acknowledged last is lost.  Ids are random (commit_object.rs:39),
    so that the larger of two ids does not say which object is newer
    (objects.rs:133-149).  Object 50 is committed.  A commit replaces it by object
    30 and is about to remove 50.  A third commit replaces 30 by 40, removes 30 and
    returns: 40 is what the key has from now on.  After a crash, the key has 50. *)
Definition c25_lost_run : list ev :=
  do_create 0 [97] 10 1 2 ++ do_commit 1 1 50 2
  ++ do_create 2 [97] 20 2 3 ++ [ECall (OCommit 2 false)] ++ steps 3 [30; 30; 30; 30; 3] ++ [EFlush] ++ steps 3 [3]
  ++ do_create 4 [97] 30 3 4 ++ [ECall (OCommit 3 false)] ++ steps 5 [40; 40; 40; 40; 4] ++ [EFlush] ++ steps 5 [4; 4] ++ [EFlush] ++ steps 5 [4; 4; 4]
  ++ [ECall (OInspect [97] None); EStep 6 4].
Definition c25_lost_labels : list (list label) :=
  [[LCall 0 (OCreate [97] 10); LVis 0 (VRet (RCreated 1)); LCall 1 (OCommit 1 false); LVis 1 (VRet (RCommitted (Some 50)));
    LCall 2 (OCreate [97] 20); LVis 2 (VRet (RCreated 2)); LCall 3 (OCommit 2 false);
    LCall 4 (OCreate [97] 30); LVis 4 (VRet (RCreated 3)); LCall 5 (OCommit 3 false); LVis 5 (VRet (RCommitted (Some 40)));
    LCall 6 (OInspect [97] None); LVis 6 (VRet (RInspected 40 30 7))];
   [LCall 0 (OInspect [97] None); LVis 0 (VRet (RInspected 50 10 7))]].
Theorem C25_acknowledged_commit_lost_refuted : exists c pages y0 hs y,
  cfg_ok c /\ fresh_partition c pages y0 /\ sessions c y0 hs y /\ Forall (good_session c) hs /\ visible <$> hs = c25_lost_labels.
Proof.
  destruct (ex_sessions_show 10 16384 c25_lost_run [[ECall (OInspect [97] None); EStep 0 100]] (fun _ => tt) c25_lost_labels tt
    ltac:(vm_compute; reflexivity)) as (y0 & y & hs & H1 & H2 & H3 & _).
  exists (ex_cfg 10 16384), (PropertiesTuples.ex_pages 1), y0, hs, y. split; [constructor; cbn; lia|]. split; [exact H1|]. split; [exact H2|].
  split; [|exact H3]. eapply good_b_ok; [exact H3|vm_compute; reflexivity].
Qed.
Print Assumptions C25_acknowledged_commit_lost_refuted.

(** A metadata record of three small pages: two are recorded (C24), the record
    read back is cut off and opening panics.  One acknowledged creation makes the
    partition impossible to open. *)
Definition orders_fail_b (c : dcfg) (y : dsys) : bool :=
  match load_b c y with
  | Some (init, t) => forallb (fun order => match opening c y t order with None => true | _ => false end) (permutations (concat init))
  | None => false
  end.
Lemma orders_fail_ok c y : orders_fail_b c y = true ->
  (exists init t order, loadable c y init t order) /\ forall init t order, loadable c y init t order -> opening c y t order = None.
Proof.
  unfold orders_fail_b. destruct (load_b c y) as [[init t]|] eqn:El; [|discriminate]. apply load_b_ok in El. intros H. split.
  - exists init, t, (concat init). split; [exact El|reflexivity].
  - intros init' t' order [Ho Hp]. destruct (opens_det _ _ _ _ _ _ El Ho) as [<- <-].
    rewrite forallb_forall in H. assert (In order (permutations (concat init))) as Hin.
    { apply elem_of_list_In, permutations_Permutation. now symmetry. }
    apply H in Hin. destruct (opening c y t order); [discriminate|reflexivity].
Qed.
Theorem C25_long_key_prevents_opening_refuted : exists c pages y0 ls y,
  cfg_ok c /\ fresh_partition c pages y0 /\ dsteps c y0 ls y /\ good_session c ls /\
  visible ls = [LCall 0 (OCreate long_key 0); LVis 0 (VRet (RCreated 1))] /\
  (exists init t order, loadable c y init t order) /\ forall init t order, loadable c y init t order -> opening c y t order = None.
Proof.
  destruct (ex_run_shows 11 4096 (do_create 0 long_key 0 1 2) (fun y _ => orders_fail_b (ex_cfg 11 4096) y)
    [LCall 0 (OCreate long_key 0); LVis 0 (VRet (RCreated 1))] true ltac:(vm_compute; reflexivity)) as (y0 & y & ls & H1 & H2 & H3 & H4).
  exists (ex_cfg 11 4096), (PropertiesTuples.ex_pages 1), y0, ls, y. split; [constructor; cbn; lia|]. split; [exact H1|]. split; [exact H2|].
  split; [apply session_visible; rewrite H3; vm_compute; reflexivity|]. split; [exact H3|]. now apply orders_fail_ok.
Qed.
Print Assumptions C25_long_key_prevents_opening_refuted.

(** The entry of the object that is not kept (objects.rs:139-149) is left in the
    index although its pages are free.  The next session uses these pages; if the
    process is killed again, opening finds two entries for the same pages and
    panics. *)
Definition c25_crash_run : list ev :=
  do_create 0 [97] 10 1 2 ++ do_commit 1 1 50 2
  ++ do_create 2 [97] 20 2 3 ++ [ECall (OCommit 2 false)] ++ steps 3 [30; 30; 30; 30; 3] ++ [EFlush] ++ steps 3 [3].
Definition c25_crash_labels : list label :=
  [LCall 0 (OCreate [97] 10); LVis 0 (VRet (RCreated 1)); LCall 1 (OCommit 1 false); LVis 1 (VRet (RCommitted (Some 50)));
   LCall 2 (OCreate [97] 20); LVis 2 (VRet (RCreated 2)); LCall 3 (OCommit 2 false)].
Theorem C25_second_crash_prevents_opening_refuted : exists c pages y0 hs y,
  cfg_ok c /\ fresh_partition c pages y0 /\ sessions c y0 hs y /\ Forall (good_session c) hs /\ ~ inexact c y /\
  visible <$> hs = [c25_crash_labels; [LCall 0 (OCreate [98] 10); LVis 0 (VRet (RCreated 60))]] /\
  (exists init t order, loadable c y init t order) /\ forall init t order, loadable c y init t order -> opening c y t order = None.
Proof.
  destruct (ex_sessions_show 10 16384 c25_crash_run [do_create 0 [98] 10 60 100] (fun y => (orders_fail_b (ex_cfg 10 16384) y, exact_sys_b (ex_cfg 10 16384) y))
    [c25_crash_labels; [LCall 0 (OCreate [98] 10); LVis 0 (VRet (RCreated 60))]] (true, true)
    ltac:(vm_compute; reflexivity)) as (y0 & y & hs & H1 & H2 & H3 & H4).
  apply pair_equal_spec in H4 as [H4 H5].
  exists (ex_cfg 10 16384), (PropertiesTuples.ex_pages 1), y0, hs, y. split; [constructor; cbn; lia|]. split; [exact H1|]. split; [exact H2|].
  split; [eapply good_b_ok; [exact H3|vm_compute; reflexivity]|]. split; [now apply exact_sys_b_ok|]. split; [exact H3|]. now apply orders_fail_ok.
Qed.
Print Assumptions C25_second_crash_prevents_opening_refuted.

(** The same, but in the second session the new object is committed and deleted,
    and all calls return.  After the second crash the deleted object is back. *)
Definition c25_back_run : list ev :=
  do_create 0 [98] 10 60 100 ++ do_commit 1 60 100 101
  ++ [ECall (ODelete [98] None)] ++ steps 2 [101; 101] ++ [EFlush] ++ steps 2 [101; 101; 101]
  ++ [ECall (OInspect [98] None); EStep 3 101].
Definition c25_back_labels : list (list label) :=
  [c25_crash_labels;
   [LCall 0 (OCreate [98] 10); LVis 0 (VRet (RCreated 60)); LCall 1 (OCommit 60 false); LVis 1 (VRet (RCommitted (Some 100)));
    LCall 2 (ODelete [98] None); LVis 2 (VRet RDeleted); LCall 3 (OInspect [98] None); LVis 3 (VRet (RFailed ObjectNotFound))];
   [LCall 0 (OInspect [98] None); LVis 0 (VRet (RInspected 30 10 7))]].
Theorem C25_deleted_object_back_refuted : exists c pages y0 hs y,
  cfg_ok c /\ fresh_partition c pages y0 /\ sessions c y0 hs y /\ Forall (good_session c) hs /\ visible <$> hs = c25_back_labels.
Proof.
  destruct (ex_sessions_show 10 16384 c25_crash_run [c25_back_run; [ECall (OInspect [98] None); EStep 0 200]] (fun _ => tt) c25_back_labels tt
    ltac:(vm_compute; reflexivity)) as (y0 & y & hs & H1 & H2 & H3 & _).
  exists (ex_cfg 10 16384), (PropertiesTuples.ex_pages 1), y0, hs, y. split; [constructor; cbn; lia|]. split; [exact H1|]. split; [exact H2|].
  split; [|exact H3]. eapply good_b_ok; [exact H3|vm_compute; reflexivity].
Qed.
Print Assumptions C25_deleted_object_back_refuted.

(** ** A chain of sessions that meets the hypotheses *)
(** An object is written, committed, replaced and read; there are three crashes,
    with an upload open and a creation under way. *)
Definition settled_b (L : list label) : bool :=
  forallb (fun l => match l with
    | LCall i (OCommit _ _) | LCall i (ODelete _ _) => existsb (fun l => match l with LVis j (VRet _) => (i =? j)%nat | _ => false end) L
    | _ => true end) L.
Lemma settled_b_ok ls : settled_b (visible ls) = true -> settled_history ls.
Proof.
  unfold settled_b. rewrite forallb_forall. intros H i op Hin.
  assert (In (LCall i op) (visible ls)) as Hv by (apply elem_of_list_In, visible_in; [discriminate|exact Hin]).
  apply H in Hv. destruct op; auto; apply existsb_exists in Hv as (l & Hl & E); destruct l as [|j [r| |]|]; try discriminate E;
    apply Nat.eqb_eq in E as <-; exists r; (apply visible_in; [discriminate|]); now apply elem_of_list_In.
Qed.
Definition c25_ok_run : list (list ev) :=
  [do_create 0 [97] 3 1 2 ++ [ECall (OWrite 1 0 3 [Data [7; 8; 9]])] ++ steps 1 [2; 2; 2; 2; 2; 2; 2]
   ++ do_commit 2 1 10 11 ++ do_create 3 [98] 2000 11 12 ++ [ECall (OCreate [99] 5)] ++ steps 4 [12; 12; 13; 13] ++ [EFlush];
   [ECall (ORead [97] None 0 None 100)] ++ steps 0 [20; 20; 20] ++ do_commit 1 11 20 21
   ++ do_create 2 [97] 1 21 22 ++ [ECall (OCommit 21 false)] ++ steps 3 [22; 22; 22; 22; 23] ++ [EFlush] ++ steps 3 [23; 23] ++ [EFlush] ++ steps 3 [23; 23; 23];
   [ECall (OInspect [97] None); EStep 0 30; ECall (OInspect [98] None); EStep 1 30; ECall (OInspect [99] None); EStep 2 30]
   ++ [ECall (OCommit 12 false)] ++ steps 3 [30; 30; 30; 30; 31] ++ [EFlush] ++ steps 3 [31; 31];
   [ECall (OInspect [99] None); EStep 0 31]].
Definition c25_ok_labels : list (list label) :=
  [[LCall 0 (OCreate [97] 3); LVis 0 (VRet (RCreated 1)); LCall 1 (OWrite 1 0 3 [Data [7; 8; 9]]); LVis 1 (VRet RWritten);
    LCall 2 (OCommit 1 false); LVis 2 (VRet (RCommitted (Some 10)));
    LCall 3 (OCreate [98] 2000); LVis 3 (VRet (RCreated 11)); LCall 4 (OCreate [99] 5)];
   [LCall 0 (ORead [97] None 0 None 100); LVis 0 (VRet (RReading 10 3 0 3)); LVis 0 (VChunk [7; 8; 9]); LVis 0 (VEnd RDone);
    LCall 1 (OCommit 11 false); LVis 1 (VRet (RCommitted (Some 20)));
    LCall 2 (OCreate [97] 1); LVis 2 (VRet (RCreated 21)); LCall 3 (OCommit 21 false); LVis 3 (VRet (RCommitted (Some 22)))];
   [LCall 0 (OInspect [97] None); LVis 0 (VRet (RInspected 22 1 7)); LCall 1 (OInspect [98] None); LVis 1 (VRet (RInspected 20 2000 7));
    LCall 2 (OInspect [99] None); LVis 2 (VRet (RFailed ObjectNotFound)); LCall 3 (OCommit 12 false); LVis 3 (VRet (RCommitted (Some 30)))];
   [LCall 0 (OInspect [99] None); LVis 0 (VRet (RInspected 30 5 7))]].
Theorem C25_example : exists c pages y0 hs y,
  cfg_ok c /\ fresh_partition c pages y0 /\ sessions c y0 hs y /\ Forall (good_session c) hs /\ Forall settled_history (removelast hs) /\
  ~ inexact c y /\ quiescent y /\ visible <$> hs = c25_ok_labels /\
  free_bytes (h_alloc (y_sh y)) = 11776 /\
  all_space c (y_sh y) = [(12288, 9); (11776, 9); (15360, 10); (14336, 10); (13824, 9); (13312, 9); (12800, 9)].
Proof.
  destruct (ex_sessions_show 10 16384 (hd [] c25_ok_run) (tl c25_ok_run)
    (fun y => (exact_sys_b (ex_cfg 10 16384) y && forallb (fun p => match p with PDone => true | _ => false end) (y_procs y),
               free_bytes (h_alloc (y_sh y)), all_space (ex_cfg 10 16384) (y_sh y)))
    c25_ok_labels (true, 11776, [(12288, 9); (11776, 9); (15360, 10); (14336, 10); (13824, 9); (13312, 9); (12800, 9)])
    ltac:(vm_compute; reflexivity)) as (y0 & y & hs & H1 & H2 & H3 & H4).
  apply pair_equal_spec in H4 as [H4 H6]. apply pair_equal_spec in H4 as [H4 H7]. apply andb_true_iff in H4 as [H4 H5].
  exists (ex_cfg 10 16384), (PropertiesTuples.ex_pages 1), y0, hs, y. split; [constructor; cbn; lia|]. split; [exact H1|]. split; [exact H2|].
  split; [eapply good_b_ok; [exact H3|vm_compute; reflexivity]|]. split.
  { apply Forall_forall. intros ls Hin. apply settled_b_ok.
    assert (forallb settled_b (visible <$> hs) = true) as Hb by (rewrite H3; vm_compute; reflexivity).
    rewrite forallb_forall in Hb. apply Hb, elem_of_list_In, elem_of_list_fmap. exists ls. split; [reflexivity|].
    clear -Hin. destruct hs as [|x hs] using rev_ind; [inversion Hin|]. rewrite removelast_last in Hin. apply elem_of_app. now left. }
  split; [now apply exact_sys_b_ok|]. split; [|auto].
  rewrite forallb_forall in H5. intros p Hp. apply elem_of_list_In, H5 in Hp. destruct p; try discriminate Hp. reflexivity.
Qed.
Print Assumptions C25_example.
