(** Property C62 over any number of sessions: what the operations of a direct
    partition, and opening it again, ask of its device. *)
From Coq Require Import ZifyBool ZifyNat ZifyN.
From stdpp Require Import base numbers list_numbers option gmap sets functions list.
From Verif Require Import Util Bytes BuddyModel BuddySpec BuddyInv LayoutModel PageIOModel PageIOSpec PageIOProofs PageIOWrite TuplesModel TuplesSpec TuplesProofs TuplesSys TuplesDurable TuplesLife.
From Verif Require Import DirectModel DirectBase DirectSpec DirectSeqSpec DirectInv DirectTup DirectAlloc DirectSteps DirectDev DirectRel DirectSim DirectRec DirectSys DirectDrive PropertiesShare.
From Verif Require Import DirectLoadModel DirectCodec DirectLog DirectLoad DirectSource DirectAlive DirectOld DirectRestart DirectRestart2 DirectRestart3 DirectRestartSpec DirectRestart4 PropertiesIo PropertiesRestart.
From Verif Require PropertiesTuples.
Open Scope N_scope.
Ltac Zify.zify_post_hook ::= idtac.

Lemma placed_run c y ls y' z : cfg_ok c -> Good c y z [] false -> placed_objs c (y_sh y) -> dsteps c y ls y' -> valid_calls (dc_lpage c) ls ->
  placed_objs c (y_sh y').
Proof.
  intros Hc HG HP Hs. induction Hs as [|y ls y1 l y2 Hs IH St]; intros Hv; [exact HP|].
  assert (Hv1 : valid_calls (dc_lpage c) ls) by (intros i op H; eapply Hv, elem_of_app; eauto).
  destruct (good_steps _ _ _ _ _ Hc Hv1 HG Hs) as (ls' & z' & lk & zz & _ & _ & HG' & _).
  eapply placed_step; [exact Hc|exact HG'|exact St|]. apply IH; assumption.
Qed.

(** What opening asks for: the metadata page that an index entry names
    (objects.rs:104-116). *)
Definition loads (order : list tuple) (off len : N) : Prop := exists t, t ∈ order /\ off = t_off t /\ len = 2 ^ t_pow2 t.

Lemma restart_placed c y z lk init' t' order : cfg_ok c -> Alive c y z lk -> ~ inexact c y -> alloc_ok c -> loadable c y init' t' order ->
  (forall y', opening c y t' order = Some y' -> placed_objs c (y_sh y')) /\
  (forall off len, loads order off len -> proper_access c off len).
Proof.
  intros Hc [[(qs & sp & Hp1 & Hp2 & HS & HT & HA & HR)] (pages & t0 & init & cs & Ho & HK) HRec HTy] Hex Hal [Ho' Hord].
  destruct (reopen _ _ _ _ _ _ Ho (k_valid _ _ _ _ _ _ HK) (k_fresh _ _ _ _ _ _ HK) (k_runs _ _ _ _ _ _ HK)) as (init2 & t2 & J & Ho2 & HJ & Hack & Hpair).
  destruct (opens_det _ _ _ _ _ _ Ho2 Ho') as [-> ->]. clear Ho2.
  destruct (restart_loads c y lk sp pages t0 init cs Hc HT HA HK HRec HTy Hex Ho (index_of init') J HJ Hack Hpair init' t' Ho' eq_refl order Hord Hal)
    as (es & ss & h' & H1 & H2 & H3 & H4 & H5 & (L & f & H6)).
  split.
  - intros y' Hop r ob pg E Hpg. rewrite H4 in Hop. injection Hop as <-. cbn [y_sh bump h_objs] in E. destruct (li_alloc _ _ _ _ _ _ H5) as [f' HI].
    eapply live_well_placed; [exact HI|]. apply elem_of_list_bind. exists ob. split; [|eapply elem_of_list_lookup_2, E].
    unfold obj_pages. apply elem_of_app. now left.
  - intros off len (t & Ht & -> & ->). rewrite <- H1 in Ht. apply elem_of_list_fmap in Ht as (e & -> & He).
    assert (Hpg : well_placed (dc_base c) (dc_heap c) (dc_spage c) (dc_lpage c) (t_off (fst e), t_pow2 (fst e))).
    { eapply live_well_placed; [exact H6|]. apply elem_of_app. left. apply elem_of_list_bind. exists e. split; [|exact He].
      unfold epages, obj_pages. apply elem_of_app. right. cbn [lobj b_mpage]. constructor. }
    pose proof (pow2_pos (t_pow2 (fst e))) as Hp. pose proof (placed_divide _ _ Hpg) as Hd. cbn [fst] in Hd.
    eapply (proper_in c _ _ _ Hpg); cbn [fst snd]; [exact Hp|exact Hd|apply pow_divide, (proj1 (proj1 Hpg))|reflexivity|reflexivity].
Qed.

(** What the end of a chain of sessions satisfies. *)
Lemma sessions_placed c pages y0 hs y : cfg_ok c -> fresh_partition c pages y0 -> sessions c y0 hs y -> Forall (good_session c) hs ->
  Forall settled_history (removelast hs) -> exists z lk, Alive c y z lk /\ placed_objs c (y_sh y).
Proof.
  intros Hc HF Hs. induction Hs as [y ls y' Hs|y hs y1 y2 ls y3 Hs IH Hex Hr Hd]; intros Hg Hset.
  - destruct (sessions_refine c pages y [ls] y' Hc HF (sn_one _ _ _ _ Hs) Hg Hset) as (hs' & z' & lk & _ & _ & HA & _).
    exists z', lk. split; [exact HA|]. apply Forall_singleton in Hg as [G1 _ _]. eapply placed_steps; eassumption.
  - destruct (sessions_refine c pages y (hs ++ [ls]) y3 Hc HF (sn_next _ _ _ _ _ _ _ Hs Hex Hr Hd) Hg Hset) as (hs3 & z3 & lk3 & _ & _ & HA3 & _).
    exists z3, lk3. split; [exact HA3|]. apply Forall_app in Hg as [Hg Hg1]. apply Forall_singleton in Hg1 as [G1 G2 G3]. rewrite removelast_last in Hset.
    assert (Hset1 : Forall settled_history (removelast hs)).
    { clear -Hset. destruct hs as [|x hs] using rev_ind; [constructor|]. rewrite removelast_last. now apply Forall_app in Hset. }
    destruct (sessions_refine c pages y hs y1 Hc HF Hs Hg Hset1) as (hs' & z1 & lk1 & _ & _ & HA1 & _ & Hcalm).
    specialize (Hcalm Hset). destruct Hr as (init & t & order & Hld & Hop).
    assert (Hal : alloc_ok c) by (exists (h_alloc (y_sh y)); exact (fp_alloc _ _ _ HF)).
    destruct (restart_alive c y1 z1 lk1 init t order Hc HA1 Hex Hal Hld) as (y2' & S2 & lk2 & R1 & _ & _ & _ & R5 & _).
    assert (y2' = y2) as -> by congruence. pose proof (R5 (fun id => calm_removing z1 id Hcalm)) as HA2.
    eapply placed_run; [exact Hc|exact (al_good _ _ _ _ HA2)| |exact Hd|exact G1].
    eapply (proj1 (restart_placed c y1 z1 lk1 init t order Hc HA1 Hex Hal Hld)), Hop.
Qed.

(** * C62, any number of sessions *)
(** The partition was used in any number of sessions, each but the last ended by a
    kill when no commit or delete was unfinished.  At every moment of the last
    session each device access a call asks for is made of whole small pages of the
    heap; and if the process is killed there, at any point, and the partition opened
    again, then every page read while opening is, too. *)
Theorem C62_device_accesses_in_later_sessions : forall c pages y0 hs y,
  cfg_ok c -> fresh_partition c pages y0 -> sessions c y0 hs y -> Forall (good_session c) hs -> Forall settled_history (removelast hs) ->
  (forall i p off len, y_procs y !! i = Some p -> accesses c (y_sh y) p off len -> proper_access c off len) /\
  (forall init t order off len, ~ inexact c y -> loadable c y init t order -> loads order off len -> proper_access c off len).
Proof.
  intros c pages y0 hs y Hc HF Hs Hg Hset. destruct (sessions_placed c pages y0 hs y Hc HF Hs Hg Hset) as (z & lk & HA & HP). split.
  - intros i p off len Hi Ha. eapply access_proper; [exact Hc|exact (al_good _ _ _ _ HA)|exact HP|exact Hi|exact Ha].
  - intros init t order off len Hex Hld. assert (Hal : alloc_ok c) by (exists (h_alloc (y_sh y0)); exact (fp_alloc _ _ _ HF)).
    apply (proj2 (restart_placed c y z lk init t order Hc HA Hex Hal Hld)).
Qed.

(** ** Opening reads nothing else *)
Lemma load_keep_dev c h ob d : load_keep c (set_dev h d) ob = (fun h' => set_dev h' d) <$> load_keep c h ob.
Proof. unfold load_keep. destruct (data_pages c (b_meta ob)) as [dp|]; [|reflexivity]. cbn [mbind option_bind set_dev h_alloc]. destruct (mark_all _ _); reflexivity. Qed.
Lemma load_keep_same c h ob h' : load_keep c h ob = Some h' -> h_dev h' = h_dev h.
Proof. unfold load_keep. destruct (data_pages c (b_meta ob)) as [dp|]; [|discriminate]. cbn [mbind option_bind]. destruct (mark_all _ _); [|discriminate..]. intros H. injection H as <-. reflexivity. Qed.
Lemma load1_same c h t h' : load1 c h t = Some h' -> h_dev h' = h_dev h.
Proof.
  unfold load1. destruct (meta_decode _) as [[m msize]|]; [|discriminate]. cbn [mbind option_bind].
  destruct (_ =? _); [destruct (h_inc h !! _); [discriminate|]; intros H; apply load_keep_same in H; exact H|].
  destruct (_ =? _); [|discriminate]. destruct (h_com h !! _) as [r'|]; [|intros H; apply load_keep_same in H; exact H].
  destruct (h_objs h !! r') as [ob'|]; [|discriminate]. cbn [mbind option_bind]. destruct (_ =? _); [discriminate|]. destruct (_ <? _); [intros H; now injection H as <-|].
  intros H; apply load_keep_same in H; exact H.
Qed.
Lemma load1_dev c h t d : (forall x, t_off t <= x < t_off t + 2 ^ t_pow2 t -> d x = h_dev h x) ->
  load1 c (set_dev h d) t = (fun h' => set_dev h' d) <$> load1 c h t.
Proof.
  intros Hag. unfold load1. cbn [set_dev h_dev]. rewrite (dev_read_agree d (h_dev h)) by exact Hag.
  destruct (meta_decode _) as [[m msize]|]; [|reflexivity]. cbn [mbind option_bind set_dev h_objs h_inc h_com].
  destruct (_ =? _).
  { destruct (h_inc h !! _); [reflexivity|]. rewrite <- load_keep_dev. reflexivity. }
  destruct (_ =? _); [|reflexivity]. destruct (h_com h !! _) as [r'|]; [|rewrite <- load_keep_dev; reflexivity].
  destruct (h_objs h !! r') as [ob'|]; [|reflexivity]. cbn [mbind option_bind]. destruct (_ =? _); [reflexivity|]. destruct (_ <? _); [reflexivity|].
  rewrite <- load_keep_dev. reflexivity.
Qed.
Lemma load_all_dev c order : forall h d, (forall off len x, loads order off len -> off <= x < off + len -> d x = h_dev h x) ->
  load_all c (set_dev h d) order = (fun h' => set_dev h' d) <$> load_all c h order.
Proof.
  induction order as [|t order IH]; intros h d Hag; [reflexivity|]. cbn [load_all].
  rewrite load1_dev by (intros x Hx; eapply Hag; [exists t; split; [constructor|split; reflexivity]|exact Hx]).
  destruct (load1 c h t) as [h1|] eqn:E; [|reflexivity]. cbn [mbind option_bind fmap option_fmap option_map]. rewrite IH; [reflexivity|].
  intros off len x (t1 & Ht & -> & ->) Hx. rewrite (load1_same _ _ _ _ E). eapply Hag; [exists t1; split; [now constructor|split; reflexivity]|exact Hx].
Qed.

(** Opening reads the pages the index names and nothing else of the heap, and
    writes nothing: on a device [d] with the same bytes there it ends in the same
    state, and each of the two devices is as it was. *)
Theorem C62_opening_reads_nothing_else : forall c y t order d,
  (forall off len x, loads order off len -> off <= x < off + len -> d x = h_dev (y_sh y) x) ->
  opening c {| y_sh := set_dev (y_sh y) d; y_procs := y_procs y |} t order =
    (fun y' => {| y_sh := set_dev (y_sh y') d; y_procs := y_procs y' |}) <$> opening c y t order /\
  forall y', opening c y t order = Some y' -> h_dev (y_sh y') = h_dev (y_sh y).
Proof.
  intros c y t order d Hag. unfold opening. cbn [y_sh set_dev h_dev h_used]. destruct (allocator_new _ _ _ _ _ _) as [a| |]; [|split; [reflexivity|discriminate]..].
  change (load_start d a t (h_used (y_sh y))) with (set_dev (load_start (h_dev (y_sh y)) a t (h_used (y_sh y))) d). split.
  - rewrite load_all_dev by exact Hag. destruct (load_all _ _ _) as [h|]; reflexivity.
  - intros y'. destruct (load_all _ _ _) as [h|] eqn:E; [|discriminate]. cbn [mbind option_bind]. intros H. injection H as <-. cbn [y_sh bump h_dev].
    change (h_dev (y_sh y)) with (h_dev (load_start (h_dev (y_sh y)) a t (h_used (y_sh y)))). revert E. generalize (load_start (h_dev (y_sh y)) a t (h_used (y_sh y))).
    clear. induction order as [|t order IH]; intros h0; cbn [load_all]; [intros H; now injection H as <-|].
    destruct (load1 c h0 t) as [h1|] eqn:E; [|discriminate]. cbn [mbind option_bind]. intros H. rewrite (IH _ H). eapply load1_same, E.
Qed.

(** ** A run *)
(** Two objects and two uploads, a kill, and then the first object being read. *)
Definition c62_second : list ev := [ECall (ORead [97] None 0 None 100)] ++ steps 0 [20].
Definition c62_session_facts (y : dsys) : bool * list (option (N * N)) * option (list (N * N)) :=
  (exact_sys_b (ex_cfg 10 16384) y, read_range_of (ex_cfg 10 16384) (y_sh y) <$> y_procs y,
   option_map (fun r => (fun t => (t_off t, 2 ^ t_pow2 t)) <$> concat (fst r)) (load_b (ex_cfg 10 16384) y)).
Definition c62_session_labels : list (list label) :=
  [hd [] c25_ok_labels; [LCall 0 (ORead [97] None 0 None 100); LVis 0 (VRet (RReading 10 3 0 3))]].
Definition c62_session_found : bool * list (option (N * N)) * option (list (N * N)) :=
  (true, [Some (16896, 512)], Some [(13824, 512); (12800, 512); (16384, 512)]).
Theorem C62_sessions_example : exists c pages y0 hs y p init t,
  cfg_ok c /\ fresh_partition c pages y0 /\ sessions c y0 hs y /\ Forall (good_session c) hs /\ Forall settled_history (removelast hs) /\
  visible <$> hs = c62_session_labels /\ y_procs y !! 0%nat = Some p /\ accesses c (y_sh y) p 16896 512 /\
  ~ inexact c y /\ loadable c y init t (concat init) /\
  loads (concat init) 13824 512 /\ loads (concat init) 12800 512 /\ loads (concat init) 16384 512.
Proof.
  destruct (ex_sessions_show 10 16384 (hd [] c25_ok_run) [c62_second] c62_session_facts c62_session_labels c62_session_found
    ltac:(vm_compute; reflexivity)) as (y0 & y & hs & H1 & H2 & H3 & H4).
  apply pair_equal_spec in H4 as [H4 H6]. apply pair_equal_spec in H4 as [H4 H5].
  destruct (load_b (ex_cfg 10 16384) y) as [[init t]|] eqn:El; [|discriminate H6]. cbn [option_map fst] in H6. apply (inj Some) in H6.
  assert (Hp : exists p, y_procs y !! 0%nat = Some p /\ read_range_of (ex_cfg 10 16384) (y_sh y) p = Some (16896, 512)).
  { assert (E : (read_range_of (ex_cfg 10 16384) (y_sh y) <$> y_procs y) !! 0%nat = Some (Some (16896, 512))) by (rewrite H5; reflexivity).
    rewrite list_lookup_fmap in E. destruct (y_procs y !! 0%nat) as [p|]; [|discriminate E]. injection E as E. eauto. }
  destruct Hp as (p & Hp & Hr).
  assert (Hl : forall off len, (off, len) ∈ [(13824, 512); (12800, 512); (16384, 512)] -> loads (concat init) off len).
  { intros off len Hin. rewrite <- H6 in Hin. apply elem_of_list_fmap in Hin as (u & Hu & Hin). injection Hu as -> ->. exists u. auto. }
  exists (ex_cfg 10 16384), (PropertiesTuples.ex_pages 1), y0, hs, y, p, init, t. split; [constructor; cbn; lia|]. split; [exact H1|]. split; [exact H2|].
  split; [eapply good_b_ok; [exact H3|vm_compute; reflexivity]|]. split.
  { apply Forall_forall. intros ls Hin. apply settled_b_ok.
    assert (forallb settled_b (visible <$> hs) = true) as Hb by (rewrite H3; vm_compute; reflexivity).
    rewrite forallb_forall in Hb. apply Hb, elem_of_list_In, elem_of_list_fmap. exists ls. split; [reflexivity|].
    clear -Hin. destruct hs as [|x hs] using rev_ind; [inversion Hin|]. rewrite removelast_last in Hin. apply elem_of_app. now left. }
  split; [exact H3|]. split; [exact Hp|]. split; [now apply read_range_of_accesses|]. split; [now apply exact_sys_b_ok|].
  split; [split; [now apply load_b_ok|reflexivity]|]. split; [|split]; apply Hl; set_solver.
Qed.
Print Assumptions C62_device_accesses_in_later_sessions.
Print Assumptions C62_opening_reads_nothing_else.
Print Assumptions C62_sessions_example.
