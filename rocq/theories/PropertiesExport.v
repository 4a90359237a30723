(** Property C28: exporting the objects of a stopped store. *)
From Coq Require Import ZifyBool ZifyNat ZifyN.
From stdpp Require Import base numbers list_numbers option gmap sets functions sorting list.
From Verif Require Import Util Bytes BuddyModel BuddySpec LayoutModel PageIOModel PageIOSpec PageIOProofs TuplesModel TuplesSpec TuplesProofs TuplesSys TuplesDurable.
From Verif Require Import DirectModel DirectBase DirectSpec DirectSeqSpec DirectSys DirectDrive DirectLoadModel DirectLoad DirectAlive DirectOld DirectRestart DirectRestartSpec DirectRestart4.
From Verif Require Import PropertiesRestart ExportModel ExportSpec ExportProofs.
Open Scope N_scope.
Ltac Zify.zify_post_hook ::= idtac.

(** A partition, its history (sessions ended by crashes) and the state the last
    session left. *)
Record stopped := { st_cfg : dcfg; st_pages : list (list N); st_start : dsys; st_hist : list (list label); st_end : dsys }.
(** [c] gives the page sizes, which all partitions have in common. *)
Record stopped_ok (c : dcfg) (s : stopped) : Prop := {
  so_cfg : cfg_ok (st_cfg s);
  so_pages : dc_spage (st_cfg s) = dc_spage c /\ dc_lpage (st_cfg s) = dc_lpage c;
  so_fresh : fresh_partition (st_cfg s) (st_pages s) (st_start s);
  so_run : sessions (st_cfg s) (st_start s) (st_hist s) (st_end s);
  so_good : Forall (good_session (st_cfg s)) (st_hist s);
  so_settled : Forall settled_history (removelast (st_hist s));
  so_exact : ~ inexact (st_cfg s) (st_end s);
}.
(** What the exporter sees of it. *)
Definition part_of (s : stopped) : xpart :=
  {| xp_area := concat (sy_disk (h_tup (y_sh (st_end s)))); xp_dev := h_dev (y_sh (st_end s)) |}.
(** [snd w] is a state of the specification after the history [fst w], in which
    the same can be seen. *)
Definition spec_of (s : stopped) (w : list (list label) * ssys) : Prop :=
  spec_sessions (dc_lpage (st_cfg s)) sys_empty (fst w) (snd w) /\ Forall2 same_visible (fst w) (st_hist s).
(** With the objects its keys have had. *)
Definition with_past (lpage : N) (w : list (list label) * ssys) : ssys * (list N -> cobj -> Prop) :=
  (snd w, once_committed lpage sys_empty (fst w) (snd w)).

(** Everything an export yields, read. *)
Definition export_all (c : dcfg) (parts : list xpart) (offset : marker) (arrival : list nat) : option (list (marker * xobj)) :=
  rows ← exporter_new (dc_spage c) parts offset arrival;
  objs ← mapM (fun r => x_read c (snd r)) (x_take rows);
  Some (zip rows.*1 objs).

Definition end_ok (c : dcfg) (s : stopped) (w : list (list label) * ssys) (lk : list page) : Prop :=
  spec_of s w /\ Alive (st_cfg s) (st_end s) (snd w) lk /\ (Forall settled_history (st_hist s) -> calm (snd w)) /\
  OldInv (st_cfg s) (y_sh (st_end s)) (y_procs (st_end s)) (snd (with_past (dc_lpage c) w)).
Lemma spec_end c s : stopped_ok c s -> exists w lk, end_ok c s w lk.
Proof.
  intros [S1 S2 S3 S4 S5 S6 S7]. destruct (sessions_refine_old _ _ _ _ _ S1 S3 S4 S5 S6) as (hs' & z & lk & H1 & H2 & H3 & _ & H4 & H5 & _).
  exists (hs', z), lk. split; [split; [exact H1|exact H2]|]. split; [exact H3|]. split; [exact H4|]. cbn [with_past snd fst]. rewrite <- (proj2 S2). exact H5.
Qed.
Lemma data_pages_same c c' m : dc_spage c = dc_spage c' -> dc_lpage c = dc_lpage c' -> data_pages c m = data_pages c' m.
Proof. intros H1 H2. unfold data_pages. rewrite H1, H2. reflexivity. Qed.
Lemma x_read_same c c' e : dc_spage c = dc_spage c' -> dc_lpage c = dc_lpage c' -> x_read c e = x_read c' e.
Proof.
  intros H1 H2. unfold x_read. destruct (meta_decode _) as [[m n]|]; [|reflexivity]. cbn [mbind option_bind]. now rewrite (data_pages_same c c').
Qed.

Lemma stopped_tuples c s init t : opens (dc_spage (st_cfg s)) (sy_disk (h_tup (y_sh (st_end s)))) init t -> dc_spage (st_cfg s) = dc_spage c ->
  tuples_of (dc_spage c) (part_of s) (concat init) /\ NoDup (t_id <$> concat init).
Proof.
  intros (_ & H1 & H2 & _) E. split; [exists init; split; [|reflexivity]; cbn [part_of xp_area]; rewrite <- E; exact H1|].
  apply new_loaded in H2. exact (l_nodup _ _ _ H2).
Qed.
Lemma stopped_parts c sts : Forall (stopped_ok c) sts -> forall i p, (part_of <$> sts) !! i = Some p ->
  exists l, tuples_of (dc_spage c) p l /\ NoDup (t_id <$> l).
Proof.
  intros Hok i p E. rewrite list_lookup_fmap in E. destruct (sts !! i) as [s|] eqn:Es; [|discriminate]. injection E as <-.
  rewrite Forall_forall in Hok. pose proof (Hok s (elem_of_list_lookup_2 _ _ _ Es)) as Hs. destruct (spec_end c s Hs) as (w & lk & _ & HA & _).
  destruct (alive_loadable _ _ _ _ HA) as (init & t & Ho). exists (concat init). eapply stopped_tuples; [exact Ho|]. apply Hs.
Qed.

Lemma entry_object c d e key co x : x_read c {| x_tuple := fst e; x_dev := d |} = Some x -> xo_id x = eid e -> xo_key x = ekey e -> xo_size x = m_size (snd e) ->
  xo_created x = m_created (snd e) -> concat (xo_chunks x) = byte_range (byte_at d (dpages c (snd e))) 0 (m_size (snd e)) ->
  ekey e = key -> co_id co = eid e -> co_size co = m_size (snd e) -> co_created co = m_created (snd e) ->
  (forall i, i < m_size (snd e) -> byte_at d (dpages c (snd e)) i = co_bytes co i) -> is_object x key co.
Proof.
  intros _ X2 X3 X4 X5 X6 K C2 C3 C4 C5. constructor; try congruence.
  rewrite X6, C3. unfold byte_range. apply list_fmap_ext. intros i y Ey. apply lookup_seq in Ey as [-> Hi]. apply C5. clear -Hi. lia.
Qed.

(** ** What is exported, wherever the processes were killed *)
Theorem C28_export_any_crash_partial : forall c sts, Forall (stopped_ok c) sts ->
  exists ws, Forall2 spec_of sts ws /\
    (forall i s w, sts !! i = Some s -> ws !! i = Some w -> Forall settled_history (st_hist s) -> calm (snd w)) /\
    forall offset arrival, arrival ≡ₚ seq 0 (length sts) ->
      exists rows, export_all c (part_of <$> sts) offset arrival = Some rows /\ exports_crash (with_past (dc_lpage c) <$> ws) offset rows.
Proof.
  intros c sts Hok.
  destruct (pick (fun s w => exists lk, end_ok c s w lk) sts) as [ws Hzs].
  { intros s Hs. rewrite Forall_forall in Hok. destruct (spec_end c s (Hok s Hs)) as (w & lk & H). eauto. }
  exists ws. split; [eapply Forall2_impl; [exact Hzs|]; intros s w (lk & H & _); exact H|]. split.
  { intros i s w Es Ez. destruct (Forall2_lookup_lr _ _ _ _ _ _ Hzs Es Ez) as (lk & _ & _ & H & _). exact H. }
  intros offset arrival Har.
  destruct (exporter_ok (dc_spage c) (part_of <$> sts) (stopped_parts c sts Hok) offset arrival) as (rows & E & Hs & Hn & Hr); [now rewrite fmap_length|].
  (* a row *)
  assert (Hrow : forall r, r ∈ rows -> marker_le offset (fst r) /\ exists x, x_read c (snd r) = Some x /\
      exists z had key co, (with_past (dc_lpage c) <$> ws) !! k_part (fst r) = Some (z, had) /\ k_id (fst r) = co_id co /\ is_object x key co /\
        (ss_com (z_state z) !! key = Some co \/ removing z (co_id co) /\ had key co)).
  { intros [m [t d]] Hin. apply Hr in Hin as (p & l & H1 & H2 & H3 & H4 & H5 & H6 & H7). cbn [fst snd x_tuple x_dev] in *. split; [exact H7|].
    rewrite list_lookup_fmap in H1. destruct (sts !! k_part m) as [s|] eqn:Es; [|discriminate]. injection H1 as <-.
    rewrite Forall_forall in Hok. pose proof (Hok s (elem_of_list_lookup_2 _ _ _ Es)) as Hso.
    destruct (Forall2_lookup_l _ _ _ _ _ Hzs Es) as (w & Ez & lk & _ & HA & _ & HO). destruct (alive_loadable _ _ _ _ HA) as (init & t0 & Ho).
    destruct (part_entries _ _ _ _ _ _ _ (so_cfg _ _ Hso) HA (so_exact _ _ Hso) Ho HO) as (es & P1 & P2 & P3 & P4 & _).
    destruct (stopped_tuples c s init t0 Ho (proj1 (so_pages _ _ Hso))) as [(b1 & B1 & B2) _]. destruct H2 as (b2 & B3 & ->). rewrite B1 in B3. injection B3 as <-.
    assert (Ht : t ∈ es.*1) by (rewrite P1, B2; exact H3).
    apply elem_of_list_fmap in Ht as (e & -> & He). cbn [part_of xp_dev] in H4. subst d.
    destruct (P4 e He H6) as (Hop & co & Hcase & C2 & C3 & C4 & C5). destruct (read_entry _ _ _ (P3 e He) Hop) as (x & X1 & X2 & X3 & X4 & X5 & X6).
    exists x. split; [rewrite <- X1; apply x_read_same; symmetry; apply (so_pages _ _ Hso)|].
    exists (snd w), (snd (with_past (dc_lpage c) w)), (ekey e), co. split; [rewrite list_lookup_fmap, Ez; reflexivity|].
    split; [unfold eid in *; congruence|]. split; [eapply entry_object; eauto|exact Hcase]. }
  destruct (pick (fun r x => x_read c (snd r) = Some x) rows) as [objs Hobjs].
  { intros r Hin. destruct (Hrow r Hin) as (_ & x & H & _). eauto. }
  assert (Hm : mapM (fun r => x_read c (snd r)) rows = Some objs) by (apply mapM_Some; exact Hobjs).
  assert (Hlen : length rows = length objs) by (eapply Forall2_length, Hobjs).
  assert (Hz1 : (zip rows.*1 objs).*1 = rows.*1) by (apply fst_zip; rewrite fmap_length; apply Nat.eq_le_incl; exact Hlen).
  exists (zip rows.*1 objs). split; [unfold export_all, x_take; rewrite E; cbn [mbind option_bind]; unfold xrow in *; rewrite Hm; reflexivity|].
  split; [rewrite Hz1; now apply increasing_sorted|]. split.
  - intros m x Hin. apply elem_of_list_lookup_1 in Hin as [i Hi]. apply lookup_zip_with_Some in Hi as (m' & x' & Heq & I1 & I2). injection Heq as <- <-.
    apply list_lookup_fmap_inv in I1 as (r & -> & Er).
    destruct (Hrow r (elem_of_list_lookup_2 _ _ _ Er)) as (K1 & x2 & K2 & K3). split; [exact K1|].
    pose proof (Forall2_lookup_lr _ _ _ _ _ _ Hobjs Er I2) as K4. cbn beta in K4. assert (x2 = x) as -> by congruence. exact K3.
  - intros i z had key co Ez Hco Hle. rewrite list_lookup_fmap in Ez. destruct (ws !! i) as [w|] eqn:Ew; [|discriminate]. injection Ez as <- <-.
    destruct (Forall2_lookup_r _ _ _ _ _ Hzs Ew) as (s & Es & lk & _ & HA & _ & HO).
    rewrite Forall_forall in Hok. pose proof (Hok s (elem_of_list_lookup_2 _ _ _ Es)) as Hso. destruct (alive_loadable _ _ _ _ HA) as (init & t0 & Ho).
    destruct (part_entries _ _ _ _ _ _ _ (so_cfg _ _ Hso) HA (so_exact _ _ Hso) Ho HO) as (es & P1 & _ & P3 & P4 & P5).
    destruct (P5 key co Hco) as [(e & He & Hi & Hid & Hk & C3 & C4 & C5)|Hp]; [left|right; exact Hp].
    assert (Hin : ({| k_id := co_id co; k_part := i |}, {| x_tuple := fst e; x_dev := h_dev (y_sh (st_end s)) |}) ∈ rows).
    { apply Hr. destruct (stopped_tuples c s init t0 Ho (proj1 (so_pages _ _ Hso))) as [B1 _]. exists (part_of s), (concat init).
      cbn [fst snd k_id k_part x_tuple x_dev]. split; [rewrite list_lookup_fmap, Es; reflexivity|]. split; [exact B1|].
      split; [rewrite <- P1; now apply elem_of_list_fmap_1|]. auto. }
    destruct (P4 e He Hi) as [Hop _]. destruct (read_entry _ _ _ (P3 e He) Hop) as (x2 & X1 & X2 & X3 & X4 & X5 & X6).
    apply elem_of_list_lookup_1 in Hin as [j Hj]. destruct (Forall2_lookup_l _ _ _ _ _ Hobjs Hj) as (x & Hx & Hrd). exists x. split.
    + apply elem_of_list_lookup. exists j. apply lookup_zip_with_Some. eexists _, _. split; [reflexivity|]. split; [|exact Hx]. rewrite list_lookup_fmap, Hj. reflexivity.
    + cbn beta in Hrd. cbn [snd] in Hrd. rewrite (x_read_same c (st_cfg s)) in Hrd by (symmetry; apply (so_pages _ _ Hso)).
      assert (x2 = x) as -> by congruence. eapply entry_object; eauto.
Qed.
Print Assumptions C28_export_any_crash_partial.

(** ** With every commit and delete returned *)
(** Full property, for all histories: [exports].  It holds if no commit or delete
    was under way when the process was stopped. *)
Theorem C28_export_partial : forall c sts, Forall (stopped_ok c) sts -> Forall (fun s => Forall settled_history (st_hist s)) sts ->
  exists ws, Forall2 spec_of sts ws /\
    forall offset arrival, arrival ≡ₚ seq 0 (length sts) ->
      exists rows, export_all c (part_of <$> sts) offset arrival = Some rows /\ exports ((fun w => z_state (snd w)) <$> ws) offset rows.
Proof.
  intros c sts Hok Hset. destruct (C28_export_any_crash_partial c sts Hok) as (ws & H1 & H2 & H3). exists ws. split; [exact H1|].
  assert (Hcalm : forall i w, ws !! i = Some w -> calm (snd w)).
  { intros i w Ez. destruct (Forall2_lookup_r _ _ _ _ _ H1 Ez) as (s & Es & _). eapply H2; [exact Es|exact Ez|].
    rewrite Forall_forall in Hset. apply Hset. eapply elem_of_list_lookup_2, Es. }
  intros offset arrival Har. destruct (H3 offset arrival Har) as (rows & E & E1 & E2 & E3). exists rows. split; [exact E|].
  assert (G : forall m x, (m, x) ∈ rows -> marker_le offset m /\ exists S key co, ((fun w => z_state (snd w)) <$> ws) !! k_part m = Some S /\ ss_com S !! key = Some co /\ k_id m = co_id co /\ is_object x key co).
  { intros m x Hin. destruct (E2 m x Hin) as (K1 & z & had & key & co & Ez & C2 & C3 & K2). split; [exact K1|].
    rewrite list_lookup_fmap in Ez. destruct (ws !! k_part m) as [w|] eqn:Ew; [|discriminate]. injection Ez as <- <-.
    destruct K2 as [C1|[Hrm _]]; [|exfalso; exact (calm_removing _ _ (Hcalm _ _ Ew) Hrm)].
    exists (z_state (snd w)), key, co. split; [rewrite list_lookup_fmap, Ew; reflexivity|]. auto. }
  split; [exact E1|]. split; [exact G|]. intros i S key co Ei Hco Hle. rewrite list_lookup_fmap in Ei. destruct (ws !! i) as [w|] eqn:Ew; [|discriminate]. injection Ei as <-.
  destruct (E3 i (snd w) (snd (with_past (dc_lpage c) w)) key co) as [H|(tk & rep & Hp)]; [rewrite list_lookup_fmap, Ew; reflexivity|exact Hco|exact Hle|exact H|].
  exfalso; exact (Hcalm _ _ Ew _ Hp).
Qed.
Print Assumptions C28_export_partial.

(** ** Resuming *)
(** After [n] entries were taken, an export started at the marker of the first
    entry that was not taken yields exactly the entries that were not taken; if
    all were taken, nothing is left. *)
Theorem C28_resume : forall c sts offset arrival rows n taken rest, Forall (stopped_ok c) sts -> arrival ≡ₚ seq 0 (length sts) ->
  exporter_new (dc_spage c) (part_of <$> sts) offset arrival = Some rows -> x_pops n rows = (taken, rest) ->
  taken ++ rest = rows /\ length taken = Nat.min n (length rows) /\
  forall m e l, rest = (m, e) :: l -> forall arrival', arrival' ≡ₚ seq 0 (length sts) ->
    exporter_new (dc_spage c) (part_of <$> sts) m arrival' = Some rest.
Proof.
  intros c sts offset arrival rows n taken rest Hok Ha E Hp.
  assert (H : taken ++ rest = rows /\ length taken = Nat.min n (length rows)).
  { clear -Hp. revert rows taken rest Hp. induction n as [|n IH]; intros rows taken rest Hp; cbn [x_pops] in Hp; [injection Hp as <- <-; auto|].
    destruct rows as [|r rows]; cbn [x_pop] in Hp; [injection Hp as <- <-; auto|]. destruct (x_pops n rows) as [l r2] eqn:El. injection Hp as <- <-.
    destruct (IH _ _ _ El) as [<- Hl]. cbn [app length]. split; [reflexivity|]. cbn [Nat.min]. rewrite Hl. reflexivity. }
  destruct H as [<- Hl]. split; [reflexivity|]. split; [exact Hl|]. intros m e l -> arrival' Ha'.
  eapply exporter_resume; [exact (stopped_parts c sts Hok)| | |exact E]; now rewrite fmap_length.
Qed.
Print Assumptions C28_resume.

(** ** Several objects with the same key *)
(** Of the history in C25_acknowledged_commit_lost_refuted, an export yields two
    objects with the same key: the object whose commit was acknowledged last, and
    after it, object 50, which it does not replace any more for whoever imports them
    in order (exporter.rs:112 leaves this open). *)
Definition x_start : marker := {| k_id := 0; k_part := 0 |}.
Theorem C28_replaced_object_exported_refuted : exists c s rows,
  stopped_ok c s /\ visible <$> st_hist s = take 1 c25_lost_labels /\
  export_all c [part_of s] x_start [0%nat] = Some rows /\
  (fun r => (k_id (fst r), xo_key (snd r), xo_size (snd r))) <$> rows = [(40, [97], 30); (50, [97], 10)].
Proof.
  set (show := fun y : dsys => (exact_sys_b (ex_cfg 10 16384) y,
    match export_all (ex_cfg 10 16384) [{| xp_area := concat (sy_disk (h_tup (y_sh y))); xp_dev := h_dev (y_sh y) |}] x_start [0%nat] with
    | Some rows => (fun r => (k_id (fst r), xo_key (snd r), xo_size (snd r))) <$> rows | None => [] end)).
  destruct (ex_sessions_show 10 16384 c25_lost_run [] show (take 1 c25_lost_labels) (true, [(40, [97], 30); (50, [97], 10)])
    ltac:(vm_compute; reflexivity)) as (y0 & y & hs & H1 & H2 & H3 & H4).
  unfold show in H4. apply pair_equal_spec in H4 as [H4 H5].
  set (s := {| st_cfg := ex_cfg 10 16384; st_pages := PropertiesTuples.ex_pages 1; st_start := y0; st_hist := hs; st_end := y |}).
  change {| xp_area := concat (sy_disk (h_tup (y_sh y))); xp_dev := h_dev (y_sh y) |} with (part_of s) in H5.
  destruct (export_all (ex_cfg 10 16384) [part_of s] x_start [0%nat]) as [rows|] eqn:E; [|discriminate].
  exists (ex_cfg 10 16384), s, rows. split; [|auto]. constructor; cbn [s st_cfg st_pages st_start st_hist st_end].
  - constructor; cbn; lia.
  - auto.
  - exact H1.
  - exact H2.
  - eapply good_b_ok; [exact H3|vm_compute; reflexivity].
  - assert (length hs = 1%nat) as Hl by (rewrite <- (fmap_length visible), H3; reflexivity). destruct hs as [|? [|]]; try discriminate. constructor.
  - now apply exact_sys_b_ok.
Qed.
Print Assumptions C28_replaced_object_exported_refuted.

(** ** A store that meets the hypotheses *)
(** Two partitions with the same history: an object is written and committed,
    the store is opened again and the second object is committed.  The export starts
    at the second partition's first object. *)
Definition c28_labels : list (list label) :=
  [[LCall 0 (OCreate [97] 3); LVis 0 (VRet (RCreated 1)); LCall 1 (OWrite 1 0 3 [Data [7; 8; 9]]); LVis 1 (VRet RWritten);
    LCall 2 (OCommit 1 false); LVis 2 (VRet (RCommitted (Some 10)));
    LCall 3 (OCreate [98] 2000); LVis 3 (VRet (RCreated 11)); LCall 4 (OCreate [99] 5)];
   [LCall 0 (OCommit 11 false); LVis 0 (VRet (RCommitted (Some 20)))]].
Definition c28_rows : list (N * nat * list N * N * list N * list nat) :=
  [(10, 1%nat, [97], 3, [7; 8; 9], [3%nat]); (20, 0%nat, [98], 2000, replicate 10 0, [1024; 976]%nat); (20, 1%nat, [98], 2000, replicate 10 0, [1024; 976]%nat)].
Definition c28_show (rows : list (marker * xobj)) : list (N * nat * list N * N * list N * list nat) :=
  map (fun r => (k_id (fst r), k_part (fst r), xo_key (snd r), xo_size (snd r), take 10 (concat (xo_chunks (snd r))), map length (xo_chunks (snd r)))) rows.
Theorem C28_example : exists c s rows,
  Forall (stopped_ok c) [s; s] /\ Forall (fun s => Forall settled_history (st_hist s)) [s; s] /\ visible <$> st_hist s = c28_labels /\
  export_all c [part_of s; part_of s] {| k_id := 10; k_part := 1 |} [1; 0]%nat = Some rows /\ c28_show rows = c28_rows.
Proof.
  set (show := fun y : dsys => (exact_sys_b (ex_cfg 10 16384) y,
    let p := {| xp_area := concat (sy_disk (h_tup (y_sh y))); xp_dev := h_dev (y_sh y) |} in
    match export_all (ex_cfg 10 16384) [p; p] {| k_id := 10; k_part := 1 |} [1; 0]%nat with Some rows => c28_show rows | None => [] end)).
  destruct (ex_sessions_show 10 16384 (hd [] c25_ok_run) [do_commit 0 11 20 21] show c28_labels (true, c28_rows)
    ltac:(vm_compute; reflexivity)) as (y0 & y & hs & H1 & H2 & H3 & H4).
  unfold show in H4. apply pair_equal_spec in H4 as [H4 H5]. cbv zeta in H5.
  set (s := {| st_cfg := ex_cfg 10 16384; st_pages := PropertiesTuples.ex_pages 1; st_start := y0; st_hist := hs; st_end := y |}).
  change {| xp_area := concat (sy_disk (h_tup (y_sh y))); xp_dev := h_dev (y_sh y) |} with (part_of s) in H5.
  destruct (export_all (ex_cfg 10 16384) [part_of s; part_of s] _ _) as [rows|] eqn:E; [|discriminate].
  assert (Hset : Forall settled_history hs).
  { apply Forall_forall. intros ls Hin. apply settled_b_ok.
    assert (forallb settled_b (visible <$> hs) = true) as Hb by (rewrite H3; vm_compute; reflexivity).
    rewrite forallb_forall in Hb. apply Hb, elem_of_list_In, elem_of_list_fmap. eauto. }
  assert (Hok : stopped_ok (ex_cfg 10 16384) s).
  { constructor; cbn [s st_cfg st_pages st_start st_hist st_end].
    - constructor; cbn; lia.
    - auto.
    - exact H1.
    - exact H2.
    - eapply good_b_ok; [exact H3|vm_compute; reflexivity].
    - apply Forall_forall. intros ls Hin. rewrite Forall_forall in Hset. apply Hset. clear -Hin. destruct hs as [|x hs] using rev_ind; [inversion Hin|].
      rewrite removelast_last in Hin. apply elem_of_app. now left.
    - now apply exact_sys_b_ok. }
  exists (ex_cfg 10 16384), s, rows. split; [rewrite !Forall_cons; auto|]. split; [rewrite !Forall_cons; auto|]. auto.
Qed.
Print Assumptions C28_example.
