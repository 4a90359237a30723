From Coq Require Import ZifyBool ZifyNat ZifyN.
From stdpp Require Import base numbers list_numbers option gmap sets functions sorting list.
From Verif Require Import Util Bytes BuddyModel BuddySpec LayoutModel LayoutProofs PageIOModel PageIOSpec PageIOProofs TuplesModel TuplesSpec TuplesProofs TuplesDurable.
From Verif Require Import DirectModel DirectBase DirectSteps DirectInv DirectTup DirectAlloc DirectDev DirectSpec DirectRel DirectSeqSpec DirectSys.
From Verif Require Import DirectLoadModel DirectLog DirectLoad DirectSource DirectAlive DirectOld DirectRestart DirectRestart3 DirectRestartSpec DirectRestart4 ExportModel ExportSpec.
Open Scope N_scope.
Ltac Zify.zify_post_hook ::= idtac.

(** ** The stream *)
Lemma take_seq_le s n m : (n <= m)%nat -> take n (seq s m) = seq s n.
Proof. intros H. replace m with (n + (m - n))%nat by lia. rewrite seq_app. apply take_app_alt. now rewrite seq_length. Qed.
Lemma dev_read_length d a len : length (dev_read d a len) = N.to_nat len.
Proof. unfold dev_read. now rewrite fmap_length, seq_length. Qed.
Lemma stream_take d reads : forall rem, concat (x_stream d rem reads) = take (N.to_nat rem) (concat ((fun r => dev_read d (fst r) (snd r)) <$> reads)).
Proof.
  induction reads as [|[a len] reads IH]; intros rem; cbn [x_stream fmap list_fmap concat fst snd]; [now rewrite take_nil|].
  rewrite IH, firstn_app, dev_read_length. repeat f_equal. clear. lia.
Qed.
Lemma pages_bytes d ps : concat ((fun r => dev_read d (fst r) (snd r)) <$> ((fun ap => (fst ap, 2 ^ snd ap)) <$> ps)) =
  (fun i => byte_at d ps (N.of_nat i)) <$> seq 0 (N.to_nat (psum ps (length ps))).
Proof.
  induction ps as [|[a p] ps IH]; [reflexivity|]. cbn [fmap list_fmap concat fst snd length]. rewrite psum_cons, N2Nat.inj_add, seq_app, fmap_app.
  f_equal.
  - unfold dev_read. apply list_fmap_ext. intros i x E. apply lookup_seq in E as [-> Hi]. unfold byte_at. cbn [locate].
    rewrite (proj2 (N.ltb_lt _ _)); [reflexivity|]. clear -Hi. lia.
  - etransitivity; [exact IH|]. rewrite Nat.add_0_l, <- (Nat.add_0_r (N.to_nat (2 ^ p))), <- fmap_add_seq, <- list_fmap_compose.
    apply list_fmap_ext. intros i x _. unfold compose, byte_at. cbn [locate]. rewrite (proj2 (N.ltb_ge _ _)) by (clear; lia).
    f_equal. f_equal. clear. lia.
Qed.

Lemma read_entry c d e : entry_ok c d e -> opg c (snd e) ->
  exists x, x_read c {| x_tuple := fst e; x_dev := d |} = Some x /\ xo_id x = eid e /\ xo_key x = ekey e /\ xo_size x = m_size (snd e) /\
    xo_created x = m_created (snd e) /\ concat (xo_chunks x) = byte_range (byte_at d (dpages c (snd e))) 0 (m_size (snd e)).
Proof.
  intros (Hd & Hok & _) Hop. unfold x_read. cbn [x_tuple x_dev]. rewrite Hd. cbn [mbind option_bind].
  destruct Hok as ([_ (t' & tails & _ & _ & _ & Hdp)] & _). cbn [lobj b_meta] in Hdp.
  assert (data_pages c (snd e) = Some (dpages c (snd e))) as E by (unfold dpages; rewrite Hdp; reflexivity).
  rewrite E. cbn [mbind option_bind]. eexists. split; [reflexivity|]. cbn [xo_id xo_key xo_size xo_created xo_chunks].
  do 4 (split; [reflexivity|]). rewrite stream_take, pages_bytes, <- fmap_take.
  destruct (object_pages_view _ _ _ _ _ Hop) as (lc & t & V). pose proof (pv_total _ _ _ _ _ _ _ V) as [Ht _]. cbn [obj_of o_size] in Ht.
  unfold byte_range. rewrite N.sub_0_r. rewrite (take_seq_le) by (clear -Ht; lia). apply list_fmap_ext. intros i x _. f_equal.
Qed.

(** ** The entries of a partition *)
Lemma part_entries c y z lk init t (had : list N -> cobj -> Prop) : cfg_ok c -> Alive c y z lk -> ~ inexact c y -> opens (dc_spage c) (sy_disk (h_tup (y_sh y))) init t ->
  OldInv c (y_sh y) (y_procs y) had ->
  exists es, es.*1 = concat init /\ NoDup (eid <$> es) /\ (forall e, e ∈ es -> entry_ok c (h_dev (y_sh y)) e) /\
    (forall e, e ∈ es -> is_com e -> opg c (snd e) /\
      exists co, (ss_com (z_state z) !! ekey e = Some co \/ removing z (co_id co) /\ had (ekey e) co) /\
        co_id co = eid e /\ co_size co = m_size (snd e) /\ co_created co = m_created (snd e) /\
        forall i, i < m_size (snd e) -> byte_at (h_dev (y_sh y)) (dpages c (snd e)) i = co_bytes co i) /\
    (forall key co, ss_com (z_state z) !! key = Some co ->
      (exists e, e ∈ es /\ is_com e /\ eid e = co_id co /\ ekey e = key /\ co_size co = m_size (snd e) /\ co_created co = m_created (snd e) /\
        forall i, i < m_size (snd e) -> byte_at (h_dev (y_sh y)) (dpages c (snd e)) i = co_bytes co i) \/ publishing z (co_id co)).
Proof.
  intros Hc [[(qs & sp & Hp1 & Hp2 & HS & HT & HA & HR)] (pages & t0 & init0 & cs & Ho & HK) HRec HTy] Hex Ho' HO.
  destruct (reopen _ _ _ _ _ _ Ho (k_valid _ _ _ _ _ _ HK) (k_fresh _ _ _ _ _ _ HK) (k_runs _ _ _ _ _ _ HK)) as (init2 & t2 & J & Ho2 & HJ & Hack & Hpair).
  destruct (opens_det _ _ _ _ _ _ Ho2 Ho') as [-> ->]. clear Ho2.
  destruct (restart_entries c y lk sp pages t0 init0 cs Hc HT HA HK HRec HTy Hex Ho (index_of init) J HJ Hack Hpair init t Ho' eq_refl (concat init) ltac:(reflexivity))
    as (es & ss & k & H1 & H2 & H3 & H4).
  exists es. split; [exact H1|]. split; [exact H2|]. split; [|split].
  - intros e He. apply elem_of_list_lookup_1 in He as [i Hi]. destruct (Forall2_lookup_l _ _ _ _ _ H3 Hi) as (s & _ & _ & _ & H & _). exact H.
  - intros e He Hi. eapply (com_entry c y z qs); eassumption.
  - intros key co Hco. eapply (com_there c y z qs); try eassumption; try reflexivity.
Qed.

Lemma mapM_cons {A B} (f : A -> option B) x l : mapM f (x :: l) = (y ← f x; ys ← mapM f l; Some (y :: ys)).
Proof. reflexivity. Qed.

(** ** Sorting *)
Global Instance marker_trans : Transitive marker_le.
Proof. intros a b d [H1|[H1 H1']] [H2|[H2 H2']]; unfold marker_le; lia. Qed.
Global Instance marker_total : Total marker_le.
Proof. intros a b. unfold marker_le. destruct (N.lt_trichotomy (k_id a) (k_id b)) as [H|[H|H]]; [auto| |auto]. destruct (Nat.le_ge_cases (k_part a) (k_part b)); auto. Qed.
Global Instance marker_anti : AntiSymm (=) marker_le.
Proof. intros [a p] [b q]. unfold marker_le. cbn. intros H1 H2. f_equal; lia. Qed.
Global Instance marker_eq_dec : EqDecision marker.
Proof. solve_decision. Defined.
Global Instance row_trans : Transitive row_le.
Proof. intros a b d. apply marker_trans. Qed.
Global Instance row_total : Total row_le.
Proof. intros a b. apply marker_total. Qed.

Lemma sorted_fst (l : list xrow) : StronglySorted row_le l -> StronglySorted marker_le l.*1.
Proof.
  induction 1 as [|r l H IH HF]; [constructor|]. cbn [fmap list_fmap]. constructor; [exact IH|]. clear -HF.
  induction HF; [constructor|]. cbn [fmap list_fmap]. constructor; assumption.
Qed.
Lemma strong_lookup {A} (R : A -> A -> Prop) l : StronglySorted R l -> forall i j a b, (i < j)%nat -> l !! i = Some a -> l !! j = Some b -> R a b.
Proof.
  induction 1 as [|x l H IH HF]; intros i j a b Hij Hi Hj; [discriminate|]. destruct j as [|j]; [lia|]. destruct i as [|i].
  - injection Hi as <-. rewrite Forall_forall in HF. apply HF. eapply elem_of_list_lookup_2, Hj.
  - apply (IH i j); [lia|exact Hi|exact Hj].
Qed.
Lemma increasing_sorted l : StronglySorted marker_le l -> NoDup l -> increasing l.
Proof.
  intros H Hn i j a b Hij Hi Hj. split; [eapply strong_lookup; eassumption|]. intros ->. pose proof (NoDup_lookup _ _ _ _ Hn Hi Hj). lia.
Qed.

(** ** All entries *)
Section Parts.
Context (spage : N) (parts : list xpart).
Definition tuples_of (p : xpart) (l : list tuple) : Prop := exists bundles, load_area spage (xp_area p) = Some bundles /\ l = concat bundles.
Hypothesis Hparts : forall i p, parts !! i = Some p -> exists l, tuples_of p l /\ NoDup (t_id <$> l).

Definition row_in (offset : marker) (r : xrow) : Prop :=
  exists p l, parts !! k_part (fst r) = Some p /\ tuples_of p l /\ x_tuple (snd r) ∈ l /\ x_dev (snd r) = xp_dev p /\
    t_id (x_tuple (snd r)) = k_id (fst r) /\ t_state (x_tuple (snd r)) = ds_committed /\ marker_le offset (fst r).

Lemma part_rows_ok offset i p : parts !! i = Some p -> exists rows, part_rows spage offset i p = Some rows /\
  NoDup rows.*1 /\ (forall r, r ∈ rows <-> row_in offset r /\ k_part (fst r) = i).
Proof.
  intros E. destruct (Hparts i p E) as (l & (bundles & Hl & ->) & Hnd). unfold part_rows. rewrite Hl. cbn [mbind option_bind]. eexists. split; [reflexivity|]. split.
  - clear Hl. induction (concat bundles) as [|t l IH]; [constructor|]. cbn [fmap list_fmap] in Hnd. apply NoDup_cons in Hnd as [Hn1 Hn2].
    cbn [omap list_omap]. destruct (bool_decide _ && _); [|now apply IH]. cbn [fmap list_fmap fst]. apply NoDup_cons. split; [|now apply IH].
    intros Hin. apply Hn1. apply elem_of_list_fmap in Hin as (r & Hr & Hin). apply elem_of_list_omap in Hin as (t2 & Ht2 & Hin).
    destruct (bool_decide _ && _); [|discriminate]. injection Hin as <-. cbn [fst] in Hr. injection Hr as Hr. rewrite Hr. now apply elem_of_list_fmap_1.
  - intros [m [t d]]. rewrite elem_of_list_omap. split.
    + intros (t2 & Hin & Heq). destruct (bool_decide _) eqn:Eb; [|discriminate]. destruct (N.eqb_spec (t_state t2) ds_committed) as [Ec|]; [|discriminate].
      apply bool_decide_eq_true in Eb. injection Heq as <- <- <-. split; [|reflexivity]. exists p, (concat bundles). cbn [fst snd k_part k_id x_tuple x_dev].
      split; [exact E|]. split; [exists bundles; auto|]. auto.
    + intros [(p2 & l2 & H1 & (b2 & H2 & ->) & H3 & H4 & H5 & H6 & H7) Hk]. cbn [fst snd x_tuple x_dev] in *. rewrite Hk in H1. rewrite E in H1. injection H1 as <-.
      rewrite Hl in H2. injection H2 as <-. exists t. split; [exact H3|]. destruct m as [mi mp]. cbn [k_id k_part] in *. subst mi mp d.
      rewrite bool_decide_eq_true_2 by exact H7. rewrite (proj2 (N.eqb_eq _ _) H6). reflexivity.
Qed.
Lemma row_det offset1 offset2 m e1 e2 : row_in offset1 (m, e1) -> row_in offset2 (m, e2) -> e1 = e2.
Proof.
  intros (p & l & H1 & (b & H2 & ->) & H3 & H4 & H5 & _) (p2 & l2 & G1 & (b2 & G2 & ->) & G3 & G4 & G5 & _). cbn [fst snd] in *.
  rewrite H1 in G1. injection G1 as <-. rewrite H2 in G2. injection G2 as <-. destruct (Hparts _ _ H1) as (l & (b2 & Hb & ->) & Hnd). rewrite H2 in Hb. injection Hb as <-.
  destruct e1 as [t1 d1], e2 as [t2 d2]. cbn [x_tuple x_dev] in *. f_equal; [|congruence].
  apply elem_of_list_lookup_1 in H3 as [i1 I1]. apply elem_of_list_lookup_1 in G3 as [i2 I2].
  assert (i1 = i2) as <-; [|congruence]. apply (NoDup_lookup (t_id <$> concat b) i1 i2 (t_id t1) Hnd); rewrite list_lookup_fmap; [rewrite I1|rewrite I2]; cbn; congruence.
Qed.

Lemma exporter_ok offset arrival : arrival ≡ₚ seq 0 (length parts) -> exists rows, exporter_new spage parts offset arrival = Some rows /\
  StronglySorted marker_le rows.*1 /\ NoDup rows.*1 /\ (forall r, r ∈ rows <-> row_in offset r).
Proof.
  intros Har.
  assert (Hlt : forall i, i ∈ arrival <-> is_Some (parts !! i)).
  { intros i. rewrite Har, elem_of_seq, lookup_lt_is_Some. lia. }
  assert (Hnd : NoDup arrival) by (rewrite Har; apply NoDup_seq).
  assert (G : exists rows, mapM (fun i => p ← parts !! i; part_rows spage offset i p) arrival = Some rows /\ NoDup (concat rows).*1 /\
    (forall r, r ∈ concat rows <-> row_in offset r /\ k_part (fst r) ∈ arrival)).
  { assert (Hlt' : forall i, i ∈ arrival -> is_Some (parts !! i)) by (intros i Hi; now apply Hlt). clear Hlt Har. induction arrival as [|i arrival IH].
    - exists []. split; [reflexivity|]. split; [constructor|]. intros r. cbn. split; [intros H; inversion H|intros [_ H]; inversion H].
    - apply NoDup_cons in Hnd as [Hn1 Hn2]. destruct IH as (rows & E & N1 & M1); [exact Hn2|intros j Hj; apply Hlt'; now right|].
      destruct (Hlt' i) as [p Ep]; [left|]. destruct (part_rows_ok offset i p Ep) as (r0 & E0 & N0 & M0).
      exists (r0 :: rows). split; [rewrite mapM_cons, Ep; cbn [mbind option_bind]; rewrite E0; cbn [mbind option_bind]; setoid_rewrite E; reflexivity|].
      cbn [concat]. rewrite fmap_app. split.
      + apply NoDup_app. split; [exact N0|]. split; [|exact N1]. intros m Hm Hm2. apply elem_of_list_fmap in Hm as (r1 & -> & Hr1). apply elem_of_list_fmap in Hm2 as (r2 & Hr & Hr2).
        apply M0 in Hr1 as [_ Hr1]. apply M1 in Hr2 as [_ Hr2]. rewrite <- Hr, Hr1 in Hr2. contradiction.
      + intros r. rewrite elem_of_app, M0, M1, elem_of_cons. tauto. }
  destruct G as (rows & E & N1 & M1). exists (merge_sort row_le (concat rows)). unfold exporter_new. unfold xrow in *. rewrite E. cbn [mbind option_bind].
  pose proof (merge_sort_Permutation row_le (concat rows)) as Hp.
  split; [reflexivity|]. split; [apply sorted_fst, StronglySorted_merge_sort; apply _|]. split; [now rewrite Hp|].
  intros r. rewrite Hp, M1. split; [tauto|]. intros H. split; [exact H|]. apply Hlt. destruct H as (p & l & H & _). eauto.
Qed.
Lemma rows_unique rows1 rows2 o1 o2 : StronglySorted marker_le rows1.*1 -> StronglySorted marker_le rows2.*1 -> NoDup rows1.*1 -> NoDup rows2.*1 ->
  (forall r, r ∈ rows1 -> row_in o1 r) -> (forall r, r ∈ rows2 -> row_in o2 r) -> (forall r, r ∈ rows1 <-> r ∈ rows2) -> rows1 = rows2.
Proof.
  intros S1 S2 N1 N2 R1 R2 M.
  assert (E : rows1.*1 = rows2.*1).
  { apply (StronglySorted_unique marker_le); [exact S1|exact S2|]. apply NoDup_Permutation; [exact N1|exact N2|]. intros m. rewrite !elem_of_list_fmap.
    split; intros (r & H1 & H2); exists r; (split; [exact H1|]); now apply M. }
  apply list_eq. intros i. destruct (rows1 !! i) as [[m e1]|] eqn:E1.
  - pose proof (f_equal (fun l => l !! i) E) as Ei. cbn beta in Ei. rewrite !list_lookup_fmap, E1 in Ei. cbn in Ei. destruct (rows2 !! i) as [[m2 e2]|] eqn:E2; [|discriminate].
    cbn in Ei. injection Ei as <-. f_equal. f_equal. eapply row_det; [apply R1; eapply elem_of_list_lookup_2, E1|apply R2; eapply elem_of_list_lookup_2, E2].
  - pose proof (f_equal (fun l => l !! i) E) as Ei. cbn beta in Ei. rewrite !list_lookup_fmap, E1 in Ei. destruct (rows2 !! i); [discriminate|reflexivity].
Qed.

(** Resuming at the marker of an entry yields that entry and those after it. *)
Lemma exporter_resume offset arrival arrival' l1 m e l2 : arrival ≡ₚ seq 0 (length parts) -> arrival' ≡ₚ seq 0 (length parts) ->
  exporter_new spage parts offset arrival = Some (l1 ++ (m, e) :: l2) -> exporter_new spage parts m arrival' = Some ((m, e) :: l2).
Proof.
  intros Ha Ha' E. destruct (exporter_ok offset arrival Ha) as (rows & E1 & S1 & N1 & M1). rewrite E in E1. injection E1 as <-.
  destruct (exporter_ok m arrival' Ha') as (rows & E2 & S2 & N2 & M2). rewrite E2. f_equal.
  rewrite fmap_app in S1, N1. cbn [fmap list_fmap fst] in S1, N1.
  apply (rows_unique _ _ m offset); [exact S2| |exact N2| |intros r; apply M2| |].
  - apply StronglySorted_app_inv_r in S1. exact S1.
  - apply NoDup_app in N1 as (_ & _ & N1). exact N1.
  - intros r Hr. apply M1. apply elem_of_app. now right.
  - intros r. rewrite M2. split.
    + intros H. assert (Hr : r ∈ l1 ++ (m, e) :: l2).
      { apply M1. destruct H as (p & l & H1 & H2 & H3 & H4 & H5 & H6 & H7). exists p, l. do 6 (split; [assumption|]).
        etransitivity; [|exact H7]. assert (Hm : (m, e) ∈ l1 ++ (m, e) :: l2) by (apply elem_of_app; right; left). apply M1 in Hm as (_ & _ & _ & _ & _ & _ & _ & _ & Hm). exact Hm. }
      apply elem_of_app in Hr as [Hr|Hr]; [exfalso|exact Hr].
      destruct H as (_ & _ & _ & _ & _ & _ & _ & _ & H7).
      assert (marker_le (fst r) m). { eapply (elem_of_StronglySorted_app marker_le); [exact S1|now apply elem_of_list_fmap_1|left]. }
      assert (fst r = m) as Heq by (apply (anti_symm marker_le); assumption).
      apply NoDup_app in N1 as (_ & N1 & _). apply (N1 (fst r)); [now apply elem_of_list_fmap_1|]. rewrite Heq. left.
    + intros Hr. assert (H : r ∈ l1 ++ (m, e) :: l2) by (apply elem_of_app; now right). apply M1 in H as (p & l & H1 & H2 & H3 & H4 & H5 & H6 & H7).
      exists p, l. do 6 (split; [assumption|]). apply elem_of_cons in Hr as [->|Hr]; [cbn [fst]; unfold marker_le; right; lia|].
      apply StronglySorted_app_inv_r in S1. inversion S1 as [|? ? _ HF]; subst. rewrite Forall_forall in HF. apply HF. now apply elem_of_list_fmap_1.
Qed.
End Parts.
