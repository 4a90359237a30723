(** The cases of the simulation that change the specification's state: creating,
    taking, publishing, discarding and deleting an object; and reading. *)
From Coq Require Import ZifyBool ZifyNat ZifyN.
From stdpp Require Import base numbers list_numbers option gmap sets functions list.
From Verif Require Import Util Bytes BuddyModel BuddySpec BuddyProofs BuddyInv LayoutModel LayoutProofs.
From Verif Require Import PageIOModel PageIOSpec PageIOProofs PageIOWrite PageIOSys TuplesModel.
From Verif Require Import DirectModel DirectBase DirectSteps DirectInv DirectTup DirectAlloc DirectDev DirectSpec DirectRel DirectSim.
Open Scope N_scope.
Ltac Zify.zify_post_hook ::= idtac.

(** ** Reading *)
Lemma read_step_ok spage lpage o ps lc t d sbs rd :
  pages_view Direct spage lpage o ps lc t -> 0 < sbs -> RInv ps o lc t rd -> r_next rd < r_end rd ->
  exists n rng rd', direct_read_step spage lpage sbs true true d rd = (Some (slice_at d ps (r_next rd) n, rng), RNext rd') /\
    0 < n /\ n <= sbs /\ r_next rd + n <= r_end rd /\ r_next rd' = r_next rd + n /\ r_end rd' = r_end rd /\ RInv ps o lc t rd'.
Proof.
  intros V Hsbs (Ho & Hlc & Ht & Hle & Hk) Hlt. unfold direct_read_step.
  destruct (N.ltb_spec (r_next rd) (r_end rd)) as [_|Hge]; [|clear -Hge Hlt; lia]. cbn [negb].
  destruct (Hk Hlt) as (k & a & p & Ek & E & Hin). rewrite Ho, Hlc, Ht, Ek.
  rewrite (pv_page _ _ _ _ _ _ _ V k) by (eapply lookup_lt_Some; exact E). rewrite E.
  rewrite mod_pow2_spec, N.shiftl_1_l.
  rewrite (mod_within _ (psum ps k) _ (pow2_nz _) (psum_aligned _ _ _ _ (pv_nonincr _ _ _ _ _ _ _ V) E) Hin).
  remember (2 ^ p - (r_next rd - psum ps k)) as rem eqn:Erem.
  remember (N.min (N.min sbs (r_end rd - r_next rd)) rem) as cl eqn:Ecl.
  assert (Hrem : psum ps k + 2 ^ p = r_next rd + rem) by (clear -Erem Hin; lia).
  assert (Hcl : 0 < cl /\ cl <= sbs /\ cl <= r_end rd - r_next rd /\ cl <= rem /\ r_next rd - psum ps k + cl <= 2 ^ p).
  { clear -Ecl Erem Hin Hsbs Hlt. lia. }
  destruct Hcl as (C1 & C2 & C3 & C4 & C5).
  rewrite unaligned_read_spec by exact C1. rewrite dev_read_length, N2Nat.id, N.eqb_refl. cbn [negb].
  rewrite (dev_read_slice _ _ _ _ _ _ _ E) by exact C5.
  replace (psum ps k + (r_next rd - psum ps k)) with (r_next rd) by (clear -Hin; lia).
  eexists cl, _, _. split; [reflexivity|]. cbn [r_next r_end]. repeat (split; [assumption || (clear -C3 Hlt; lia) || reflexivity|]).
  repeat split; cbn [r_obj r_lpage_count r_tails r_end r_next r_idx]; try (clear -C3 Hlt Hle; lia). intros Hlt'.
  destruct (N.eqb_spec cl rem) as [Ecr|Ncr].
  - assert (r_next rd + cl = psum ps k + 2 ^ p) as Enx by (clear -Hrem Ecr; lia). rewrite Enx in *.
    apply (next_page_inv Direct spage lpage o ps lc t k a p (r_end rd) V E); [exact Hlt'|apply Hle].
  - exists k, a, p. split; [reflexivity|]. split; [exact E|]. clear -Hin Ncr C4 Hrem. lia.
Qed.

Lemma slice_lookup d ps i n j b : slice_at d ps i n !! j = Some b -> b = byte_at d ps (i + N.of_nat j).
Proof.
  unfold slice_at. rewrite list_lookup_fmap. destruct (seq 0 (N.to_nat n) !! j) as [x|] eqn:E; [|discriminate].
  apply lookup_seq in E as [-> _]. cbn. congruence.
Qed.
Lemma slice_length d ps i n : N.of_nat (length (slice_at d ps i n)) = n.
Proof. unfold slice_at. rewrite fmap_length, seq_length. apply N2Nat.id. Qed.

Lemma read_start_ok spage lpage m ps start fin :
  object_pages Direct spage lpage (obj_of m) ps ->
  match read_start Direct spage lpage (obj_of m) start fin with
  | RErr e => e = RangeOutOfBounds /\ (default (m_size m) fin < start \/ m_size m < default (m_size m) fin)
  | RPanic => False
  | RDone => start = default (m_size m) fin /\ start <= m_size m
  | RNext rd => start <= default (m_size m) fin <= m_size m /\ r_next rd = start /\ r_end rd = default (m_size m) fin /\
      exists lc t, pages_view Direct spage lpage (obj_of m) ps lc t /\ RInv ps (obj_of m) lc t rd
  end.
Proof.
  intros Hop. destruct (object_pages_view _ _ _ _ _ Hop) as (lc & t & V). unfold read_start.
  rewrite (pv_calc _ _ _ _ _ _ _ V). cbn [obj_of o_size] in *. set (fi := default (m_size m) fin). clearbody fi.
  unfold read_check. destruct (N.ltb_spec fi start) as [H1|H1]; cbn [orb]; [auto|].
  destruct (N.ltb_spec (m_size m) start) as [H2|H2]; cbn [orb]; [split; [reflexivity|right; clear -H1 H2; lia]|].
  destruct (N.ltb_spec (m_size m) fi) as [H3|H3]; cbn [orb]; [auto|].
  destruct (N.eqb_spec start fi) as [H4|H4]; cbn [orb]; [auto|].
  destruct (N.eqb_spec start (m_size m)) as [H5|H5]; cbn [orb]; [clear -H1 H3 H4 H5; lia|].
  destruct (read_start_idx_spec Direct spage lpage (obj_of m) ps lc t start V) as (k & a & p & Ei & Ek & Hk);
    [cbn; clear -H2 H5; lia|exact (op_limit _ _ _ _ _ Hop)|].
  rewrite Ei. cbn [r_next r_end]. split; [auto|]. split; [reflexivity|]. split; [reflexivity|].
  exists lc, t. split; [exact V|]. repeat split; cbn; auto. intros _. exists k, a, p. auto.
Qed.

(** ** Looking a key up *)
Lemma sim_find c h S qs ps key id r ob : Rel c h S qs -> SInv h ps -> find_committed h key id = Some (r, ob) ->
  exists co, sfind S key id co /\ co_id co = b_id ob /\ co_size co = m_size (b_meta ob) /\ co_created co = m_created (b_meta ob) /\
    h_com h !! key = Some r /\ h_objs h !! r = Some ob /\ m_key (b_meta ob) = key.
Proof.
  intros HR HS Hf. apply find_committed_Some in Hf as (Ec & Eo & Hm). pose proof (rl_com _ _ _ _ HR key) as Hrel. rewrite Ec in Hrel.
  destruct (ss_com S !! key) as [co|] eqn:Es; [|contradiction]. destruct Hrel as (ob2 & E2 & A1 & A2 & A3 & _).
  assert (ob2 = ob) as -> by congruence. exists co. split.
  - split; [exact Es|]. intros i ->. cbn in Hm. apply N.eqb_eq in Hm. congruence.
  - destruct (s_com _ _ HS _ _ Ec) as (ob3 & E3 & Hk & _). assert (ob3 = ob) as -> by congruence. repeat split; auto.
Qed.
Lemma sim_nf c h S qs ps key id : Rel c h S qs -> SInv h ps -> find_committed h key id = None -> forall co, ~ sfind S key id co.
Proof.
  intros HR HS Hf co [Hc Hid]. pose proof (find_committed_None _ _ _ _ HS Hf) as Hn. pose proof (rl_com _ _ _ _ HR key) as Hrel.
  rewrite Hc in Hrel. destruct (h_com h !! key) as [r|]; [|contradiction]. destruct Hn as (ob & Eo & Hm).
  destruct Hrel as (ob2 & E2 & A1 & _). assert (ob2 = ob) as -> by congruence.
  destruct id as [i|]; cbn in Hm; [|discriminate]. apply N.eqb_neq in Hm. apply Hm. rewrite A1. now apply Hid.
Qed.

(** ** Open uploads *)
Lemma sim_not_open c h S qs tok : Rel c h S qs -> h_inc h !! tok = None -> not_open S tok.
Proof. intros HR E u [Hu Ho]. apply (rl_open _ _ _ _ HR _ _ Hu) in Ho. rewrite E in Ho. now destruct Ho. Qed.
Lemma sim_open c h S qs tok r : Rel c h S qs -> h_inc h !! tok = Some r ->
  exists u, is_open S tok u /\ up_rel c h qs.*2 tok r u.
Proof.
  intros HR E. destruct (rl_up _ _ _ _ HR tok r) as (u & Hu & HU); [now left|]. exists u. split; [|exact HU].
  split; [exact Hu|]. apply (rl_open _ _ _ _ HR _ _ Hu). eauto.
Qed.

(** ** create *)
Lemma nact_none c h S qs tok off : Rel c h S qs -> (forall r, ~ has_id h r tok) -> nact tok off qs.*2 = 0%nat.
Proof.
  intros HR Hn. assert (H : forall s, s ∈ qs.*2 -> act tok off s = 0%nat).
  { intros s Hs. apply elem_of_list_fmap in Hs as ([p s'] & -> & Hin). cbn [snd]. pose proof (rl_pcs _ _ _ _ HR p s' Hin) as Hpc.
    destruct s' as [|tok' off' len st| | | | | | |]; try reflexivity. apply act_ne. intros Heq. injection Heq as -> ->.
    destruct p; cbn [pc_rel] in Hpc; try contradiction.
    1-5: destruct Hpc as [(_ & ob & E & Hi & _) _]; apply (Hn r); exists ob; auto.
    all: destruct c0 as [[]|]; contradiction. }
  induction (qs.*2) as [|s l IH]; [reflexivity|]. cbn [nact]. rewrite H by constructor. apply IH. intros s' Hs'. apply H. now constructor.
Qed.

Lemma sim_create4 c h S m msize moff id k s rest lk :
  cfg_ok c -> SInv h (PCreate4 m msize moff id k :: rest.*1) -> AInv c h (PCreate4 m msize moff id k :: rest.*1) lk ->
  Rel c h S ((PCreate4 m msize moff id k, s) :: rest) -> h_inc h !! id = None ->
  let S' := add_id (set_up S (<[id := new_upload (m_key m) (m_size m) (m_created m)]> (ss_up S))) id in
  Rel c (bump (set_inc (add_obj h (created_obj c m msize moff id)) (<[id := length (h_objs h)]> (h_inc h)))
            (met_create_done msize (m_size m))) S' ((PDone, SDone) :: rest) /\ id ∉ ss_ids S.
Proof.
  intros Hc HS HA HR Hin S'. pose proof HR as [R1 R2 R3 R4 R5 R6 R7].
  set (ob := created_obj c m msize moff id). set (h' := bump _ _). set (n := length (h_objs h)).
  assert (Hle : objs_le h h') by now apply (objs_le_add _ _ ob).
  assert (Hn : forall r, ~ has_id h r id).
  { intros r (ob2 & E2 & Hi2). apply (new_id_not_obj _ _ _ _ (PCreate4 m msize moff id k) HS E2); [constructor|]. rewrite Hi2. constructor. }
  assert (Hlk : h_objs h' !! n = Some ob). { cbn. rewrite lookup_app_r by (unfold n; lia). unfold n. now rewrite Nat.sub_diag. }
  assert (Hup : ss_up S !! id = None).
  { destruct (ss_up S !! id) as [u|] eqn:E; [|reflexivity]. exfalso. destruct (R1 _ _ E) as [r Hr].
    destruct (uref_obj _ _ _ _ HS Hr) as (ob2 & E2 & Hi2 & _). apply (Hn r). exists ob2. auto. }
  assert (Hs0 : forall tok off, act tok off s = 0%nat).
  { pose proof (R6 _ s ltac:(constructor)) as Hpc. cbn in Hpc. destruct s as [[]| | | | | | | |]; try contradiction. reflexivity. }
  split.
  2:{ intros Hid. destruct (R5 _ Hid) as [_ Hr]. apply Hr. apply elem_of_list_bind. exists (PCreate4 m msize moff id k). split; constructor. }
  constructor.
  - intros tok u Hu. cbn in Hu. destruct (decide (tok = id)) as [->|Hne].
    + exists n. left. cbn. apply lookup_insert.
    + rewrite lookup_insert_ne in Hu by auto. destruct (R1 _ _ Hu) as [r [H|(p & Hp & Hcr)]]; exists r.
      * left. cbn. rewrite lookup_insert_ne by auto. exact H.
      * right. exists p. split; [|exact Hcr]. apply elem_of_cons in Hp as [->|Hp]; [discriminate|now constructor].
  - intros tok r Hr. destruct (decide (tok = id)) as [->|Hne].
    + exists (new_upload (m_key m) (m_size m) (m_created m)). split; [apply lookup_insert|].
      assert (r = n) as ->.
      { destruct Hr as [H|(p & Hp & Hcr)]; [cbn in H; rewrite lookup_insert in H; injection H as <-; reflexivity|].
        apply elem_of_cons in Hp as [->|Hp]; [discriminate|]. exfalso.
        destruct (uref_obj h (PCreate4 m msize moff id k :: rest.*1) id r HS) as (ob2 & E2 & Hi2 & _).
        { right. exists p. split; [now constructor|exact Hcr]. }
        apply (Hn r). exists ob2. auto. }
      exists ob. split; [exact Hlk|]. repeat (split; [reflexivity|]). intros off. cbn [new_upload up_parts]. split; [|split].
      * cbn [part_new pt_writers nact fmap list_fmap snd act]. pose proof (nact_none _ _ _ _ id off HR Hn) as H0.
        cbn [nact fmap list_fmap snd] in H0. rewrite Hs0 in H0. symmetry. exact H0.
      * discriminate.
      * discriminate.
    + assert (Hr0 : uref h (PCreate4 m msize moff id k :: rest.*1) tok r).
      { destruct Hr as [H|(p & Hp & Hcr)]; [left; cbn in H; now rewrite lookup_insert_ne in H by auto|]. right. exists p. split; [|exact Hcr].
        apply elem_of_cons in Hp as [->|Hp]; [discriminate|now constructor]. }
      destruct (R2 tok r Hr0) as (u & Hu & HU). exists u. split; [cbn; now rewrite lookup_insert_ne by auto|].
      eapply up_rel_le; [exact Hle|reflexivity| |exact HU]. intros off. cbn [nact fmap list_fmap snd]. now rewrite Hs0.
  - intros tok u Hu. cbn in Hu |- *. destruct (decide (tok = id)) as [->|Hne].
    + rewrite lookup_insert in Hu. rewrite lookup_insert. injection Hu as <-. cbn. split; eauto.
    + rewrite lookup_insert_ne in Hu by auto. rewrite lookup_insert_ne by auto. auto.
  - intros key. eapply com_rel_le; [exact Hle|reflexivity|]. apply R4.
  - intros i Hi. cbn in Hi. apply elem_of_union in Hi as [Hi|Hi].
    + apply elem_of_singleton in Hi as ->. pose proof (s_ids _ _ HS) as Hnd. rewrite bind_cons in Hnd. cbn [pc_new_ids] in Hnd.
      split; [apply (s_used _ _ HS); rewrite bind_cons; apply elem_of_app; right; constructor|].
      cbn [fmap list_fmap fst]. rewrite bind_cons. cbn [pc_new_ids app]. apply NoDup_app in Hnd as (_ & _ & Hnd). now apply NoDup_cons in Hnd as [Hnd _].
    + eapply (ids_le h); [apply ids_none; [intros ? HH; exact HH|reflexivity]|exact R5|exact Hi].
  - intros q t Hq. apply elem_of_cons in Hq as [Hq|Hq]; [injection Hq as -> ->; exact I|].
    eapply pc_rel_mono; [exact Hle| |apply R6; now constructor]. intros r off w tok len st Hwo -> Hcl. split; [|reflexivity].
    destruct (decide (tok = id)) as [->|Hne].
    + exfalso. destruct Hcl as (u & Hu & Hcu). cbn in Hu. rewrite lookup_insert in Hu. injection Hu as <-. discriminate.
    + destruct Hcl as (u & Hu & Hcu). cbn in Hu. rewrite lookup_insert_ne in Hu by auto. exists u. auto.
  - intros r ob2 E2. cbn in E2. apply lookup_app_Some in E2 as [E2|[_ E2]]; [eauto|].
    destruct (r - length (h_objs h))%nat as [|j]; [|destruct j; discriminate]. cbn in E2. injection E2 as <-. cbn [b_meta ob created_obj].
    destruct (a_pcs _ _ _ _ HA (PCreate4 m msize moff id k) ltac:(constructor)) as (Hm & _ & _).
    destruct (a_alloc _ _ _ _ HA) as [f HI].
    apply (held_object_pages c m (h_alloc h) ([(moff, metadata_page_pow2 (dc_spage c) msize)] ++ (owners h (PCreate4 m msize moff id k :: rest.*1) ≫= opages c h) ++ (rest.*1 ≫= pc_pages c) ++ lk) f Hc Hm). eapply inv_perm; [exact HI|].
    unfold held. rewrite bind_cons. cbn [pc_pages]. clear. perm_solve.
Qed.

(** ** commit: the upload is taken *)
Lemma sim_take c h S tok ine r u s rest :
  SInv h (PStart (OCommit tok ine) :: rest.*1) -> Rel c h S ((PStart (OCommit tok ine), s) :: rest) ->
  h_inc h !! tok = Some r -> is_open S tok u ->
  Rel c (set_inc h (delete tok (h_inc h))) (set_up S (<[tok := closed u]> (ss_up S)))
    ((PCommit1 r tok ine, SCommitting tok ine) :: rest).
Proof.
  intros HS HR Ei [Hu Hopen]. pose proof HR as [R1 R2 R3 R4 R5 R6 R7]. set (h' := set_inc _ _).
  assert (Hle : objs_le h h') by (apply objs_le_refl; reflexivity).
  assert (Hs0 : forall tok off, act tok off s = 0%nat).
  { pose proof (R6 _ s ltac:(constructor)) as Hpc. cbn in Hpc. destruct s; try contradiction. reflexivity. }
  assert (Hback : forall tok' r', uref h' (PCommit1 r tok ine :: rest.*1) tok' r' -> uref h (PStart (OCommit tok ine) :: rest.*1) tok' r').
  { intros tok' r' [H|(p & Hp & Hcr)].
    - cbn in H. apply lookup_delete_Some in H as [_ H]. now left.
    - apply elem_of_cons in Hp as [->|Hp]; [cbn in Hcr; injection Hcr as <- <-; now left|]. right. exists p. split; [now constructor|exact Hcr]. }
  assert (Hfw : forall tok' r', uref h (PStart (OCommit tok ine) :: rest.*1) tok' r' -> uref h' (PCommit1 r tok ine :: rest.*1) tok' r').
  { intros tok' r' [H|(p & Hp & Hcr)].
    - destruct (decide (tok' = tok)) as [->|Hne].
      + right. exists (PCommit1 r tok ine). split; [constructor|]. cbn. congruence.
      + left. cbn. now rewrite lookup_delete_ne by auto.
    - right. apply elem_of_cons in Hp as [->|Hp]; [discriminate|]. exists p. split; [now constructor|exact Hcr]. }
  assert (Hsu : forall tok' u', ss_up (set_up S (<[tok := closed u]> (ss_up S))) !! tok' = Some u' ->
    exists u0, ss_up S !! tok' = Some u0 /\ up_parts u' = up_parts u0 /\ (tok' = tok -> up_open u' = false) /\ (tok' <> tok -> u' = u0)).
  { intros tok' u' H. cbn in H. destruct (decide (tok' = tok)) as [->|Hne].
    - rewrite lookup_insert in H. injection H as <-. exists u. repeat split; auto. congruence.
    - rewrite lookup_insert_ne in H by auto. exists u'. repeat split; auto. congruence. }
  constructor.
  - intros tok' u' Hu'. destruct (Hsu _ _ Hu') as (u0 & H0 & _). destruct (R1 _ _ H0) as [r' Hr']. eauto.
  - intros tok' r' Hr'. destruct (R2 _ _ (Hback _ _ Hr')) as (u0 & H0 & HU). cbn. destruct (decide (tok' = tok)) as [->|Hne].
    + exists (closed u). split; [apply lookup_insert|]. assert (u0 = u) as -> by congruence.
      destruct HU as (ob & E & A). exists ob. split; [exact E|]. destruct A as (A1 & A2 & A3 & A4 & A5). repeat (split; [assumption|]).
      intros off. destruct (A5 off) as (B1 & B2 & B3). split; [|split; assumption]. cbn [closed up_parts]. rewrite B1. cbn [nact fmap list_fmap snd]. now rewrite Hs0.
    + exists u0. split; [now rewrite lookup_insert_ne by auto|]. eapply up_rel_le; [exact Hle|reflexivity| |exact HU].
      intros off. cbn [nact fmap list_fmap snd]. now rewrite Hs0.
  - intros tok' u' Hu'. destruct (Hsu _ _ Hu') as (u0 & H0 & _ & H1 & H2). cbn. destruct (decide (tok' = tok)) as [->|Hne].
    + rewrite (H1 eq_refl), lookup_delete. split; [discriminate|]. intros [? ?]; discriminate.
    + rewrite (H2 Hne), lookup_delete_ne by auto. auto.
  - intros key. eapply com_rel_le; [exact Hle|reflexivity|]. apply R4.
  - eapply (ids_le h); [apply ids_none; [intros ? HH; exact HH|reflexivity]|exact R5].
  - intros q t Hq. apply elem_of_cons in Hq as [Hq|Hq]; [injection Hq as -> ->; cbn; auto|].
    eapply pc_rel_mono; [exact Hle| |apply R6; now constructor]. intros r' off w tok' len st Hwo -> Hcl. split; [|reflexivity].
    destruct Hcl as (u' & Hu' & Hcu). destruct (Hsu _ _ Hu') as (u0 & H0 & Hp & _). exists u0. split; [exact H0|]. now rewrite <- Hp.
  - exact R7.
Qed.

(** ** commit: the key is taken *)
Definition uref_gone (h : shared) (p p' : pc) (rest : list pc) (tok : N) : Prop :=
  (forall tok' r', uref h (p' :: rest) tok' r' -> uref h (p :: rest) tok' r' /\ tok' <> tok) /\
  (forall tok' r', uref h (p :: rest) tok' r' -> tok' <> tok -> uref h (p' :: rest) tok' r').
Lemma sim_uref_gone h p' tok r rest ine :
  SInv h (PCommit3 r tok ine :: rest) -> cref p' = None -> uref_gone h (PCommit3 r tok ine) p' rest tok.
Proof.
  intros HS Hp'. split.
  - intros tok' r' Hr.
    assert (H3 : uref h (PCommit3 r tok ine :: rest) tok' r').
    { destruct Hr as [H|(p & Hp & Hcr)]; [now left|]. apply elem_of_cons in Hp as [->|Hp]; [congruence|]. right. exists p. split; [now constructor|exact Hcr]. }
    split; [exact H3|]. intros ->.
    assert (r' = r) as ->.
    { eapply uref_unique; [exact HS|exact H3|]. right. exists (PCommit3 r tok ine). split; [constructor|reflexivity]. }
    (* the object would have two owners *)
    pose proof (s_nodup _ _ HS) as Hnd. unfold owners in Hnd. rewrite bind_cons in Hnd. cbn [pc_refs] in Hnd.
    rewrite nodup_mult in Hnd. specialize (Hnd r). rewrite !mult_app, mult_cons, decide_True, mult_nil in Hnd by reflexivity.
    destruct Hr as [H|(p & Hp & Hcr)].
    + assert (Hv : r ∈ vals (h_inc h)) by (apply elem_of_vals; eauto). apply mult_elem in Hv. lia.
    + apply elem_of_cons in Hp as [->|Hp]; [congruence|]. assert (Hv : r ∈ rest ≫= pc_refs).
      { apply elem_of_list_bind. exists p. split; [|exact Hp]. destruct p; try discriminate; cbn in Hcr; injection Hcr as <- <-; constructor. }
      apply mult_elem in Hv. lia.
  - intros tok' r' [H|(p & Hp & Hcr)] Hne; [now left|]. apply elem_of_cons in Hp as [->|Hp]; [cbn in Hcr; congruence|].
    right. exists p. split; [now constructor|exact Hcr].
Qed.

Lemma sim_discard c h S tok r s rest :
  SInv h (PCommit3 r tok true :: rest.*1) -> Rel c h S ((PCommit3 r tok true, s) :: rest) ->
  Rel c h (set_up S (delete tok (ss_up S))) ((PReap1 r (KCommit None true), SDiscarded) :: rest).
Proof.
  intros HS HR. pose proof HR as [R1 R2 R3 R4 R5 R6 R7].
  destruct (sim_uref_gone h (PReap1 r (KCommit None true)) tok r rest.*1 true HS eq_refl) as [Hback Hfw].
  assert (Hle : objs_le h h) by (apply objs_le_refl; reflexivity).
  assert (Hs0 : forall tok off, act tok off s = 0%nat).
  { pose proof (R6 _ s ltac:(constructor)) as Hpc. cbn in Hpc. destruct s; try contradiction. reflexivity. }
  constructor; auto.
  - intros tok' u' Hu'. cbn in Hu'. apply lookup_delete_Some in Hu' as [Hne Hu']. destruct (R1 _ _ Hu') as [r' Hr']. exists r'. apply Hfw; auto.
  - intros tok' r' Hr'. destruct (Hback _ _ Hr') as [Hr0 Hne]. destruct (R2 _ _ Hr0) as (u & Hu & HU). exists u. cbn.
    rewrite lookup_delete_ne by auto. split; [exact Hu|]. eapply up_rel_le; [exact Hle|reflexivity| |exact HU].
    intros off. cbn [nact fmap list_fmap snd]. now rewrite Hs0.
  - intros tok' u' Hu'. cbn in Hu'. apply lookup_delete_Some in Hu' as [Hne Hu']. auto.
  - intros q t Hq. apply elem_of_cons in Hq as [Hq|Hq]; [injection Hq as -> ->; exact I|].
    eapply pc_rel_mono; [exact Hle| |apply R6; now constructor]. intros r' off w tok' len st Hwo -> (u & Hu & Hcu). split; [|reflexivity].
    cbn in Hu. apply lookup_delete_Some in Hu as [_ Hu]. exists u. auto.
Qed.

(** ** commit: the object is published *)
Lemma sim_publish c h S tok ine r ob (id : N) u s rest :
  SInv h (PCommit3 r tok ine :: rest.*1) -> Rel c h S ((PCommit3 r tok ine, s) :: rest) ->
  h_objs h !! r = Some ob -> id ∉ h_used h -> ss_up S !! tok = Some u ->
  let bytes := byte_at (h_dev h) (dpages c (b_meta ob)) in
  extends u bytes /\ id ∉ ss_ids S /\ Rel c (use_id (set_com (add_obj h (published_obj ob id)) (<[m_key (b_meta ob) := length (h_objs h)]> (h_com h))) id)
    (add_id (set_scom (set_up S (delete tok (ss_up S)))
         (<[up_key u := {| co_id := id; co_size := up_size u; co_created := up_created u; co_bytes := bytes |}]> (ss_com S))) id)
    ((PCommit4 tok id (h_com h !! m_key (b_meta ob)), SPublished tok id (co_id <$> ss_com S !! up_key u)) :: rest).
Proof.
  intros HS HR Eo Hid Hu bytes. pose proof HR as [R1 R2 R3 R4 R5 R6 R7].
  set (nob := published_obj ob id). set (h' := use_id _ _). set (n := length (h_objs h)).
  set (p' := PCommit4 tok id (h_com h !! m_key (b_meta ob))).
  destruct (sim_uref_gone h p' tok r rest.*1 ine HS eq_refl) as [Hback Hfw].
  assert (Hle : objs_le h h') by now apply (objs_le_add _ _ nob).
  assert (Hlk : h_objs h' !! n = Some nob). { cbn. rewrite lookup_app_r by (unfold n; lia). unfold n. now rewrite Nat.sub_diag. }
  assert (Hs0 : forall tok off, act tok off s = 0%nat).
  { pose proof (R6 _ s ltac:(constructor)) as Hpc. cbn in Hpc. destruct s; try contradiction. reflexivity. }
  assert (Hr3 : uref h (PCommit3 r tok ine :: rest.*1) tok r).
  { right. exists (PCommit3 r tok ine). split; [constructor|reflexivity]. }
  destruct (R2 tok r Hr3) as (u0 & Hu0 & ob0 & E0 & A1 & A2 & A3 & A4 & A5).
  assert (u0 = u) as -> by congruence. assert (ob0 = ob) as -> by congruence. clear Hu0 E0.
  split; [|split].
  - intros off l i b Hl Hb. destruct (A5 off) as (_ & _ & B3). destruct (B3 l Hl) as (_ & _ & C3). now apply C3.
  - intros Hi. now destruct (R5 _ Hi).
  - constructor.
    + intros tok' u' Hu'. cbn in Hu'. apply lookup_delete_Some in Hu' as [Hne Hu']. destruct (R1 _ _ Hu') as [r' Hr']. exists r'.
      destruct (Hfw _ _ Hr' ltac:(auto)) as [H|H]; [left; exact H|right; exact H].
    + intros tok' r' Hr'. destruct (Hback tok' r') as [Hr0 Hne]; [destruct Hr' as [H|H]; [left; exact H|right; exact H]|].
      destruct (R2 _ _ Hr0) as (u' & Hu' & HU). exists u'. cbn. rewrite lookup_delete_ne by auto. split; [exact Hu'|].
      eapply up_rel_le; [exact Hle|reflexivity| |exact HU]. intros off. cbn [nact fmap list_fmap snd]. now rewrite Hs0.
    + intros tok' u' Hu'. cbn in Hu'. apply lookup_delete_Some in Hu' as [Hne Hu']. cbn. auto.
    + intros key. cbn. rewrite <- A2. destruct (decide (key = m_key (b_meta ob))) as [->|Hne].
      * rewrite !lookup_insert. cbn [com_rel]. exists nob. split; [exact Hlk|]. cbn [nob published_obj b_id b_meta co_id co_size co_created co_bytes]. split; [reflexivity|]. split; [exact A3|]. split; [exact A4|]. reflexivity.
      * rewrite !lookup_insert_ne by auto. eapply com_rel_le; [exact Hle|reflexivity|]. apply R4.
    + intros i Hi. cbn in Hi. apply elem_of_union in Hi as [Hi|Hi].
      * apply elem_of_singleton in Hi as ->. split; [apply elem_of_union; left; now apply elem_of_singleton|].
        cbn [fmap list_fmap fst]. rewrite bind_cons. cbn [pc_new_ids app]. intros Hx. apply Hid, (s_used _ _ HS). rewrite bind_cons, !elem_of_app. auto.
      * eapply (ids_le h); [apply ids_none; [|reflexivity]|exact R5|exact Hi]. intros x Hx. apply elem_of_union. now right.
    + intros q t Hq. apply elem_of_cons in Hq as [Hq|Hq].
      * injection Hq as -> ->. unfold p'. cbn [pc_rel]. split; [reflexivity|]. split; [reflexivity|]. rewrite <- A2. pose proof (R4 (m_key (b_meta ob))) as Hcr.
        destruct (h_com h !! m_key (b_meta ob)) as [e|], (ss_com S !! m_key (b_meta ob)) as [co|]; cbn [com_rel] in Hcr; try contradiction; cbn; auto.
        destruct Hcr as (obe & Ee & Hie & _). apply (has_id_le h); [exact Hle|]. exists obe. auto.
      * eapply pc_rel_mono; [exact Hle| |apply R6; now constructor]. intros r' off w tok' len st Hwo -> (u' & Hu' & Hcu). split; [|reflexivity].
        cbn in Hu'. apply lookup_delete_Some in Hu' as [_ Hu']. exists u'. auto.
    + intros r' ob' E'. cbn in E'. apply lookup_app_Some in E' as [E'|[_ E']]; [eauto|].
      destruct (r' - length (h_objs h))%nat as [|j]; [|destruct j; discriminate]. cbn in E'. injection E' as <-. cbn. eauto.
Qed.

(** ** delete *)
Lemma sim_delete c h S key id r ob co s rest :
  SInv h (PStart (ODelete key id) :: rest.*1) -> Rel c h S ((PStart (ODelete key id), s) :: rest) ->
  h_com h !! key = Some r -> h_objs h !! r = Some ob -> co_id co = b_id ob ->
  Rel c (set_com h (delete key (h_com h))) (set_scom S (delete key (ss_com S))) ((PReap1 r KDelete, SDeleted (co_id co)) :: rest).
Proof.
  intros HS HR Ec Eo Hid. pose proof HR as [R1 R2 R3 R4 R5 R6 R7]. set (h' := set_com _ _).
  assert (Hle : objs_le h h') by (apply objs_le_refl; reflexivity).
  assert (Hs0 : forall tok off, act tok off s = 0%nat).
  { pose proof (R6 _ s ltac:(constructor)) as Hpc. cbn in Hpc. destruct s; try contradiction. reflexivity. }
  constructor.
  - intros tok u Hu. destruct (R1 _ _ Hu) as [r' Hr']. exists r'. eapply uref_cons; [| |exact Hr']; reflexivity.
  - intros tok r' Hr'. destruct (R2 tok r') as (u & Hu & HU); [eapply uref_cons; [| |exact Hr']; reflexivity|].
    exists u. split; [exact Hu|]. eapply up_rel_le; [exact Hle|reflexivity| |exact HU]. intros off. cbn [nact fmap list_fmap snd]. now rewrite Hs0.
  - exact R3.
  - intros key'. cbn. destruct (decide (key' = key)) as [->|Hne]; [rewrite !lookup_delete; exact I|].
    rewrite !lookup_delete_ne by auto. apply (com_rel_le c h); [exact Hle|reflexivity|]. apply R4.
  - eapply (ids_le h); [apply ids_none; [intros ? HH; exact HH|reflexivity]|exact R5].
  - intros q t Hq. apply elem_of_cons in Hq as [Hq|Hq]; [injection Hq as -> ->; cbn; exists ob; auto|].
    eapply pc_rel_mono; [exact Hle| |apply R6; now constructor]. intros r' off w tok' len st Hwo -> Hcl. split; [exact Hcl|reflexivity].
  - exact R7.
Qed.
