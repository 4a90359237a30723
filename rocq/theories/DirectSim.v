(** A direct partition does what its specification says: every step is matched. *)
From Coq Require Import ZifyBool ZifyNat ZifyN.
From stdpp Require Import base numbers list_numbers option gmap sets functions list.
From Verif Require Import Util Bytes BuddyModel BuddySpec BuddyProofs BuddyInv LayoutModel LayoutProofs.
From Verif Require Import PageIOModel PageIOSpec PageIOProofs PageIOWrite PageIOSys TuplesModel.
From Verif Require Import DirectModel DirectBase DirectSteps DirectInv DirectTup DirectAlloc DirectDev DirectSpec DirectRel.
Open Scope N_scope.
Ltac Zify.zify_post_hook ::= idtac.

Lemma up_rel_le c h h' ss ss' tok r u : objs_le h h' -> h_dev h' = h_dev h -> (forall off, nact tok off ss' = nact tok off ss) ->
  up_rel c h ss tok r u -> up_rel c h' ss' tok r u.
Proof.
  intros Hle Ed Hn (ob & E & A1 & A2 & A3 & A4 & A5). destruct (Hle _ _ E) as (ob' & E' & (Hi' & Hm & _) & _).
  exists ob'. rewrite Hm, Ed. split; [exact E'|]. split; [congruence|]. repeat (split; [assumption|]).
  intros off. destruct (A5 off) as (B1 & B2 & B3). split; [now rewrite Hn|]. split; assumption.
Qed.
Lemma com_rel_le c h h' r co : objs_le h h' -> h_dev h' = h_dev h -> com_rel c h r co -> com_rel c h' r co.
Proof.
  intros Hle Ed. destruct r, co; cbn [com_rel]; auto. intros (ob & E & A1 & A2 & A3 & A4).
  destruct (Hle _ _ E) as (ob' & E' & (Hi' & Hm & _) & _). exists ob'. rewrite Hm, Ed. split; [exact E'|]. split; [congruence|]. auto.
Qed.
(** The ids a step makes new use of. *)
Definition ids_ok (h h' : shared) (p p' : pc) : Prop :=
  (forall id, id ∈ h_used h -> id ∈ h_used h') /\ forall id, id ∈ pc_new_ids p' -> id ∈ pc_new_ids p \/ id ∉ h_used h.
Lemma ids_le h h' p p' rest (X : gset N) : ids_ok h h' p p' ->
  (forall id, id ∈ X -> id ∈ h_used h /\ id ∉ (p :: rest) ≫= pc_new_ids) -> forall id, id ∈ X -> id ∈ h_used h' /\ id ∉ (p' :: rest) ≫= pc_new_ids.
Proof.
  intros [H1 H2] H id Hid. destruct (H id Hid) as [Hu Hn]. split; [auto|]. rewrite bind_cons, elem_of_app in *. intros [H3|H3]; [|tauto].
  destruct (H2 id H3); tauto.
Qed.
Lemma ids_none h h' p p' : (forall id, id ∈ h_used h -> id ∈ h_used h') -> pc_new_ids p' = [] -> ids_ok h h' p p'.
Proof. intros H E. split; [exact H|]. rewrite E. intros id Hid. inversion Hid. Qed.
Lemma opg_back c h h' : objs_back h h' -> (forall r ob, h_objs h !! r = Some ob -> opg c (b_meta ob)) ->
  forall r ob, h_objs h' !! r = Some ob -> opg c (b_meta ob).
Proof. intros Hb H r ob E. destruct (Hb _ _ E) as (ob0 & E0 & (_ & Hm & _)). rewrite Hm. eauto. Qed.

Lemma uref_cons h h' p p' ps tok r : h_inc h' = h_inc h -> cref p' = cref p -> uref h' (p' :: ps) tok r -> uref h (p :: ps) tok r.
Proof.
  intros Ei Ec [H|(q & Hq & Hc)]; [left; congruence|]. right. apply elem_of_cons in Hq as [->|Hq].
  - exists p. split; [constructor|congruence].
  - exists q. split; [now constructor|exact Hc].
Qed.

(** Steps that change neither the maps nor the device, and that the
    specification does not see. *)
Lemma rel_frame c h h' S p p' s s' rest :
  Rel c h S ((p, s) :: rest) ->
  h_inc h' = h_inc h -> h_com h' = h_com h -> h_dev h' = h_dev h -> objs_le h h' -> objs_back h h' -> ids_ok h h' p p' ->
  cref p' = cref p -> (forall tok off, act tok off s' = act tok off s) -> pc_rel c h' S p' s' ->
  Rel c h' S ((p', s') :: rest).
Proof.
  intros [R1 R2 R3 R4 R5 R6 R7] Ei Ec Ed Hle Hb Hio Hcr Ha Hpc. constructor.
  - intros tok u Hu. destruct (R1 tok u Hu) as [r Hr]. exists r. eapply uref_cons; [|symmetry; exact Hcr|exact Hr]. now symmetry.
  - intros tok r Hr. destruct (R2 tok r) as (u & Hu & HU); [eapply uref_cons; [exact Ei|exact Hcr|exact Hr]|].
    exists u. split; [exact Hu|]. eapply up_rel_le; [exact Hle|exact Ed| |exact HU]. intros off. cbn. now rewrite Ha.
  - intros tok u Hu. rewrite Ei. auto.
  - intros key. rewrite Ec. eapply com_rel_le; eauto.
  - eapply ids_le; eassumption.
  - intros q t Hq. apply elem_of_cons in Hq as [Hq|Hq]; [injection Hq as -> ->; exact Hpc|].
    eapply pc_rel_mono; [exact Hle| |apply R6; now constructor]. intros r off w tok len st _ _ Hcl. split; [exact Hcl|].
    intros. now rewrite Ed.
  - eapply opg_back; eassumption.
Qed.

(** Writes starting and ending. *)
Lemma on_part_lookup S tok off f tok' : ss_up (on_part S tok off f) !! tok' =
  if decide (tok' = tok) then (fun u => set_part u off (f (up_parts u off))) <$> ss_up S !! tok else ss_up S !! tok'.
Proof.
  cbn. destruct (decide (tok' = tok)) as [->|Hne]; [apply lookup_alter|]. rewrite lookup_alter_ne by auto. reflexivity.
Qed.
Lemma clean_on_part S tok off f tok' off' : clean (on_part S tok off f) tok' off' -> (tok', off') <> (tok, off) -> clean S tok' off'.
Proof.
  intros (u & Hu & Hc) Hne. rewrite on_part_lookup in Hu. destruct (decide (tok' = tok)) as [->|]; [|exists u; auto].
  destruct (ss_up S !! tok) as [u0|] eqn:E; [|discriminate]. cbn in Hu. injection Hu as <-. exists u0. split; [exact E|].
  cbn in Hc. unfold set_part, set_parts in Hc. cbn in Hc. rewrite fn_lookup_insert_ne in Hc; [exact Hc|]. intros ->. now apply Hne.
Qed.
Lemma clean_on_part_eq S tok off f : clean (on_part S tok off f) tok off ->
  exists u, ss_up S !! tok = Some u /\ pt_clean (f (up_parts u off)) = true.
Proof.
  intros (u & Hu & Hc). rewrite on_part_lookup, decide_True in Hu by reflexivity.
  destruct (ss_up S !! tok) as [u0|] eqn:E; [|discriminate]. cbn in Hu. injection Hu as <-. exists u0. split; [reflexivity|].
  cbn in Hc. now rewrite fn_lookup_insert in Hc.
Qed.

Lemma rel_part c h h' S p p' s s' rest tok off f :
  Rel c h S ((p, s) :: rest) ->
  h_inc h' = h_inc h -> h_com h' = h_com h -> h_dev h' = h_dev h -> objs_le h h' -> objs_back h h' -> ids_ok h h' p p' ->
  cref p' = cref p -> (forall tok' off', (tok', off') <> (tok, off) -> act tok' off' s' = act tok' off' s) ->
  (forall u r ob, ss_up S !! tok = Some u -> uref h (p :: rest.*1) tok r -> h_objs h !! r = Some ob ->
     part_rel c (h_dev h) (s :: rest.*2) tok (b_meta ob) off (up_parts u off) ->
     part_rel c (h_dev h) (s' :: rest.*2) tok (b_meta ob) off (f (up_parts u off))) ->
  (forall u, ss_up S !! tok = Some u -> pt_clean (f (up_parts u off)) = true -> nact tok off rest.*2 = 0%nat) ->
  pc_rel c h' (on_part S tok off f) p' s' ->
  Rel c h' (on_part S tok off f) ((p', s') :: rest).
Proof.
  intros [R1 R2 R3 R4 R5 R6 R7] Ei Ec Ed Hle Hb Hio Hcr Ha Hpart Hcl Hpc. constructor.
  - intros tok' u Hu. rewrite on_part_lookup in Hu.
    assert (exists u0, ss_up S !! tok' = Some u0) as [u0 Hu0].
    { destruct (decide (tok' = tok)) as [->|]; [|eauto]. destruct (ss_up S !! tok); [eauto|discriminate]. }
    destruct (R1 tok' u0 Hu0) as [r Hr]. exists r. eapply uref_cons; [|symmetry; exact Hcr|exact Hr]. now symmetry.
  - intros tok' r Hr. assert (Hr0 : uref h (p :: rest.*1) tok' r) by (eapply uref_cons; [exact Ei|exact Hcr|exact Hr]).
    destruct (R2 tok' r Hr0) as (u & Hu & HU). rewrite on_part_lookup.
    destruct (decide (tok' = tok)) as [->|Hne].
    + rewrite Hu. cbn [fmap option_fmap option_map]. eexists. split; [reflexivity|].
      destruct HU as (ob & E & A1 & A2 & A3 & A4 & A5). destruct (Hle _ _ E) as (ob' & E' & (Hi' & Hm & _) & _).
      exists ob'. rewrite Hm, Ed. split; [exact E'|]. split; [congruence|]. cbn [set_part set_parts up_key up_size up_created up_parts].
      repeat (split; [assumption|]). intros off'. destruct (decide (off' = off)) as [->|Hno].
      * rewrite fn_lookup_insert. eapply Hpart; [exact Hu|exact Hr0|exact E|]. apply A5.
      * rewrite fn_lookup_insert_ne by auto. destruct (A5 off') as (B1 & B2 & B3). split; [|split; assumption].
        rewrite B1. cbn [nact fmap list_fmap snd]. rewrite Ha; [reflexivity|]. intros HH. injection HH. auto.
    + exists u. split; [exact Hu|]. eapply up_rel_le; [exact Hle|exact Ed| |exact HU]. intros off'. cbn. rewrite Ha; [reflexivity|].
      intros HH. injection HH. auto.
  - intros tok' u Hu. rewrite Ei. rewrite on_part_lookup in Hu. destruct (decide (tok' = tok)) as [->|]; [|eauto].
    destruct (ss_up S !! tok) as [u0|] eqn:E; [|discriminate]. cbn in Hu. injection Hu as <-. cbn. now apply R3.
  - intros key. rewrite Ec. eapply com_rel_le; eauto.
  - eapply ids_le; eassumption.
  - intros q t Hq. apply elem_of_cons in Hq as [Hq|Hq]; [injection Hq as -> ->; exact Hpc|].
    eapply pc_rel_mono; [exact Hle| |apply R6; now constructor]. intros r off' w tok' len st Hwo -> Hcl'.
    destruct (decide ((tok', off') = (tok, off))) as [Heq|Hne].
    + exfalso. injection Heq as -> ->. apply clean_on_part_eq in Hcl' as (u & Hu & Hc). specialize (Hcl u Hu Hc).
      pose proof (nact_elem tok off rest.*2 (SWriting tok off len st)) as Hel. rewrite act_self in Hel.
      specialize (Hel ltac:(apply (elem_of_list_fmap_1 snd) in Hq; exact Hq)). lia.
    + split; [eapply clean_on_part; eassumption|]. intros. now rewrite Ed.
  - eapply opg_back; eassumption.
Qed.

(** Bytes reach the device. *)
Definition pc_flight (c : dcfg) (h : shared) (p : pc) : Prop := flight_ok c h p.
Lemma rel_flight c h S p s : pc_rel c h S p s -> flight_ok c h p.
Proof.
  destruct p; cbn [flight_ok]; auto. destruct s; cbn [pc_rel]; try contradiction.
  intros [(-> & ob & E & Hi & [Hv _] & [d Hd] & _) _]. exists ob. split; [exact E|]. eapply wf_frame; eassumption.
Qed.

Lemma rel_torn c h S p s rest lk addr len d' :
  cfg_ok c -> SInv h (p :: rest.*1) -> AInv c h (p :: rest.*1) lk -> Rel c h S ((p, s) :: rest) ->
  in_flight c p = Some (addr, len) -> (forall x, d' x <> h_dev h x -> addr <= x < addr + len) ->
  Rel c (set_dev h d') S ((p, s) :: rest).
Proof.
  intros Hc HS HA HR Hif Hd. pose proof HR as [R1 R2 R3 R4 R5 R6 R7].
  assert (Hps : pc_rel c h S p s) by (apply R6; constructor).
  pose proof (rel_flight _ _ _ _ _ Hps) as Hfl.
  pose proof (flight_bytes c h (p :: rest.*1) lk p addr len d' Hc HS HA ltac:(constructor) Hfl Hif Hd) as Hby.
  assert (Hnd := s_nodup _ _ HS).
  (* committed objects are not written to *)
  assert (Hcom : forall key r ob i, h_com h !! key = Some r -> h_objs h !! r = Some ob -> i < m_size (b_meta ob) ->
    byte_at d' (dpages c (b_meta ob)) i = byte_at (h_dev h) (dpages c (b_meta ob)) i).
  { intros key r ob i Hk E Hi.
    assert (Hv : r ∈ vals (h_com h)) by (apply elem_of_vals; eauto).
    destruct (Hby r ob i) as [|(off & w & buf & st & -> & _)]; [unfold owners; rewrite !elem_of_app; auto|exact E|exact Hi|eauto|assumption|exfalso].
    destruct (w4_owner _ _ r _ HS ltac:(constructor) eq_refl) as [Hw _].
    unfold owners in Hnd. apply nodup_mult with (x := r) in Hnd. rewrite !mult_app in Hnd.
    apply mult_elem in Hv. rewrite elem_of_app in Hw. destruct Hw as [Hw|Hw].
    - apply mult_elem in Hw. lia.
    - assert (Hw2 : r ∈ (PWrite4 r off w buf st :: rest.*1) ≫= pc_refs).
      { apply elem_of_list_bind in Hw as (q & Hq & Hin). apply elem_of_list_bind. exists q. split; [|exact Hin].
        destruct q; try (inversion Hq; fail); exact Hq. }
      apply mult_elem in Hw2. lia. }
  (* of an upload, only the part being written *)
  assert (Hup : forall tok r ob i, uref h (p :: rest.*1) tok r -> h_objs h !! r = Some ob -> i < m_size (b_meta ob) ->
    (forall off len st, s = SWriting tok off len st -> ~ in_part (dc_lpage c) (m_size (b_meta ob)) off i) ->
    byte_at d' (dpages c (b_meta ob)) i = byte_at (h_dev h) (dpages c (b_meta ob)) i).
  { intros tok r ob i Hu E Hi Hno. destruct (uref_obj _ _ _ _ HS Hu) as (ob2 & E2 & Hid & Hown). assert (ob2 = ob) as -> by congruence.
    destruct (Hby r ob i Hown E Hi ltac:(eauto)) as [|(off & w & buf & st & -> & Hin & _)]; [assumption|exfalso].
    cbn [pc_rel] in Hps. destruct s; try contradiction. destruct Hps as [(-> & ob3 & E3 & Hi3 & _) _]. assert (ob3 = ob) as -> by congruence.
    eapply Hno; [f_equal; congruence|exact Hin]. }
  assert (Hle : objs_le h (set_dev h d')) by (apply objs_le_refl; reflexivity).
  constructor; auto.
  - intros tok r Hr. destruct (R2 tok r Hr) as (u & Hu & ob & E & A1 & A2 & A3 & A4 & A5). exists u. split; [exact Hu|].
    exists ob. split; [exact E|]. repeat (split; [assumption|]). intros off. destruct (A5 off) as (B1 & B2 & B3).
    split; [exact B1|]. split; [exact B2|]. intros l Hl. destruct (B3 l Hl) as (C1 & C2 & C3). split; [exact C1|]. split; [exact C2|].
    intros i b Hib. rewrite <- (C3 i b Hib). cbn [h_dev set_dev]. destruct C2 as [C2 C2'].
    apply lookup_lt_Some in Hib. apply (Hup tok r ob); [exact Hr|exact E|clear -C2' Hib; lia|].
    intros off2 len2 st2 -> Hin. cbn [pc_rel] in Hps.
    assert (Hm2 : off2 mod 2 ^ dc_lpage c = 0).
    { destruct p; try discriminate Hif; try contradiction; destruct Hps as [(-> & ob2 & E2 & Hid & [Hv _] & _) _]; exact Hv. }
    assert (off2 = off) as ->.
    { eapply parts_disjoint; [exact Hm2|exact C2|exact Hin|]. unfold in_part. clear -C2' Hib; lia. }
    rewrite B1 in C1. cbn [nact fmap list_fmap snd] in C1. rewrite act_self in C1. lia.
  - intros key. specialize (R4 key). destruct (h_com h !! key) as [r|] eqn:Ek, (ss_com S !! key) as [co|]; cbn [h_com set_dev] in *; rewrite ?Ek in *; cbn [com_rel] in *; auto.
    destruct R4 as (ob & E & A1 & A2 & A3 & A4). exists ob. split; [exact E|]. repeat (split; [assumption|]).
    intros i Hi. rewrite <- A4 by exact Hi. eapply Hcom; eassumption.
  - intros q t Hq. apply elem_of_cons in Hq as [Hq|Hq].
    + injection Hq as -> ->. eapply pc_rel_mono; [exact Hle| |exact Hps]. intros r off w tok len2 st Hwo -> Hcl. split; [exact Hcl|].
      intros ob E Hid i Hi. destruct p; try discriminate Hif.
      { discriminate Hwo. }
      cbn in Hwo. injection Hwo as <- <- <-. cbn [pc_rel] in Hps. destruct Hps as [(_ & ob2 & E2 & Hid2 & Hv & Hex & HWf & _) _].
      assert (ob2 = ob) as -> by congruence. specialize (HWf Hcl). destruct HWf as [Hl HW].
      pose proof (written_le _ _ _ _ _ _ _ _ _ _ HW) as Hwl.
      destruct (w4_owner _ _ r0 _ HS ltac:(constructor) eq_refl) as [_ Hown].
      assert (Hsz : offset + i < m_size (b_meta ob)).
      { pose proof (wi_part _ _ _ _ _ _ _ _ _ _ HW) as Hpt. cbn [obj_of o_size] in Hpt. clear -Hpt Hwl Hi. lia. }
      destruct (Hby r0 ob (offset + i) Hown E Hsz ltac:(eauto)) as [|(off2 & w2 & buf2 & st2 & Heq & _ & k & a & pw & amt & _ & _ & Hk & Hin)]; [assumption|exfalso].
      injection Heq as <- <- <- <-. rewrite (wi_written _ _ _ _ _ _ _ _ _ _ HW) in Hk. clear -Hk Hin Hi. lia.
    + eapply pc_rel_mono; [exact Hle| |apply R6; now constructor]. intros r off w tok len2 st Hwo -> Hcl. split; [exact Hcl|].
      intros ob E Hid i Hi. pose proof Hcl as (u & Hu & Hcu).
      destruct (R1 tok u Hu) as [r' Hr']. destruct (R2 tok r' Hr') as (u' & Hu' & ob' & E' & Hid' & _ & _ & _ & A5).
      assert (u' = u) as -> by congruence.
      assert (r' = r) as -> by (eapply id_unique; [exact HS|exact E'|exact E|congruence]). assert (ob' = ob) as -> by congruence.
      assert (Hwr : exists len0 st0 w0, WFd c (b_meta ob) off len0 st0 (h_dev h) w0 /\ w_written w0 = w_written w /\ off mod 2 ^ dc_lpage c = 0).
      { pose proof (R6 q (SWriting tok off len2 st) ltac:(now constructor)) as Hpq. exists len2, st, w.
        destruct q; try discriminate Hwo; cbn in Hwo; injection Hwo as -> -> ->; cbn [pc_rel] in Hpq;
          destruct Hpq as [(_ & ob3 & E3 & Hi3 & [Hv3 _] & _ & HWf & _) _]; assert (ob3 = ob) as -> by congruence; auto. }
      destruct Hwr as (len0 & st0 & w0 & [Hl0 HW0] & Hww & Hoff).
      pose proof (written_le _ _ _ _ _ _ _ _ _ _ HW0) as Hwl. pose proof (wi_part _ _ _ _ _ _ _ _ _ _ HW0) as Hpt. cbn [obj_of o_size] in Hpt.
      rewrite Hww in Hwl.
      apply (Hup tok r ob); [exact Hr'|exact E|clear -Hpt Hwl Hi; lia|].
      intros off2 len3 st3 -> Hin.
      assert (Hm2 : off2 mod 2 ^ dc_lpage c = 0).
      { cbn [pc_rel] in Hps. destruct p; try discriminate Hif; try contradiction; destruct Hps as [(-> & ob2 & E2 & Hid2 & [Hv _] & _) _]; exact Hv. }
      assert (off2 = off) as ->.
      { eapply parts_disjoint; [exact Hm2|exact Hoff|exact Hin|]. unfold in_part. clear -Hpt Hwl Hi; lia. }
      destruct (A5 off) as (B1 & B2 & _). specialize (B2 Hcu). rewrite B1 in B2. cbn [nact fmap list_fmap snd] in B2. rewrite act_self in B2.
      pose proof (nact_elem tok off rest.*2 (SWriting tok off len2 st)) as Hel. rewrite act_self in Hel.
      specialize (Hel ltac:(apply (elem_of_list_fmap_1 snd) in Hq; exact Hq)). unfold fmap in *. lia.
Qed.
