(** Every step of a call is matched by the specification. *)
From Coq Require Import ZifyBool ZifyNat ZifyN.
From stdpp Require Import base numbers list_numbers option gmap sets functions list.
From Verif Require Import Util Bytes BuddyModel BuddySpec BuddyProofs BuddyInv LayoutModel LayoutProofs.
From Verif Require Import PageIOModel PageIOSpec PageIOProofs PageIOWrite PageIOSys TuplesModel.
From Verif Require Import DirectModel DirectBase DirectSteps DirectInv DirectTup DirectAlloc DirectDev DirectSpec DirectRel DirectSim DirectSim2.
Open Scope N_scope.
Ltac Zify.zify_post_hook ::= idtac.

(** The specification makes no step, one, or two of which the last is visible if
    [v] is. *)
Inductive wsteps (lpage : N) (rest : list sproc) (S : sstate) (s : sproc) : sstate -> sproc -> option vis -> Prop :=
| ws_stay : wsteps lpage rest S s S s None
| ws_one S' s' v : sstep lpage S (s :: rest) s S' s' v -> wsteps lpage rest S s S' s' v
| ws_two S1 s1 S' s' v : sstep lpage S (s :: rest) s S1 s1 None -> sstep lpage S1 (s1 :: rest) s1 S' s' v ->
    wsteps lpage rest S s S' s' v.

Definition simulated (c : dcfg) (h' : shared) (S : sstate) (s : sproc) (p' : pc) (v : option vis) (rest : list (pc * sproc)) : Prop :=
  exists S' s', wsteps (dc_lpage c) rest.*2 S s S' s' v /\ Rel c h' S' ((p', s') :: rest).
Lemma sim_stay c h' S s p' rest : Rel c h' S ((p', s) :: rest) -> simulated c h' S s p' None rest.
Proof. intros H. exists S, s. split; [constructor|exact H]. Qed.
Lemma sim_one c h' S s S' s' p' v rest : sstep (dc_lpage c) S (s :: rest.*2) s S' s' v -> Rel c h' S' ((p', s') :: rest) ->
  simulated c h' S s p' v rest.
Proof. intros Hs H. exists S', s'. split; [now constructor|exact H]. Qed.

Ltac fr HR := eapply (rel_frame _ _ _ _ _ _ _ _ _ HR);
  [reflexivity|reflexivity|reflexivity
  |first [apply objs_le_refl; reflexivity|eapply objs_le_set; [eassumption|repeat split|auto]]
  |first [apply objs_back_refl; reflexivity|eapply objs_back_set; [eassumption|repeat split]]
  |first [apply ids_none; [solve [let HH := fresh in intros ? HH; exact HH|intros ? ?; apply elem_of_union; now right]|reflexivity]
         |split; [solve [let HH := fresh in intros ? HH; exact HH|intros ? ?; apply elem_of_union; now right]|]; cbn [pc_new_ids]; intros ? Hnid; first [left; exact Hnid|right; apply elem_of_list_singleton in Hnid as ->; assumption]]
  |reflexivity|intros; reflexivity|].

(** ** Writes *)
Definition no_fail_dec (st : list item) : {no_fail st} + {~ no_fail st}.
Proof.
  induction st as [|[d|] st IH].
  - left. intros H. inversion H.
  - destruct IH as [IH|IH]; [left|right].
    + intros H. apply elem_of_cons in H as [H|H]; [discriminate|auto].
    + intros H. apply IH. intros H2. apply H. now constructor.
  - right. intros H. apply H. constructor.
Defined.

Lemma sim_write_start c h S tok offset len st r ob w s rest u :
  Rel c h S ((PStart (OWrite tok offset len st), s) :: rest) -> SInv h (PStart (OWrite tok offset len st) :: rest.*1) ->
  h_inc h !! tok = Some r -> h_objs h !! r = Some ob -> offset + 2 ^ dc_lpage c < 2 ^ 64 ->
  write_check (dc_lpage c) (m_size (b_meta ob)) offset len = None ->
  write_start Direct (dc_spage c) (dc_lpage c) (obj_of (b_meta ob)) offset len st = Running w ->
  is_open S tok u ->
  Rel c (bump h met_one_write) (on_part S tok offset part_start) ((PWrite1 r offset w, SWriting tok offset len st) :: rest).
Proof.
  intros HR HS Ei Eo Hw Hchk Hst [Hu Hopen].
  pose proof (rl_obj _ _ _ _ HR _ _ Eo) as Hop. pose proof (write_check_ok _ _ _ _ Hw Hchk) as Hv.
  assert (Hs0 : forall tok off, act tok off s = 0%nat).
  { pose proof (rl_pcs _ _ _ _ HR _ s ltac:(constructor)) as Hpc. cbn in Hpc. destruct s; try contradiction. reflexivity. }
  destruct (s_inc _ _ HS _ _ Ei) as (ob2 & E2 & Hid & _). assert (ob2 = ob) as -> by congruence. clear E2.
  destruct (rl_up _ _ _ _ HR tok r) as (u0 & Hu0 & ob0 & E0 & A1 & A2 & A3 & A4 & A5); [now left|].
  assert (u0 = u) as -> by congruence. assert (ob0 = ob) as -> by congruence. clear Hu0 E0.
  destruct (A5 offset) as (B1 & B2 & B3). cbn [nact fmap list_fmap snd] in B1. rewrite Hs0 in B1. cbn [Nat.add] in B1.
  eapply (rel_part _ _ _ _ _ _ _ _ _ tok offset part_start HR); try reflexivity.
  - apply objs_le_refl; reflexivity.
  - apply objs_back_refl; reflexivity.
  - apply ids_none; [auto|reflexivity].
  - intros tok' off' Hne. rewrite Hs0. apply act_ne. auto.
  - intros u' r' ob' Hu' _ _ (D1 & D2 & D3). split; [|split].
    + cbn [part_start pt_writers nact]. rewrite act_self, D1. cbn [nact]. rewrite Hs0. reflexivity.
    + cbn [part_start pt_writers pt_clean]. intros H. apply bool_decide_eq_true in H. now rewrite H.
    + discriminate.
  - intros u' Hu' H. cbn [part_start pt_clean] in H. apply bool_decide_eq_true in H. assert (u' = u) as -> by congruence.
    change ((fix go (l : list (pc * sproc)) : list sproc := match l with [] => [] | x :: l0 => x.2 :: go l0 end) rest) with (rest.*2) in B1.
    congruence.
  - cbn [pc_rel]. pose proof (wf_start c (b_meta ob) offset len st w) as Hws.
    destruct (Hws (h_dev h) Hop Hw Hst) as (W1 & W2 & W3). split.
    + split; [reflexivity|]. exists ob. split; [exact Eo|]. split; [exact Hid|]. split; [exact Hv|]. split; [eauto|]. split; [auto|].
      rewrite W2. auto.
    + intros Hz. left. congruence.
Qed.

(** A write ends without success. *)
Lemma sim_write_abort c h h' S p r off w tok len st rest :
  Rel c h S ((p, SWriting tok off len st) :: rest) -> wr_rel c h S r off w tok off len st ->
  h_inc h' = h_inc h -> h_com h' = h_com h -> h_dev h' = h_dev h -> objs_le h h' -> objs_back h h' -> (forall id, id ∈ h_used h -> id ∈ h_used h') -> cref p = None ->
  Rel c h' (on_part S tok off part_abort) ((PDone, SDone) :: rest).
Proof.
  intros HR Hwr E1 E2 E3 Hle Hb Hio Hcr.
  eapply (rel_part _ _ _ _ _ _ _ _ _ tok off part_abort HR); auto.
  - now apply ids_none.
  - intros tok' off' Hne. symmetry. apply act_ne. auto.
  - intros u' r' ob' Hu' _ _ (D1 & D2 & D3). cbn [nact] in D1. rewrite act_self in D1. split; [|split; [|discriminate]].
    + cbn [part_abort pt_writers nact act]. rewrite D1. reflexivity.
    + discriminate.
  - discriminate.
  - exact I.
Qed.

(** A write that delivered everything. *)
Lemma sim_write_finish c h S p p' r off w tok len st rest :
  Rel c h S ((p, SWriting tok off len st) :: rest) -> wr_rel c h S r off w tok off len st ->
  w_written w = len -> N.of_nat (length (stream_bytes st)) = len -> cref p = None -> cref p' = None -> pc_new_ids p' = [] ->
  SInv h (p :: rest.*1) ->
  pc_rel c h (on_part S tok off (fun q => part_finish q (stream_bytes st))) p' (SWrote st) ->
  Rel c h (on_part S tok off (fun q => part_finish q (stream_bytes st))) ((p', SWrote st) :: rest).
Proof.
  intros HR (_ & ob & Eo & Hid & Hv & _ & HW & _) Hwr Hlen Hcr Hcr' Hni HS Hpc.
  eapply (rel_part _ _ _ _ _ _ _ _ _ tok off _ HR); try reflexivity; auto.
  - apply objs_le_refl; reflexivity.
  - apply objs_back_refl; reflexivity.
  - now apply ids_none.
  - congruence.
  - intros tok' off' Hne. symmetry. apply act_ne. auto.
  - intros u r' ob' Hu Hr' Eo' (D1 & D2 & D3). cbn [nact] in D1. rewrite act_self in D1. split; [|split].
    + cbn [part_finish pt_writers nact act]. rewrite D1. reflexivity.
    + discriminate.
    + intros l Hl. cbn [part_finish pt_data] in Hl. destruct (pt_clean (up_parts u off)) eqn:Ecl; [|discriminate]. injection Hl as <-.
      destruct (uref_obj _ _ _ _ HS Hr') as (ob2 & E2 & Hid2 & _). assert (ob2 = ob') as -> by congruence.
      assert (r' = r) as -> by (eapply id_unique; [exact HS|exact Eo'|exact Eo|congruence]). assert (ob' = ob) as -> by congruence.
      split; [cbn [part_finish pt_writers]; rewrite (D2 eq_refl); reflexivity|]. rewrite Hlen. split; [exact Hv|].
      destruct (HW ltac:(exists u; auto)) as [Hl2 HWi]. intros i b Hib.
      pose proof (lookup_lt_Some _ _ _ Hib) as Hlt.
      rewrite (wi_done _ _ _ _ _ _ _ _ _ _ HWi) by (clear -Hlt Hlen Hwr; lia).
      unfold want_of. rewrite N.add_comm, N.add_sub, Nat2N.id, Hib. reflexivity.
  - discriminate.
Qed.

Lemma wr_rel_le c h h' S r off w tok off' len st : objs_le h h' -> h_dev h' = h_dev h ->
  wr_rel c h S r off w tok off' len st -> wr_rel c h' S r off w tok off' len st.
Proof. intros Hle Ed. apply wr_rel_mono; [exact Hle|]. intros _ Hc. split; [exact Hc|]. intros. now rewrite Ed. Qed.
Lemma wr_rel_with_buf c h S r off w tok off' len st buf st' : polled w buf st' ->
  wr_rel c h S r off w tok off' len st -> wr_rel c h S r off (with_buf w buf st') tok off' len st.
Proof.
  intros Hp (-> & ob & E & Hi & Hv & [d Hd] & Hcl & Hst). split; [reflexivity|]. exists ob. split; [exact E|]. split; [exact Hi|]. split; [exact Hv|].
  split; [exists d; now apply wf_with_buf|]. split; [intros; apply wf_with_buf; auto|]. intros x Hx. apply Hst.
  apply polled_bytes in Hp as (_ & _ & Hs). now apply Hs.
Qed.

(** The call ends by itself. *)
Lemma sim_w1_end c h S r off w resp s rest :
  Rel c h S ((PWrite1 r off w, s) :: rest) -> SInv h (PWrite1 r off w :: rest.*1) -> write_ends w resp ->
  simulated c h S s PDone (Some (VRet resp)) rest.
Proof.
  intros HR HS He. pose proof (rl_pcs _ _ _ _ HR _ s ltac:(constructor)) as Hpc. cbn [pc_rel] in Hpc.
  destruct s as [|tok off' len st|st| | | | | |]; try contradiction.
  - destruct Hpc as [Hwr Hun]. pose proof Hwr as (-> & ob & Eo & Hid & Hv & [d Hd] & _ & Hst).
    pose proof (wf_end _ _ _ _ _ _ _ Hd) as [Hle Hnone]. pose proof Hd as [Hl [_ _ _ _ _ Hcount Hnf]].
    assert (Habort : forall e, write_error S tok len st e -> simulated c h S (SWriting tok off len st) PDone (Some (VRet (RFailed e))) rest).
    { intros e We. eapply sim_one; [eapply ss_write_fail; exact We|]. eapply sim_write_abort; [exact HR|exact Hwr|reflexivity..|apply objs_le_refl; reflexivity|apply objs_back_refl; reflexivity|auto|reflexivity]. }
    destruct He as [st' E|E1 E2 E3|E1 E2 E3|buf st' Hp Hlong|buf st' Hp Hlong Ht].
    + apply Habort. constructor. apply Hst. rewrite E. constructor.
    + apply Habort. constructor. rewrite E1, E2 in Hcount. cbn in Hcount. clear -Hcount E3 Hl. lia.
    + rewrite E1, E2 in Hcount. cbn in Hcount. rewrite N.add_0_r in Hcount. rewrite E1 in Hnf.
      specialize (Hnf ltac:(intros H; inversion H)).
      assert (len = 0) as Hz. { destruct Hun as [Hz|Hz]; [congruence|exact Hz|]. exfalso. apply Hz. split; [exact Hnf|congruence]. }
      exists (on_part S tok off (fun q => part_finish q (stream_bytes st))), SDone. split.
      * eapply ws_two; [apply ss_write_done; [exact Hnf|congruence|right; exact Hz]|]. apply ss_write_return.
      * assert (HR2 := sim_write_finish c h S (PWrite1 r off w) (PWrite1 r off w) r off w tok len st rest HR Hwr ltac:(congruence) ltac:(congruence) eq_refl eq_refl eq_refl HS).
        specialize (HR2 ltac:(exists (b_meta ob), len, d; repeat (split; [assumption || congruence|]); exact Hst)).
        fr HR2. exact I.
    + apply Habort. constructor. apply polled_bytes in Hp as (Hb & _). apply (f_equal length) in Hb. rewrite !app_length in Hb.
      rewrite app_length in Hcount. clear -Hb Hcount Hlong Hl. lia.
    + apply Hnone in Ht. assert (Hbuf : buf = []). { destruct buf; [reflexivity|]. cbn [length] in Hlong. clear -Hlong Ht Hl. lia. }
      eapply sim_one; [eapply ss_write_panic|eapply sim_write_abort; [exact HR|exact Hwr|reflexivity..|apply objs_le_refl; reflexivity|apply objs_back_refl; reflexivity|auto|reflexivity]].
      apply Hst. destruct Hp as [chunk st'' E|E Hne]; [|congruence]. apply app_nil in Hbuf as [_ ->]. rewrite E. constructor.
  - destruct Hpc as (m & len & d & Hd & Hwr & Hlen & Hnf0 & Hst). pose proof (wf_end _ _ _ _ _ _ _ Hd) as [Hle Hnone].
    pose proof Hd as [Hl [_ _ _ _ _ Hcount Hnf]]. rewrite app_length in Hcount.
    destruct He as [st' E|E1 E2 E3|E1 E2 E3|buf st' Hp Hlong|buf st' Hp Hlong Ht].
    + exfalso. apply Hnf0, Hst. rewrite E. constructor.
    + congruence.
    + eapply sim_one; [apply ss_write_return|]. fr HR. exact I.
    + exfalso. apply polled_bytes in Hp as (Hb & _). apply (f_equal length) in Hb. rewrite !app_length in Hb. clear -Hb Hcount Hlong Hl Hwr Hlen. lia.
    + assert (Hbuf : buf = []). { destruct buf; [reflexivity|]. cbn [length] in Hlong. clear -Hlong Hwr Hl. lia. }
      eapply sim_one; [apply ss_wrote_panic|fr HR; exact I].
      apply Hst. destruct Hp as [chunk st'' E|E Hne]; [|congruence]. apply app_nil in Hbuf as [_ ->]. rewrite E. constructor.
Qed.

(** Bytes reach the device and the writer advances. *)
Lemma sim_w4 c o h S r off w buf st0 d w' s rest lk :
  cfg_ok c -> SInv h (PWrite4 r off w buf st0 :: rest.*1) -> AInv c h (PWrite4 r off w buf st0 :: rest.*1) lk ->
  Rel c h S ((PWrite4 r off w buf st0, s) :: rest) ->
  write_continue Direct (dc_spage c) true (or_junk o) (h_dev h) w buf st0 = (d, Running w') ->
  simulated c (set_dev h d) S s (PWrite5 r off w') None rest.
Proof.
  intros Hc HS HA HR Hcont. pose proof (rl_pcs _ _ _ _ HR _ s ltac:(constructor)) as Hpc. cbn [pc_rel] in Hpc.
  destruct s as [|tok off' len st| | | | | | |]; try contradiction. destruct Hpc as [Hwr Hrd].
  pose proof Hwr as (-> & ob & Eo & Hid & Hv & [d0 Hd0] & Hcl & Hst).
  pose proof (rl_obj _ _ _ _ HR _ _ Eo) as Hop.
  destruct (ready_continue (dc_spage c) (or_junk o) (h_dev h) w buf st0 Hrd) as (amt & a & Et & Ec & Hamt).
  rewrite Ec in Hcont. apply pair_equal_spec in Hcont as [Hd Hw']. apply (f_equal (fun x => match x with Running w => w | _ => w' end)) in Hw'. cbn beta iota in Hw'.
  assert (HR1 : Rel c (set_dev h d) S ((PWrite4 r off w buf st0, SWriting tok off len st) :: rest)).
  { eapply rel_torn; [exact Hc|exact HS|exact HA|exact HR|cbn [in_flight]; rewrite Et; reflexivity|].
    intros x Hx. rewrite <- Hd in Hx. destruct (N.lt_ge_cases x a) as [H1|H1]; [exfalso; apply Hx, dev_write_out; auto|].
    destruct (N.lt_ge_cases x (a + padded_len Direct (dc_spage c) amt)) as [H2|H2]; [auto|]. exfalso. apply Hx, dev_write_out. right.
    rewrite app_length, take_length, fmap_length, seq_length.
    clear -H2 Hamt. cbn [padded_len] in *. pose proof (ceil_pow2_ge amt (dc_spage c)) as Hg.
    generalize dependent (ceil_pow2 amt (dc_spage c)). intros. lia. }
  assert (Hws : forall x, x ∈ w_stream w' -> x ∈ st).
  { intros x Hx. apply Hst. destruct Hrd as [Hp _]. apply polled_bytes in Hp as (_ & _ & Hs). apply Hs. rewrite <- Hw' in Hx. exact Hx. }
  destruct (ready_continue (dc_spage c) (or_junk o) d0 w buf st0 Hrd) as (amt2 & a2 & Et2 & Ec2 & _).
  assert ((amt2, a2) = (amt, a)) as Heq by congruence. injection Heq as -> ->. rewrite Hw' in Ec2.
  pose proof (wf_continue _ _ _ _ _ _ _ _ _ _ _ _ Hop Hrd Hd0 Ec2) as Hd0'.
  assert (Hwr' : wr_rel c (set_dev h d) S r off w' tok off len st).
  { split; [reflexivity|]. exists ob. split; [exact Eo|]. split; [exact Hid|]. split; [exact Hv|]. split; [eexists; exact Hd0'|]. split; [|exact Hws].
    intros Hclean. cbn [h_dev set_dev]. rewrite Hd, Hw' in Ec. eapply wf_continue; [exact Hop|exact Hrd|apply Hcl, Hclean|exact Ec]. }
  assert (HS1 : SInv (set_dev h d) (PWrite4 r off w buf st0 :: rest.*1)) by (destruct HS; constructor; assumption).
  destruct (decide (w_written w' = len)) as [Hfull|Hnot].
  2:{ apply sim_stay. fr HR1. cbn [pc_rel]. split; [exact Hwr'|]. intros H. contradiction. }
  destruct (no_fail_dec st) as [Hnf|Hnf].
  2:{ apply sim_stay. fr HR1. cbn [pc_rel]. split; [exact Hwr'|]. intros _. right. intros [H _]. contradiction. }
  destruct (decide (N.of_nat (length (stream_bytes st)) = len)) as [Hlen|Hlen].
  2:{ apply sim_stay. fr HR1. cbn [pc_rel]. split; [exact Hwr'|]. intros _. right. intros [_ H]. contradiction. }
  eapply sim_one.
  - apply ss_write_done; [exact Hnf|exact Hlen|]. left.
    destruct (s_w4 _ _ HS r (PWrite4 r off w buf st0) ltac:(constructor) eq_refl) as [Hin|(q & Hq & Hc12)].
    + apply elem_of_vals in Hin as (tok' & Hin). destruct (s_inc _ _ HS _ _ Hin) as (ob2 & E2 & Hid2 & _).
      destruct (rl_up _ _ _ _ HR tok' r) as (u & Hu & _); [now left|]. exists u. rewrite <- Hid. replace ob with ob2 by congruence. now rewrite Hid2.
    + assert (exists tok', cref q = Some (r, tok')) as [tok' Hcr].
      { destruct q; try contradiction; cbn in Hc12; subst; eexists; reflexivity. }
      assert (Hur : uref h (PWrite4 r off w buf st0 :: rest.*1) tok' r) by (right; exists q; auto).
      destruct (uref_obj _ _ _ _ HS Hur) as (ob2 & E2 & Hid2 & _).
      destruct (rl_up _ _ _ _ HR tok' r Hur) as (u & Hu & _). exists u. rewrite <- Hid. replace ob with ob2 by congruence. now rewrite Hid2.
  - (* first move to PWrite5 in the relation, then finish *)
    assert (HR2 : Rel c (set_dev h d) S ((PWrite4 r off w buf st0, SWriting tok off len st) :: rest)) by exact HR1.
    eapply (sim_write_finish c (set_dev h d) S (PWrite4 r off w buf st0) (PWrite5 r off w') r off w' tok len st rest HR2 Hwr' Hfull Hlen eq_refl eq_refl eq_refl HS1).
    exists (b_meta ob), len. eexists. split; [exact Hd0'|]. auto.
Qed.

Lemma meta_write_range c o d m msize moff x : msize = msize_of m ->
  meta_write c o d m msize moff x <> d x -> moff <= x < moff + metadata_page_size (dc_spage c) msize.
Proof.
  intros -> Hx. unfold meta_write in Hx. destruct (N.lt_ge_cases x moff) as [H1|H1]; [exfalso; apply Hx, dev_write_out; auto|].
  split; [exact H1|]. destruct (N.lt_ge_cases x (moff + metadata_page_size (dc_spage c) (msize_of m))) as [H2|H2]; [exact H2|].
  exfalso. apply Hx, dev_write_out. right. rewrite app_length, fmap_length, seq_length. fold (msize_of m).
  assert (Hle : msize_of m <= metadata_page_size (dc_spage c) (msize_of m)).
  { unfold metadata_page_size. pose proof (ceil_pow2_ge (msize_of m) (dc_spage c)) as Hg. clear -Hg.
    generalize dependent (ceil_pow2 (msize_of m) (dc_spage c)). generalize (2 ^ dc_spage c). intros. lia. }
  unfold msize_of in *. clear -H2 Hle. lia.
Qed.

(** Every step of a call is matched. *)
Lemma sim_step c o h p h' p' v s S rest sp z lk :
  cfg_ok c -> SInv h (p :: rest.*1) -> TInv c h (p :: rest.*1) sp z -> AInv c h (p :: rest.*1) lk ->
  Rel c h S ((p, s) :: rest) -> or_id o ∉ h_used h -> pstepR c o h p h' p' v ->
  simulated c h' S s p' v rest.
Proof.
  intros Hc HS HT HA HR Hid St. pose proof (rl_pcs _ _ _ _ HR p s ltac:(constructor)) as Hpc.
  destruct St.
  (* create *)
  1-11: cbn [pc_rel] in Hpc; destruct s as [[]| | | | | | | |]; try contradiction;
    try (destruct Hpc as [Hpc _]; try discriminate Hpc; injection Hpc as <- <-).
  all: try (eapply sim_one; [apply ss_create_panic|fr HR; exact I]; fail).
  - apply sim_stay. fr HR. cbn. auto.
  - destruct Hpc as [-> ->]. apply sim_stay. fr HR. cbn. auto.
  - apply sim_stay.
    assert (HR1 : Rel c (set_dev h (meta_write c o (h_dev h) m msize moff)) S ((PCreate2 m msize moff id, SCall (OCreate key size)) :: rest)).
    { eapply rel_torn; [exact Hc|exact HS|exact HA|exact HR|reflexivity|]. intros x Hx. eapply meta_write_range; [|exact Hx].
      now destruct (a_pcs _ _ _ _ HA (PCreate2 m msize moff id) ltac:(constructor)) as (_ & ? & _). }
    fr HR1. exact Hpc.
  - apply sim_stay. fr HR. exact Hpc.
  - destruct Hpc as [<- <-]. destruct (sim_create4 _ _ _ _ _ _ _ _ _ _ _ Hc HS HA HR ltac:(assumption)) as [HR2 Hfresh].
    eapply sim_one; [|exact HR2]. now apply ss_create.
  (* write *)
  - destruct s; try contradiction. destruct Hpc as [<- Hval]. eapply sim_one; [apply ss_write_closed; eapply sim_not_open; eassumption|].
    fr HR. exact I.
  - destruct s; try contradiction. destruct Hpc as [<- Hval]. destruct (sim_open _ _ _ _ _ _ HR H) as (u & Hu & ob2 & E2 & A1 & A2 & A3 & _).
    assert (ob2 = ob) as -> by congruence. eapply sim_one; [eapply ss_write_bad; [exact Hu|]|fr HR; exact I].
    rewrite <- A3. apply check_error; [exact Hval|assumption].
  - destruct s; try contradiction. destruct Hpc as [<- Hval]. destruct (sim_open _ _ _ _ _ _ HR H) as (u & Hu & ob2 & E2 & A1 & A2 & A3 & _).
    assert (ob2 = ob) as -> by congruence. eapply sim_one; [eapply ss_write_start; [exact Hu|]|eapply sim_write_start; eassumption].
    rewrite <- A3. eapply write_check_ok; eassumption.
  - exfalso. destruct s; try contradiction. destruct Hpc as [<- Hval]. cbn [valid_op] in Hval.
    pose proof (rl_obj _ _ _ _ HR _ _ H0) as Hop. destruct (object_pages_view _ _ _ _ _ Hop) as (lc & t & V).
    destruct (targets_spec _ _ _ _ _ _ _ _ _ V (op_limit _ _ _ _ _ Hop) Hval H1) as (ts & Ets & _).
    unfold write_start in H2. cbn [obj_of o_size] in *. rewrite H1 in H2. unfold opg in *. rewrite Ets in H2. discriminate.
  - eapply sim_w1_end; eassumption.
  - apply sim_stay. fr HR. cbn [pc_rel] in Hpc |- *. destruct s as [|tok off' len st'|st'| | | | | |]; try contradiction.
    + destruct Hpc as [Hwr Hun]. split; [now apply wr_rel_with_buf|exact Hun].
    + exfalso. destruct Hpc as (m & len & d & Hd & Hwr & _). apply wf_end in Hd as [_ Hd]. apply Hd in Hwr. congruence.
  - cbn [pc_rel] in Hpc. destruct s as [|tok off' len st'|st'| | | | | |]; try contradiction.
    + apply sim_stay. fr HR. cbn [pc_rel]. destruct Hpc as [Hwr Hun]. split; [exact Hwr|]. split; [assumption|]. split; [assumption|]. eauto.
    + exfalso. destruct Hpc as (m & len & d & Hd & Hwr & _). apply wf_end in Hd as [_ Hd]. apply Hd in Hwr. congruence.
  - apply sim_stay. fr HR. cbn [pc_rel] in Hpc |- *. destruct s; try contradiction. destruct Hpc as [Hwr Hrd]. split; [|exact Hrd].
    apply (wr_rel_le c h); [|reflexivity|exact Hwr]. eapply objs_le_set; [eassumption|repeat split|auto].
  - apply sim_stay. fr HR. exact Hpc.
  - cbn [pc_rel] in Hpc. destruct s; try contradiction. destruct Hpc as [Hwr Hrd]. pose proof Hwr as (-> & ob2 & E2 & Hid2 & _).
    assert (ob2 = ob) as -> by congruence.
    eapply sim_one; [eapply ss_write_fail, wr_closed|].
    + intros u [Hu Hopen]. apply (rl_open _ _ _ _ HR _ _ Hu) in Hopen as [r' Hr']. destruct (s_inc _ _ HS _ _ Hr') as (ob3 & E3 & Hid3 & Hst3).
      assert (r' = r) as -> by (eapply id_unique; [exact HS|exact E3|exact E2|congruence]). congruence.
    + eapply sim_write_abort; [exact HR|exact Hwr|reflexivity..| | |auto|reflexivity].
      * eapply objs_le_set; [eassumption|repeat split|auto].
      * eapply objs_back_set; [eassumption|repeat split].
  - eapply sim_w4; eassumption.
  - apply sim_stay. fr HR. cbn [pc_rel] in Hpc |- *. destruct s; try contradiction; [|exact Hpc]. destruct Hpc as [Hwr Hun]. split; [|exact Hun].
    apply (wr_rel_le c h); [|reflexivity|exact Hwr]. eapply objs_le_set; [eassumption|repeat split|auto].
  (* commit *)
  - destruct s; try contradiction. destruct Hpc as [<- Hval]. eapply sim_one; [apply ss_commit_closed; eapply sim_not_open; eassumption|].
    fr HR. exact I.
  - destruct s; try contradiction. destruct Hpc as [<- Hval]. destruct (sim_open _ _ _ _ _ _ HR H) as (u & Hu & _).
    eapply sim_one; [apply ss_commit_take; exact Hu|]. eapply sim_take; eassumption.
  - apply sim_stay. fr HR. exact Hpc.
  - apply sim_stay. fr HR. exact Hpc.
  - cbn [pc_rel] in Hpc. destruct s; try contradiction. destruct Hpc as [<- <-].
    assert (Hur : uref h (PCommit3 r tok true :: rest.*1) tok r) by (right; exists (PCommit3 r tok true); split; [constructor|reflexivity]).
    destruct (rl_up _ _ _ _ HR tok r Hur) as (u & Hu & ob2 & E2 & A1 & A2 & _). assert (ob2 = ob) as -> by congruence.
    pose proof (rl_com _ _ _ _ HR (m_key (b_meta ob))) as Hcr. rewrite H0 in Hcr.
    destruct (ss_com S !! m_key (b_meta ob)) as [co|] eqn:Eco; [|contradiction].
    eapply sim_one; [eapply ss_discard; [exact Hu|]|eapply sim_discard; eassumption]. rewrite <- A2. exact Eco.
  - cbn [pc_rel] in Hpc. destruct s; try contradiction. destruct Hpc as [<- <-]. subst existing.
    assert (Hur : uref h (PCommit3 r tok ine :: rest.*1) tok r) by (right; exists (PCommit3 r tok ine); split; [constructor|reflexivity]).
    destruct (rl_up _ _ _ _ HR tok r Hur) as (u & Hu & ob2 & E2 & A1 & A2 & _). assert (ob2 = ob) as -> by congruence.
    destruct (sim_publish c h S tok ine r ob (or_id o) u _ rest HS HR H Hid Hu) as (Hext & Hfr & HR2).
    eapply sim_one; [|exact HR2]. apply ss_publish; auto. intros Hine. specialize (H1 Hine). rewrite <- A2.
    pose proof (rl_com _ _ _ _ HR (m_key (b_meta ob))) as Hcr. rewrite H1 in Hcr. destruct (ss_com S !! m_key (b_meta ob)); [contradiction|reflexivity].
  - exfalso. eapply T_c4_total; eassumption.
  - apply sim_stay. fr HR. cbn [pc_rel] in Hpc |- *. destruct s; try contradiction. destruct Hpc as (-> & -> & Hv). split; [reflexivity|]. split; [reflexivity|].
    eapply vic_le; [|exact Hv]. apply objs_le_refl; reflexivity.
  - cbn [pc_rel] in Hpc. destruct s; try contradiction. destruct Hpc as (-> & -> & Hv). apply sim_stay. fr HR. cbn [pc_rel].
    destruct replaced; [auto|contradiction].
  - cbn [pc_rel] in Hpc. destruct s; try contradiction. destruct Hpc as (-> & -> & Hv). apply sim_stay. fr HR. reflexivity.
  (* delete *)
  - destruct s; try contradiction. destruct Hpc as [<- Hval]. eapply sim_one; [apply ss_delete_nf; eapply sim_nf; eassumption|]. fr HR. exact I.
  - destruct s; try contradiction. destruct Hpc as [<- Hval]. destruct (sim_find _ _ _ _ _ _ _ _ _ HR HS H) as (co & Hf & A1 & A2 & A3 & A4 & A5 & A6).
    eapply sim_one; [eapply ss_delete; exact Hf|]. eapply sim_delete; eassumption.
  - destruct (T_reap1_panic _ _ _ _ _ _ _ _ HS HT H H0) as (tok & ex & Hin).
    apply elem_of_list_fmap in Hin as ([q s2] & Hq & Hin). cbn in Hq. subst q.
    pose proof (rl_pcs _ _ _ _ HR _ s2 ltac:(constructor 2; exact Hin)) as Hpc2. cbn [pc_rel] in Hpc2.
    destruct s2; try contradiction. destruct Hpc2 as (_ & <- & _).
    assert (Hall : forall s1, SPublished tok0 (b_id ob) replaced ∈ s1 :: rest.*2).
    { intros s1. constructor. apply (elem_of_list_fmap_1 snd) in Hin. exact Hin. }
    cbn [pc_rel] in Hpc. destruct k as [[]|]; destruct s; try contradiction.
    + destruct replaced0; [|contradiction]. destruct Hpc as [-> (ob2 & E2 & Hi2)]. assert (ob2 = ob) as -> by congruence.
      eapply sim_one; [rewrite <- Hi2; eapply ss_commit_panic; apply Hall|fr HR; exact I].
    + exfalso. eapply T_reap1_discard; eassumption.
    + destruct Hpc as (ob2 & E2 & Hi2). assert (ob2 = ob) as -> by congruence.
      eapply sim_one; [rewrite <- Hi2; eapply ss_delete_panic; apply Hall|fr HR; exact I].
  - apply sim_stay. fr HR. exact Hpc.
  - exfalso. destruct (A_reap2_total _ _ _ _ _ _ _ _ _ _ _ HT HA H0) as (l2 & a & E1 & E2). destruct H1 as [H1|[H1 H2]]; [congruence|].
    apply (H2 a). congruence.
  - apply sim_stay. fr HR. cbn [pc_rel] in Hpc |- *. destruct k as [[]|]; destruct s; try contradiction; auto.
    destruct replaced; [|contradiction]. now destruct Hpc.
  - apply sim_stay. fr HR. exact Hpc.
  - cbn [pc_rel] in Hpc. destruct k as [[]|]; destruct s; try contradiction; try subst; eapply sim_one; [constructor|fr HR; exact I|constructor|fr HR; exact I|constructor|fr HR; exact I].
  (* inspect *)
  - destruct s; try contradiction. destruct Hpc as [<- Hval]. eapply sim_one; [apply ss_inspect_nf; eapply sim_nf; eassumption|]. fr HR. exact I.
  - destruct s; try contradiction. destruct Hpc as [<- Hval]. destruct (sim_find _ _ _ _ _ _ _ _ _ HR HS H) as (co & Hf & A1 & A2 & A3 & A4 & A5 & A6).
    eapply sim_one; [rewrite <- A1, <- A2, <- A3; eapply ss_inspect; exact Hf|]. fr HR. exact I.
  (* read *)
  - destruct s; try contradiction. destruct Hpc as [<- Hval]. eapply sim_one; [apply ss_read_nf; eapply sim_nf; eassumption|]. fr HR. exact I.
  - destruct s; try contradiction. destruct Hpc as [<- Hval]. destruct (sim_find _ _ _ _ _ _ _ _ _ HR HS H) as (co & Hf & A1 & A2 & A3 & A4 & A5 & A6).
    pose proof (read_start_ok _ _ _ _ start fin (rl_obj _ _ _ _ HR _ _ A5)) as Hrs. rewrite H0 in Hrs. destruct Hrs as [-> Hr].
    eapply sim_one; [eapply ss_read_range; [exact Hf|rewrite A2; exact Hr]|]. fr HR. exact I.
  - exfalso. destruct (sim_find _ _ _ _ _ _ _ _ _ HR HS H) as (co & Hf & A1 & A2 & A3 & A4 & A5 & A6).
    pose proof (read_start_ok _ _ _ _ start fin (rl_obj _ _ _ _ HR _ _ A5)) as Hrs. rewrite H0 in Hrs. exact Hrs.
  - destruct s; try contradiction. destruct Hpc as [<- Hval]. destruct (sim_find _ _ _ _ _ _ _ _ _ HR HS H) as (co & Hf & A1 & A2 & A3 & A4 & A5 & A6).
    pose proof (read_start_ok _ _ _ _ start fin (rl_obj _ _ _ _ HR _ _ A5)) as Hrs.
    eapply sim_one; [rewrite <- A1, <- A2; eapply ss_read; [exact Hf|]|].
    + rewrite A2. destruct H0 as [H0|[H0 _]]; rewrite H0 in Hrs; [apply Hrs|]. destruct Hrs as [-> Hle]. split; [reflexivity|exact Hle].
    + fr HR. cbn [pc_rel]. split; [reflexivity|]. split; [exact Hval|]. rewrite A1, A2. exists ob. split; [exact A5|]. split; [reflexivity|]. split; [exact A6|].
      destruct H0 as [H0|[H0 ->]]; rewrite H0 in Hrs.
      * destruct Hrs as ([L1 L2] & N1 & N2 & lc & t & V & RI). split; [exact N1|]. split; [exact N2|]. split; [exact L2|]. right. exists lc, t. auto.
      * destruct Hrs as [E1 Hle]. cbn [empty_reader r_next r_end]. split; [reflexivity|]. split; [exact E1|]. rewrite <- E1. split; [exact Hle|left; reflexivity].
  - cbn [pc_rel] in Hpc. destruct s as [| | | | | | |key id pos fin buffer|]; try contradiction. destruct Hpc as (-> & Hsb & ob2 & E2 & A1 & A2 & A3 & A4 & A5 & A6).
    assert (ob2 = ob) as -> by congruence.
    destruct (s_pcs _ _ HS (PRead r buffer rd) ltac:(constructor)) as (ob3 & E3 & Hst). assert (ob3 = ob) as -> by congruence.
    rewrite Hst, N.eqb_refl in H0.
    destruct A6 as [A6|(lc & t & V & RI)].
    { exfalso. unfold direct_read_step in H0. destruct (N.ltb_spec (r_next rd) (r_end rd)) as [Hlt|_]; [clear -Hlt A3 A4 A6; lia|]. discriminate. }
    destruct (N.lt_ge_cases (r_next rd) (r_end rd)) as [Hlt|Hge].
    2:{ exfalso. unfold direct_read_step in H0. destruct (N.ltb_spec (r_next rd) (r_end rd)) as [Hlt|_]; [clear -Hlt Hge; lia|]. discriminate. }
    destruct (read_step_ok _ _ _ _ _ _ (h_dev h) _ _ V Hsb RI Hlt) as (n & rng2 & rd2 & Es & B1 & B2 & B3 & B4 & B5 & B6).
    rewrite Es in H0. injection H0 as <- <- <-.
    assert (Hlen := slice_length (h_dev h) (dpages c (b_meta ob)) (r_next rd) n).
    eapply sim_one.
    + apply ss_chunk; rewrite ?Hlen; [clear -Hlen B1; lia|exact B2|rewrite <- A3, <- A4; exact B3|].
      intros co i b Hco Hcid Hb. rewrite <- A3. pose proof (slice_lookup _ _ _ _ _ _ Hb) as ->.
      pose proof (rl_com _ _ _ _ HR key) as Hcr. rewrite Hco in Hcr. destruct (h_com h !! key) as [r2|]; [|contradiction].
      destruct Hcr as (obc & Ec & C1 & C2 & C3 & C4).
      assert (r2 = r) as -> by (eapply id_unique; [exact HS|exact Ec|exact E2|congruence]). assert (obc = ob) as -> by congruence.
      symmetry. apply C4. apply lookup_lt_Some in Hb. clear -Hb Hlen B3 A4 A5. lia.
    + fr HR. cbn [pc_rel]. split; [reflexivity|]. split; [exact Hsb|]. exists ob. split; [exact E2|]. split; [exact A1|]. split; [exact A2|].
      rewrite Hlen, B4, B5, A3. split; [reflexivity|]. split; [exact A4|]. split; [exact A5|]. right. exists lc, t. auto.
  - cbn [pc_rel] in Hpc. destruct s as [| | | | | | |key id pos fin buffer|]; try contradiction. destruct Hpc as (-> & Hsb & ob2 & E2 & A1 & A2 & A3 & A4 & A5 & A6).
    assert (ob2 = ob) as -> by congruence.
    destruct (s_pcs _ _ HS (PRead r buffer rd) ltac:(constructor)) as (ob3 & E3 & Hst). assert (ob3 = ob) as -> by congruence.
    rewrite Hst, N.eqb_refl in H0.
    assert (Hend : pos = fin).
    { destruct A6 as [A6|(lc & t & V & RI)]; [exact A6|]. destruct (N.lt_ge_cases (r_next rd) (r_end rd)) as [Hlt|Hge].
      - destruct (read_step_ok _ _ _ _ _ _ (h_dev h) _ _ V Hsb RI Hlt) as (n & rng2 & rd2 & Es & _).
        rewrite Es in H0. apply pair_equal_spec in H0 as [_ He]. exfalso. eapply H1. symmetry. exact He.
      - destruct RI as (_ & _ & _ & Hle & _). clear -Hge Hle A3 A4. lia. }
    unfold direct_read_step in H0. destruct (N.ltb_spec (r_next rd) (r_end rd)) as [Hlt|_]; [clear -Hlt Hend A3 A4; lia|]. cbn [negb] in H0.
    apply pair_equal_spec in H0 as [_ <-]. rewrite Hend. eapply sim_one; [apply ss_read_end|]. fr HR. exact I.
Qed.
