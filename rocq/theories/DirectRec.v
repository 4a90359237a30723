(** The metadata record of every object stays on the device as it was written. *)
From Coq Require Import ZifyBool ZifyNat ZifyN.
From stdpp Require Import base numbers list_numbers option gmap sets list.
From Verif Require Import Util Bytes BuddyModel BuddySpec BuddyProofs BuddyInv LayoutModel LayoutProofs.
From Verif Require Import PageIOModel PageIOSpec PageIOProofs PageIOWrite PageIOSys TuplesModel.
From Verif Require Import DirectModel DirectBase DirectSteps DirectInv DirectTup DirectAlloc DirectDev DirectSpec DirectRel DirectSim DirectSim2 DirectSim3 DirectSys DirectLoadModel DirectCodec.
Open Scope N_scope.
Ltac Zify.zify_post_hook ::= idtac.

Definition rec_at (c : dcfg) (d : device) (m : dmeta) (msize moff : N) : Prop :=
  exact_meta c msize -> dev_read d moff msize = meta_encode m.
Definition pc_rec (c : dcfg) (d : device) (p : pc) : Prop :=
  match p with PCreate3 m msize moff _ | PCreate4 m msize moff _ _ => rec_at c d m msize moff | _ => True end.
Record RecInv (c : dcfg) (h : shared) (ps : list pc) : Prop := {
  ri_own : forall r ob, r ∈ owners h ps -> h_objs h !! r = Some ob -> rec_at c (h_dev h) (b_meta ob) (b_msize ob) (fst (b_mpage ob));
  ri_pcs : forall p, p ∈ ps -> pc_rec c (h_dev h) p;
}.
Lemma RecInv_perm c h ps ps' : ps ≡ₚ ps' -> RecInv c h ps -> RecInv c h ps'.
Proof.
  intros Hp [H1 H2]. constructor.
  - intros r ob Hr. apply H1. now rewrite (owners_perm _ _ _ Hp).
  - intros p Hin. apply H2. now rewrite Hp.
Qed.

(** ** A write in flight *)
(** The page a write in flight writes to. *)
Lemma flight_page c h ps lk p addr len : cfg_ok c -> SInv h ps -> AInv c h ps lk -> p ∈ ps -> flight_ok c h p -> in_flight c p = Some (addr, len) ->
  exists pg, (forall x, addr <= x < addr + len -> in_page pg x) /\
    (pg ∈ pc_pages c p \/ exists r ob off w buf st, p = PWrite4 r off w buf st /\ h_objs h !! r = Some ob /\ r ∈ owners h ps /\ pg ∈ dpages c (b_meta ob)).
Proof.
  intros Hc HS HA Hp Hfl Hif. destruct p; try discriminate Hif.
  - cbn [in_flight] in Hif. injection Hif as <- <-.
    pose proof (a_pcs _ _ _ _ HA _ Hp) as (_ & -> & Hle).
    destruct (metadata_exponent (dc_spage c) (msize_of m) (msize_pos m)) as (_ & _ & Hsz & _).
    exists (moff, alloc_pow2 (dc_spage c) (msize_of m)). split.
    + intros x Hx. unfold in_page. cbn [fst snd]. clear -Hx Hsz. lia.
    + left. cbn [pc_pages]. apply elem_of_app. right. constructor.
  - cbn [in_flight] in Hif. destruct (w_targets w !! w_page w) as [[amt a2]|] eqn:Et; [|discriminate]. cbn in Hif. injection Hif as <- <-.
    destruct Hfl as (ob2 & Eo2 & Ht & Hpart & Hoff).
    destruct (target_touch (dc_spage c) (dc_lpage c) (obj_of (b_meta ob2)) _ _ _ _ _ _ Ht Hpart Et) as (k2 & p2 & Ek2 & Hk2 & Hamt & Hin).
    exists (a2, p2). split; [intros x Hx; apply Hin, Hx|]. right. exists r, ob2, offset, w, buf, st. split; [reflexivity|]. split; [exact Eo2|].
    split; [apply (w4_owner _ _ r _ HS Hp eq_refl)|]. eapply elem_of_list_lookup_2, Ek2.
Qed.

Lemma msize_page c m : exact_meta c (msize_of m) -> msize_of m <= 2 ^ metadata_page_pow2 (dc_spage c) (msize_of m).
Proof.
  intros E. rewrite E. destruct (metadata_exponent (dc_spage c) (msize_of m) (msize_pos m)) as (_ & _ & Hsz & Hx).
  etransitivity; [exact Hx|exact Hsz].
Qed.
Lemma dev_read_ext d d' off len : (forall x, off <= x < off + len -> d' x = d x) -> dev_read d' off len = dev_read d off len.
Proof.
  intros H. unfold dev_read. apply list_fmap_ext. intros i x Hx. apply lookup_seq in Hx as [-> Hi]. apply H. clear -Hi. lia.
Qed.
Lemma dinv_pair c a (l : list page) f p q L x : dinv c a l f -> l ≡ₚ p :: q :: L -> in_page p x -> in_page q x -> False.
Proof.
  intros HI Hp H1 H2. apply (inv_perm _ _ ([p] ++ q :: L)) in HI; [|exact Hp].
  eapply (app_disjoint c a [p] (q :: L) f p q x); [exact HI|constructor|constructor|exact H1|exact H2].
Qed.

(** It leaves the records of objects and of other calls alone. *)
Lemma flight_own c h ps lk p addr len r ob : cfg_ok c -> SInv h ps -> AInv c h ps lk -> p ∈ ps -> flight_ok c h p -> in_flight c p = Some (addr, len) ->
  r ∈ owners h ps -> h_objs h !! r = Some ob -> exact_meta c (b_msize ob) ->
  forall x, fst (b_mpage ob) <= x < fst (b_mpage ob) + b_msize ob -> ~ addr <= x < addr + len.
Proof.
  intros Hc HS HA Hp Hfl Hif Hr Eo Hex x Hx Hx2.
  destruct (flight_page _ _ _ _ _ _ _ Hc HS HA Hp Hfl Hif) as (pg & Hpg & Hwhere). specialize (Hpg x Hx2).
  destruct (a_objs _ _ _ _ HA _ _ Eo) as (_ & Hms & _ & Hpw).
  assert (Hin : in_page (b_mpage ob) x).
  { unfold in_page. rewrite Hpw. rewrite Hms in *. pose proof (msize_page c (b_meta ob) Hex). clear -Hx H. lia. }
  destruct (held_split _ _ _ _ _ HS HA Hr) as (L & f & HI & Hoth & Hpcs).
  assert (Hom : opages c h r = dpages c (b_meta ob) ++ [b_mpage ob]) by (unfold opages; rewrite Eo; reflexivity).
  destruct Hwhere as [Hq|(r0 & ob0 & off & w & buf & st & -> & E0 & Hr0 & Hd)].
  - eapply (app_disjoint c _ _ _ _ (b_mpage ob) pg x HI); [rewrite Hom; apply elem_of_app; right; constructor|eapply Hpcs; eassumption|exact Hin|exact Hpg].
  - destruct (decide (r0 = r)) as [->|Hne].
    + assert (ob0 = ob) as -> by congruence. rewrite Hom, <- app_assoc in HI.
      eapply (app_disjoint c _ _ _ _ pg (b_mpage ob) x HI); [exact Hd|constructor|exact Hpg|exact Hin].
    + eapply (app_disjoint c _ _ _ _ (b_mpage ob) pg x HI); [rewrite Hom; apply elem_of_app; right; constructor| |exact Hin|exact Hpg].
      eapply Hoth; [exact Hr0|exact Hne|]. eapply opages_in; eassumption.
Qed.

Lemma perm_shuffle (a b l e rest : list page) (pg pg2 : page) :
  (a ++ (pg :: b) ++ (l ++ [pg2]) ++ rest) ++ e ≡ₚ pg :: pg2 :: a ++ b ++ l ++ rest ++ e.
Proof. perm_solve. Qed.
Lemma flight_pc c h ps lk p q rest addr len m msize moff id : cfg_ok c -> SInv h ps -> AInv c h ps lk -> ps ≡ₚ p :: q :: rest -> flight_ok c h p -> in_flight c p = Some (addr, len) ->
  (exists k, q = PCreate4 m msize moff id k) \/ q = PCreate3 m msize moff id -> exact_meta c msize ->
  forall x, moff <= x < moff + msize -> ~ addr <= x < addr + len.
Proof.
  intros Hc HS HA Hps Hfl Hif Hq Hex x Hx Hx2.
  assert (Hp : p ∈ ps) by (rewrite Hps; constructor). assert (Hqi : q ∈ ps) by (rewrite Hps; constructor; constructor).
  destruct (flight_page _ _ _ _ _ _ _ Hc HS HA Hp Hfl Hif) as (pg & Hpg & Hwhere). specialize (Hpg x Hx2).
  assert (Hpm : pc_mok c q) by (apply (a_pcs _ _ _ _ HA _ Hqi)).
  assert (Hqp : pc_pages c q = dpages c m ++ [(moff, metadata_page_pow2 (dc_spage c) msize)]) by (destruct Hq as [[k ->]| ->]; reflexivity).
  assert (msize = msize_of m) as -> by (destruct Hq as [[k ->]| ->]; apply Hpm).
  set (pg2 := (moff, metadata_page_pow2 (dc_spage c) (msize_of m))) in *.
  assert (Hin : in_page pg2 x).
  { unfold in_page, pg2. cbn [fst snd]. pose proof (msize_page c m Hex). clear -Hx H. lia. }
  destruct Hwhere as [Hp2|(r0 & ob0 & off & w & buf & st & -> & E0 & Hr0 & Hd)].
  - destruct HA as [[f HI] _ _]. apply elem_of_Permutation in Hp2 as [k2 Hk2].
    eapply (dinv_pair c _ _ _ pg pg2 _ x HI); [|exact Hpg|exact Hin].
    unfold held. pose proof (bind_perm (pc_pages c) _ _ Hps) as Hb. rewrite !bind_cons, Hqp, Hk2 in Hb. rewrite Hb.
    instantiate (1 := (owners h ps ≫= opages c h) ++ k2 ++ dpages c m ++ (rest ≫= pc_pages c) ++ lk). apply perm_shuffle.
  - destruct (held_split _ _ _ _ _ HS HA Hr0) as (L & f & HI & Hoth & Hpcs).
    eapply (app_disjoint c _ _ _ _ pg pg2 x HI); [eapply opages_in; eassumption| |exact Hpg|exact Hin].
    eapply Hpcs; [exact Hqi|]. rewrite Hqp. apply elem_of_app. right. constructor.
Qed.

Lemma rec_flight c h p rest lk addr len d' : cfg_ok c -> SInv h (p :: rest) -> AInv c h (p :: rest) lk -> flight_ok c h p -> in_flight c p = Some (addr, len) ->
  (forall x, d' x <> h_dev h x -> addr <= x < addr + len) -> RecInv c h (p :: rest) -> RecInv c (set_dev h d') (p :: rest).
Proof.
  intros Hc HS HA Hfl Hif Hd [R1 R2]. constructor.
  - intros r ob Hr Eo Hex. cbn [set_dev h_dev]. rewrite <- (R1 r ob Hr Eo Hex). apply dev_read_ext. intros x Hx.
    destruct (N.eq_dec (d' x) (h_dev h x)) as [|Hne]; [assumption|exfalso].
    eapply (flight_own c h (p :: rest)); [exact Hc|exact HS|exact HA|constructor|exact Hfl|exact Hif|exact Hr|exact Eo|exact Hex|exact Hx|auto].
  - intros q Hq. apply elem_of_cons in Hq as [->|Hq]; [destruct p; try discriminate Hif; exact I|].
    pose proof Hq as Hq2. apply elem_of_Permutation in Hq2 as [k Hk].
    assert (Hg : forall m msize moff id, (exists k, q = PCreate4 m msize moff id k) \/ q = PCreate3 m msize moff id ->
      rec_at c (h_dev h) m msize moff -> rec_at c d' m msize moff).
    { intros m msize moff id Hqq Hr Hex. rewrite <- (Hr Hex). apply dev_read_ext. intros x Hx.
      destruct (N.eq_dec (d' x) (h_dev h x)) as [|Hne]; [assumption|exfalso].
      eapply (flight_pc c h (p :: rest) lk p q k); [exact Hc|exact HS|exact HA|now rewrite Hk|exact Hfl|exact Hif|exact Hqq|exact Hex|exact Hx|auto]. }
    pose proof (R2 q ltac:(now constructor)) as Hr. destruct q; try exact I; cbn [pc_rec set_dev h_dev] in *; eapply Hg; eauto.
Qed.

(** ** Steps *)
Lemma owners_step c o h p h' p' v rest : pstepR c o h p h' p' v -> forall r, r ∈ owners h' (p' :: rest) ->
  r ∈ owners h (p :: rest) \/
  r = length (h_objs h) /\ exists ob, h_objs h' !! r = Some ob /\
    ((exists m msize moff id k, p = PCreate4 m msize moff id k /\ ob = created_obj c m msize moff id) \/
     (exists r0 tok ine ob0 id, p = PCommit3 r0 tok ine /\ h_objs h !! r0 = Some ob0 /\ ob = published_obj ob0 id)).
Proof.
  intros St r Hr. unfold owners in *. rewrite !bind_cons in *. rewrite !elem_of_app in *.
  destruct St; cbn [h_inc h_com h_objs set_alloc set_dev set_tup set_objs set_com set_inc bump use_id add_obj set_obj pc_refs option_list] in *; try (left; tauto).
  all: try (destruct Hr as [Hr|[Hr|[Hr|Hr]]]; [auto|auto| |auto]; left; right; right; left; first [exact Hr|inversion Hr; fail]; fail).
  - destruct Hr as [Hr|[Hr|[Hr|Hr]]]; [|auto|inversion Hr|auto]. apply elem_of_vals in Hr as [k' Hk]. destruct (decide (k' = id)) as [->|Hne].
    + rewrite lookup_insert in Hk. injection Hk as <-. right. split; [reflexivity|]. eexists. split; [apply list_lookup_middle; reflexivity|]. left. eauto 10.
    + rewrite lookup_insert_ne in Hk by auto. left. left. apply elem_of_vals. eauto.
  - left. destruct Hr as [Hr|[Hr|[Hr|Hr]]]; auto.
    + apply elem_of_vals in Hr as [k' Hk]. apply lookup_delete_Some in Hk as [_ Hk]. left. apply elem_of_vals. eauto.
    + left. apply elem_of_list_singleton in Hr as ->. apply elem_of_vals. eauto.
  - destruct Hr as [Hr|[Hr|[Hr|Hr]]]; auto.
    + apply elem_of_vals in Hr as [k' Hk]. destruct (decide (k' = m_key (b_meta ob))) as [->|Hne].
      * rewrite lookup_insert in Hk. injection Hk as <-. right. split; [reflexivity|]. eexists. split; [apply list_lookup_middle; reflexivity|]. right. eauto 10.
      * rewrite lookup_insert_ne in Hk by auto. left. right. left. apply elem_of_vals. eauto.
    + left. right. left. destruct existing as [e|]; [|inversion Hr]. cbn in Hr. apply elem_of_list_singleton in Hr as ->. apply elem_of_vals. eauto.
  - apply find_committed_Some in H as (Ec & Eo & Hm). left. destruct Hr as [Hr|[Hr|[Hr|Hr]]]; auto.
    + apply elem_of_vals in Hr as [k' Hk]. apply lookup_delete_Some in Hk as [_ Hk]. right. left. apply elem_of_vals. eauto.
    + right. left. apply elem_of_list_singleton in Hr as ->. apply elem_of_vals. eauto.
Qed.

(** A step changes the device only where its call has a write in flight. *)
Lemma step_dev c o h S p s h' p' v rest lk : AInv c h (p :: rest.*1) lk -> Rel c h S ((p, s) :: rest) -> pstepR c o h p h' p' v ->
  h_dev h' = h_dev h \/ exists addr len, in_flight c p = Some (addr, len) /\ forall x, h_dev h' x <> h_dev h x -> addr <= x < addr + len.
Proof.
  intros HA HR St. destruct St; try (left; reflexivity); right.
  - destruct (a_pcs _ _ _ _ HA _ ltac:(constructor)) as (_ & Hms & _). eexists _, _. split; [reflexivity|]. intros x Hx. exact (meta_write_range _ _ _ _ _ _ _ Hms Hx).
  - pose proof (rl_pcs _ _ _ _ HR _ s ltac:(constructor)) as Hpc. cbn [pc_rel] in Hpc.
    destruct s; try contradiction. destruct Hpc as [_ Hrd].
    destruct (ready_continue (dc_spage c) (or_junk o) (h_dev h) w buf st Hrd) as (amt & a & Et & Ec & Hamt).
    rewrite Ec in H. apply pair_equal_spec in H as [Hd _]. exists a, (padded_len Direct (dc_spage c) amt).
    split; [cbn [in_flight]; rewrite Et; reflexivity|]. cbn [h_dev set_dev]. rewrite <- Hd. intros x Hx.
    destruct (N.lt_ge_cases x a) as [H1|H1]; [exfalso; apply Hx, dev_write_out; auto|].
    destruct (N.lt_ge_cases x (a + padded_len Direct (dc_spage c) amt)) as [H2|H2]; [auto|]. exfalso. apply Hx, dev_write_out. right.
    rewrite app_length, take_length, fmap_length, seq_length.
    clear -H2 Hamt. cbn [padded_len] in *. pose proof (ceil_pow2_ge amt (dc_spage c)) as Hg.
    generalize dependent (ceil_pow2 amt (dc_spage c)). intros. lia.
Qed.

Lemma meta_write_rec c o d m moff : dev_read (meta_write c o d m (msize_of m) moff) moff (msize_of m) = meta_encode m.
Proof.
  unfold msize_of. apply list_eq. intros i. unfold dev_read. rewrite list_lookup_fmap.
  destruct (decide (i < length (meta_encode m))%nat) as [Hi|Hi].
  - rewrite lookup_seq_lt by (rewrite Nat2N.id; exact Hi). cbn [fmap option_fmap option_map].
    destruct (lookup_lt_is_Some_2 _ _ Hi) as [b Hb]. rewrite Hb. f_equal. unfold meta_write. apply dev_write_in; [clear; lia|].
    replace (N.to_nat (moff + N.of_nat (0 + i) - moff)) with i by (clear; lia). now apply lookup_app_l_Some.
  - rewrite lookup_seq_ge by (rewrite Nat2N.id; clear -Hi; lia). cbn [fmap option_fmap option_map]. symmetry. apply lookup_ge_None_2. clear -Hi; lia.
Qed.

Lemma rec_step c o h S p s h' p' v rest lk : cfg_ok c -> SInv h (p :: rest.*1) -> AInv c h (p :: rest.*1) lk ->
  Rel c h S ((p, s) :: rest) -> pstepR c o h p h' p' v -> RecInv c h (p :: rest.*1) -> RecInv c h' (p' :: rest.*1).
Proof.
  intros Hc HS HA HR St HI.
  assert (HI1 : RecInv c (set_dev h (h_dev h')) (p :: rest.*1)).
  { destruct (step_dev _ _ _ _ _ _ _ _ _ _ _ HA HR St) as [->|(addr & len & Hif & Hd)].
    - destruct HI as [R1 R2]. constructor; [exact R1|exact R2].
    - eapply rec_flight; [exact Hc|exact HS|exact HA| |exact Hif|exact Hd|exact HI].
      eapply rel_flight. apply (rl_pcs _ _ _ _ HR). constructor. }
  clear HI. destruct HI1 as [R1 R2]. cbn [h_objs h_dev set_dev] in R1, R2.
  constructor.
  - intros r ob' Hr Eo'. destruct (owners_step _ _ _ _ _ _ _ _ St r Hr) as [Hold|(Hn & ob & Eo & Hcase)].
    + pose proof (owner_lt _ _ _ HS Hold) as Hlt. apply lookup_lt_is_Some_2 in Hlt as [ob Eo].
      destruct (step_objs _ _ _ _ _ _ _ St r ob Eo) as (ob2 & E2 & (_ & Em & Es & Ep) & _).
      assert (ob2 = ob') as -> by congruence. rewrite Em, Es, Ep. now apply (R1 r).
    + assert (ob' = ob) as -> by congruence. destruct Hcase as [(m & msize & moff & id & k & -> & ->)|(r0 & tok & ine & ob0 & id & -> & E0 & ->)].
      * cbn [created_obj b_meta b_msize b_mpage fst]. exact (R2 _ ltac:(constructor)).
      * cbn [published_obj b_meta b_msize b_mpage]. apply (R1 r0 ob0); [|exact E0].
        change (r0 ∈ owners h (PCommit3 r0 tok ine :: rest.*1)). unfold owners. rewrite !elem_of_app. right. right. rewrite bind_cons. apply elem_of_app. left. constructor.
  - intros q Hq. apply elem_of_cons in Hq as [->|Hq]; [|apply R2; now constructor].
    destruct St; try exact I; cbn [pc_rec h_dev set_dev set_tup].
    + destruct (a_pcs _ _ _ _ HA _ ltac:(constructor)) as (_ & -> & _). intros _. apply meta_write_rec.
    + exact (R2 _ ltac:(constructor)).
Qed.

(** ** Widths of fields *)
Definition ty_meta (m : dmeta) : Prop := m_created m < 2 ^ 63 /\ Forall is_byte (m_key m).
Definition ty_pc (p : pc) : Prop :=
  match p with
  | PStart (OCreate key _) | PCreate1 key _ _ _ => Forall is_byte key
  | PCreate2 m _ _ _ | PCreate3 m _ _ _ | PCreate4 m _ _ _ _ => ty_meta m
  | _ => True
  end.
Record TyInv (h : shared) (ps : list pc) : Prop := {
  ty_objs : forall r ob, h_objs h !! r = Some ob -> ty_meta (b_meta ob);
  ty_pcs : forall p, p ∈ ps -> ty_pc p;
}.
Lemma ty_step c o h p h' p' v rest : or_time o < 2 ^ 63 -> pstepR c o h p h' p' v -> TyInv h (p :: rest) -> TyInv h' (p' :: rest).
Proof.
  intros Ht St [T1 T2]. pose proof (T2 p ltac:(constructor)) as Hp.
  assert (Hrest : forall q, q ∈ rest -> ty_pc q) by (intros q Hq; apply T2; now constructor).
  assert (Hset : forall r ob ob', h_objs h !! r = Some ob -> b_meta ob' = b_meta ob ->
    forall r2 ob2, <[r := ob']> (h_objs h) !! r2 = Some ob2 -> ty_meta (b_meta ob2)).
  { intros r ob ob' E Em r2 ob2 E2. destruct (decide (r = r2)) as [<-|Hne].
    - rewrite list_lookup_insert in E2 by (eapply lookup_lt_Some, E). injection E2 as <-. rewrite Em. eauto.
    - rewrite list_lookup_insert_ne in E2 by exact Hne. eauto. }
  assert (Hadd : forall ob', ty_meta (b_meta ob') -> forall r2 ob2, (h_objs h ++ [ob']) !! r2 = Some ob2 -> ty_meta (b_meta ob2)).
  { intros ob' Hty r2 ob2 E2. apply lookup_app_Some in E2 as [E2|[_ E2]]; [eauto|].
    apply elem_of_list_lookup_2, elem_of_list_singleton in E2 as ->. exact Hty. }
  constructor.
  - destruct St; cbn [h_objs set_alloc set_dev set_tup set_objs set_com set_inc bump use_id add_obj set_obj]; try exact T1;
      first [eapply Hset; [eassumption|reflexivity]|apply Hadd; first [exact Hp|cbn; eauto]].
  - intros q [->|Hq]%elem_of_cons; [|auto]. destruct St; cbn [ty_pc] in *; try exact I; try exact Hp. split; [exact Ht|exact Hp].
Qed.
Lemma TyInv_perm h ps ps' : ps ≡ₚ ps' -> TyInv h ps -> TyInv h ps'.
Proof. intros Hp [T1 T2]. constructor; [exact T1|]. intros p Hin. apply T2. now rewrite Hp. Qed.

(** The record of an object whose pages are in the heap decodes to it. *)
Lemma typed_meta_ok c a m L f : cfg_ok c -> meta_ok c m -> msize_of m <= 2 ^ dc_lpage c -> dinv c a (dpages c m ++ L) f -> ty_meta m -> typed_meta m.
Proof.
  intros [C1 C2 C3 C4] [M1 (t & tails & Ec & Ht & Hlen & Hd)] Hle HI [Htm Hkey].
  assert (Hlp : 2 ^ dc_lpage c <= 2 ^ 31) by (apply N.pow_le_mono_r; [discriminate|clear -C2; lia]).
  assert (Hl : N.of_nat (length (meta_encode m)) < 2 ^ 32).
  { unfold msize_of in Hle. eapply N.le_lt_trans; [exact Hle|]. eapply N.le_lt_trans; [exact Hlp|reflexivity]. }
  pose proof (meta_encode_len m) as Hel.
  assert (Hoff : forall x p, (x, p) ∈ dpages c m -> x < 2 ^ 64).
  { intros x p Hx. eapply live_well_placed in HI; [|apply elem_of_app; left; exact Hx]. destruct HI as (_ & _ & H2). cbn [fst snd] in *.
    pose proof (pow2_pos p). specialize (H2 x). unfold page_bytes, in_heap in H2. cbn [fst snd] in H2. eapply N.lt_trans; [|exact (eq_refl : 2 ^ 48 < 2 ^ 64)]. clear -H2 C4 H. lia. }
  unfold dpages in Hoff. rewrite Hd in Hoff. cbn [default from_option id] in Hoff.
  constructor; auto.
  - pose proof (N.div_mod (m_size m) (2 ^ dc_lpage c) (pow2_nz _)) as Hdm. pose proof (N.mod_lt (m_size m) (2 ^ dc_lpage c) (pow2_nz _)) as Hml.
    generalize dependent (m_size m / 2 ^ dc_lpage c). generalize dependent (m_size m mod 2 ^ dc_lpage c). intros rm Hml q Hq Hdm.
    change (2 ^ 64) with (2 ^ 32 * 2 ^ 32). clear -Hdm Hml Hlp Hq. generalize dependent (2 ^ dc_lpage c). intros P Hdm Hml Hlp.
    change (2 ^ 31) with 2147483648 in *. change (2 ^ 32) with 4294967296 in *. nia.
  - eapply N.lt_trans; [exact Htm|reflexivity].
  - clear -Hl Hel. lia.
  - apply Forall_forall. intros x Hx. apply (Hoff x (dc_lpage c)). apply elem_of_app. left. apply elem_of_list_fmap. eauto.
  - clear -Hl Hel. lia.
  - apply Forall_forall. intros x Hx. apply elem_of_list_lookup_1 in Hx as [i Hi].
    destruct (lookup_lt_is_Some_2 tails i) as [p Hp]; [rewrite <- Hlen; eapply lookup_lt_Some, Hi|].
    apply (Hoff x p). apply elem_of_app. right. apply elem_of_list_lookup. exists i. apply lookup_zip_with_Some. eauto.
  - clear -Hl Hel. lia.
Qed.
