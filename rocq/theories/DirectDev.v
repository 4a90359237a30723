(** The device of a direct partition: which bytes of which objects a write that
    is in flight can change. *)
From Coq Require Import ZifyBool ZifyNat ZifyN.
From stdpp Require Import base numbers list_numbers option gmap sets list.
From Verif Require Import Util Bytes BuddyModel BuddySpec BuddyProofs BuddyInv LayoutModel LayoutProofs.
From Verif Require Import PageIOModel PageIOSpec PageIOProofs PageIOWrite PageIOSys TuplesModel.
From Verif Require Import DirectModel DirectBase DirectSteps DirectInv DirectTup DirectAlloc.
Open Scope N_scope.
Ltac Zify.zify_post_hook ::= idtac.

Notation "'dinv' c" := (BuddyInv.Inv (dc_base c) (dc_heap c) (dc_spage c) (dc_lpage c) (2 ^ 32) DirRight) (at level 10, c at level 9).
Definition opg (c : dcfg) (m : dmeta) : Prop :=
  object_pages Direct (dc_spage c) (dc_lpage c) (obj_of m) (dpages c m).

(** Pages handed out for an object are as the page I/O expects them. *)
Lemma held_object_pages c m a L f : cfg_ok c -> meta_ok c m -> dinv c a (dpages c m ++ L) f -> opg c m.
Proof.
  intros [C1 C2 C3 C4] [M1 (t & tails & Ec & Ht & Hlen & Hd)] HI.
  constructor; auto.
  - exists t, tails. split; [exact Ec|]. split; [intros idx; now apply tps_rep_get|]. split; [exact Hlen|].
    unfold dpages. rewrite Hd. reflexivity.
  - intros i j p q x Hij Hi Hj Hp Hq. eapply live_disjoint in HI.
    apply (HI i j p q Hij (lookup_app_l_Some _ _ _ _ Hi) (lookup_app_l_Some _ _ _ _ Hj) x). split; assumption.
  - intros x p Hx. assert (Hin : (x, p) ∈ dpages c m ++ L) by (apply elem_of_app; auto).
    pose proof HI as HI2. eapply live_well_placed in HI2; [|exact Hin]. destruct HI2 as ((H1 & H2) & H3 & _). cbn [fst snd] in *.
    apply (mod_pow2_le x (dc_spage c) p); assumption.
Qed.

(** ** Parts of an object *)
Lemma page_of_start ps k a p j : disjoint_pages ps -> ps !! k = Some (a, p) -> locate ps j = Some a -> j = psum ps k.
Proof.
  intros Hd Hk Hj. apply locate_Some in Hj as (k' & a' & p' & Hk' & Hjk & Ej).
  destruct (decide (k = k')) as [<-|Hne].
  - rewrite Hk in Hk'. injection Hk' as <- <-. lia.
  - exfalso.
    apply (Hd k k' _ _ a Hne Hk Hk'); unfold in_page; cbn [fst snd].
    + pose proof (pow2_pos p). lia.
    + lia.
Qed.

Lemma touch_part f spage lpage o ps off i x : object_pages f spage lpage o ps -> off mod 2 ^ lpage = 0 ->
  locate ps i = Some x -> i < o_size o -> may_touch Direct lpage o ps off x -> in_part lpage (o_size o) off i.
Proof.
  intros Hop Hoff Hi His (j & a & p & Hj & Hja & Hin & Hx).
  destruct (object_pages_view _ _ _ _ _ Hop) as (lc & t & V).
  apply elem_of_list_lookup_1 in Hin as [k Hk].
  pose proof (page_of_start _ _ _ _ _ (op_disjoint _ _ _ _ _ Hop) Hk Hja) as ->.
  apply locate_Some in Hi as (k' & a' & p' & Hk' & Hik & Ei).
  assert (k = k') as <-.
  { destruct (decide (k = k')) as [|Hne]; [assumption|exfalso].
    apply (op_disjoint _ _ _ _ _ Hop k k' _ _ x Hne Hk Hk' Hx). unfold in_page. cbn [fst snd]. clear -Hik Ei. lia. }
  rewrite Hk in Hk'. injection Hk' as <- <-.
  pose proof (psum_aligned _ _ _ _ (pv_nonincr _ _ _ _ _ _ _ V) Hk) as Hal.
  pose proof (proj2 (pv_small _ _ _ _ _ _ _ V _ _ _ Hk)) as Hpl.
  unfold in_part in *.
  assert (psum ps k + 2 ^ p <= off + 2 ^ lpage); [|clear -Hj Hik His H; lia].
  assert (Hd1 : (off + 2 ^ lpage) mod 2 ^ p = 0).
  { apply mod_add_0; [apply pow2_nz| |apply pow2_mod_pow2, Hpl]. eapply mod_pow2_le; eassumption. }
  apply N.mod_divide in Hal as [q Hq]; [|apply pow2_nz]. apply N.mod_divide in Hd1 as [s Hs]; [|apply pow2_nz].
  assert (Hlt : psum ps k < off + 2 ^ lpage) by (clear -Hj; lia). rewrite Hq, Hs in *.
  apply N.mul_lt_mono_pos_r in Hlt; [|apply pow2_pos].
  replace (q * 2 ^ p + 2 ^ p) with ((q + 1) * 2 ^ p) by (clear; lia). apply N.mul_le_mono_r. clear -Hlt. lia.
Qed.

(** Two parts share no byte. *)
Lemma parts_disjoint lpage size off off' i : off mod 2 ^ lpage = 0 -> off' mod 2 ^ lpage = 0 ->
  in_part lpage size off i -> in_part lpage size off' i -> off = off'.
Proof.
  intros H H' [H1 H2] [H3 H4]. apply N.mod_divide in H as [q ->]; [|apply pow2_nz]. apply N.mod_divide in H' as [q' ->]; [|apply pow2_nz].
  f_equal. destruct (N.lt_trichotomy q q') as [Hl|[|Hl]]; [exfalso|assumption|exfalso].
  - assert (q * 2 ^ lpage + 2 ^ lpage <= q' * 2 ^ lpage).
    { replace (q * 2 ^ lpage + 2 ^ lpage) with ((q + 1) * 2 ^ lpage) by (clear; lia). apply N.mul_le_mono_r. clear -Hl. lia. }
    clear -H H2 H3. lia.
  - assert (q' * 2 ^ lpage + 2 ^ lpage <= q * 2 ^ lpage).
    { replace (q' * 2 ^ lpage + 2 ^ lpage) with ((q' + 1) * 2 ^ lpage) by (clear; lia). apply N.mul_le_mono_r. clear -Hl. lia. }
    clear -H H1 H4. lia.
Qed.

(** The range of a page write. *)
Lemma target_touch spage lpage o ps off w j amt a :
  targets_ok Direct spage ps (o_size o) off (w_len w) (w_targets w) -> off + w_len w = N.min (off + 2 ^ lpage) (o_size o) ->
  w_targets w !! j = Some (amt, a) ->
  exists k p, ps !! k = Some (a, p) /\ psum ps k = off + asum (take j (w_targets w)) /\ amt <= 2 ^ p /\
    forall x, a <= x < a + padded_len Direct spage amt -> in_page (a, p) x /\ may_touch Direct lpage o ps off x.
Proof.
  intros Ht Hp E. destruct (to_page _ _ _ _ _ _ _ Ht _ _ _ E) as (H0 & k & p & Ek & Hk & Ha & Hpad & _).
  exists k, p. split; [exact Ek|]. split; [exact Hk|]. split; [exact Ha|]. intros x Hx.
  assert (Hin : in_page (a, p) x) by (unfold in_page; cbn [fst snd]; clear -Hx Hpad; lia). split; [exact Hin|].
  exists (psum ps k), a, p. split.
  - pose proof (asum_take_S _ _ _ E) as HS. cbn [fst] in HS. pose proof (asum_take_le (w_targets w) (S j)) as Hle.
    rewrite HS, (to_sum _ _ _ _ _ _ _ Ht) in Hle. unfold in_part. rewrite Hk. clear -H0 Hle Hp. lia.
  - split; [|split; [eapply elem_of_list_lookup_2, Ek|exact Hin]].
    rewrite <- (N.add_0_r (psum ps k)), (locate_page _ _ _ _ _ Ek) by apply pow2_pos. f_equal. clear; lia.
Qed.

(** ** Who owns what *)
Lemma held_split c h ps lk r : SInv h ps -> AInv c h ps lk -> r ∈ owners h ps ->
  exists L f, dinv c (h_alloc h) (opages c h r ++ L) f /\
    (forall r', r' ∈ owners h ps -> r' <> r -> forall p, p ∈ opages c h r' -> p ∈ L) /\
    (forall q p, q ∈ ps -> p ∈ pc_pages c q -> p ∈ L).
Proof.
  intros HS [[f HI] _ _] Hr. pose proof Hr as Hr2. apply elem_of_Permutation in Hr2 as [k Hk].
  exists ((k ≫= opages c h) ++ (ps ≫= pc_pages c) ++ lk), f. split; [|split].
  - eapply inv_perm; [exact HI|]. unfold held. pose proof (bind_perm (opages c h) _ _ Hk) as Hb. rewrite bind_cons in Hb.
    rewrite Hb. clear. perm_solve.
  - intros r' Hr' Hne p Hp. rewrite Hk in Hr'. apply elem_of_cons in Hr' as [->|Hr']; [contradiction|].
    apply elem_of_app. left. apply elem_of_list_bind. eauto.
  - intros q p Hq Hp. rewrite !elem_of_app. right. left. apply elem_of_list_bind. eauto.
Qed.

Lemma app_disjoint c a l L f p q x : dinv c a (l ++ L) f -> p ∈ l -> q ∈ L -> in_page p x -> in_page q x -> False.
Proof.
  intros HI Hp Hq H1 H2. eapply live_disjoint in HI.
  apply elem_of_list_lookup_1 in Hp as [i Hi]. apply elem_of_list_lookup_1 in Hq as [j Hj].
  assert ((l ++ L) !! (length l + j)%nat = Some q) as E2.
  { apply lookup_app_Some. right. split; [apply Nat.le_add_r|]. rewrite Nat.add_comm, Nat.add_sub. exact Hj. }
  assert (Hij : i <> (length l + j)%nat).
  { apply lookup_lt_Some in Hi. intros ->. apply (Nat.lt_irrefl (length l)). eapply Nat.le_lt_trans; [apply Nat.le_add_r|exact Hi]. }
  apply (HI i (length l + j)%nat p q Hij (lookup_app_l_Some _ _ _ _ Hi) E2 x). split; [exact H1|exact H2].
Qed.

Lemma opages_in c h r ob p : h_objs h !! r = Some ob -> p ∈ dpages c (b_meta ob) -> p ∈ opages c h r.
Proof. intros E Hp. unfold opages. rewrite E. unfold obj_pages. apply elem_of_app. auto. Qed.

(** A writer's view of its own object. *)
Definition wr_frame (c : dcfg) (m : dmeta) (off : N) (w : writer) : Prop :=
  targets_ok Direct (dc_spage c) (dpages c m) (m_size m) off (w_len w) (w_targets w) /\
  off + w_len w = N.min (off + 2 ^ dc_lpage c) (m_size m) /\ off mod 2 ^ dc_lpage c = 0.
Definition flight_ok (c : dcfg) (h : shared) (p : pc) : Prop :=
  match p with
  | PWrite4 r off w _ _ => exists ob, h_objs h !! r = Some ob /\ wr_frame c (b_meta ob) off w
  | _ => True
  end.

Lemma w4_owner h ps r p : SInv h ps -> p ∈ ps -> is_w4 r p ->
  r ∈ vals (h_inc h) ++ (ps ≫= fun q => match q with PCommit1 r _ _ | PCommit2 r _ _ => [r] | _ => [] end) /\ r ∈ owners h ps.
Proof.
  intros HS Hp Hw. unfold owners. rewrite !elem_of_app, !elem_of_list_bind. destruct (s_w4 _ _ HS _ _ Hp Hw) as [H|(q & Hq & Hc)]; [auto|].
  split; right; [|right]; exists q; (split; [|exact Hq]); destruct q; try contradiction; cbn in Hc; subst; constructor.
Qed.

(** What a write in flight can change: nothing of objects it does not write to,
    and only its part of the object it writes to. *)
Lemma flight_bytes c h ps lk p addr len d' :
  cfg_ok c -> SInv h ps -> AInv c h ps lk -> p ∈ ps -> flight_ok c h p -> in_flight c p = Some (addr, len) ->
  (forall x, d' x <> h_dev h x -> addr <= x < addr + len) ->
  forall r ob i, r ∈ owners h ps -> h_objs h !! r = Some ob -> i < m_size (b_meta ob) -> opg c (b_meta ob) ->
  byte_at d' (dpages c (b_meta ob)) i = byte_at (h_dev h) (dpages c (b_meta ob)) i \/
  exists off w buf st, p = PWrite4 r off w buf st /\ in_part (dc_lpage c) (m_size (b_meta ob)) off i /\
    exists k a pw amt, w_targets w !! w_page w = Some (amt, a) /\ dpages c (b_meta ob) !! k = Some (a, pw) /\
      psum (dpages c (b_meta ob)) k = off + asum (take (w_page w) (w_targets w)) /\
      psum (dpages c (b_meta ob)) k <= i < psum (dpages c (b_meta ob)) k + 2 ^ pw.
Proof.
  intros Hc HS HA Hp Hfl Hif Hd r ob i Hr Eo Hi Hop. set (ps' := dpages c (b_meta ob)).
  destruct (object_pages_view _ _ _ _ _ Hop) as (lc & t & V).
  pose proof (pv_total _ _ _ _ _ _ _ V) as Htot. cbn [obj_of o_size] in Htot. fold ps' in Htot.
  destruct (locate_lt ps' i) as (k & a & pw & Ek & Hik); [clear -Htot Hi; lia|].
  assert (El : locate ps' i = Some (a + (i - psum ps' k))).
  { rewrite <- (locate_page ps' k a pw) by (try exact Ek; clear -Hik; lia). f_equal. clear -Hik; lia. }
  unfold byte_at. rewrite El. cbn [from_option]. set (x := a + (i - psum ps' k)) in *.
  destruct (N.eq_dec (d' x) (h_dev h x)) as [->|Hne]; [left; reflexivity|]. right. apply Hd in Hne.
  assert (Hx : in_page (a, pw) x) by (unfold in_page, x; cbn [fst snd]; clear -Hik; lia).
  assert (Hapw : (a, pw) ∈ opages c h r) by (eapply opages_in; [exact Eo|]; eapply elem_of_list_lookup_2, Ek).
  destruct (held_split _ _ _ _ _ HS HA Hr) as (L & f & HI & Hoth & Hpcs).
  destruct p; try discriminate Hif.
  - exfalso. cbn [in_flight] in Hif. injection Hif as <- <-.
    pose proof (a_pcs _ _ _ _ HA _ Hp) as (_ & -> & Hle).
    destruct (metadata_exponent (dc_spage c) (msize_of m) (msize_pos m)) as (_ & _ & Hsz & _).
    eapply (app_disjoint c _ _ _ _ (a, pw) (moff, alloc_pow2 (dc_spage c) (msize_of m)) x HI Hapw).
    + eapply Hpcs; [exact Hp|]. cbn [pc_pages]. apply elem_of_app. right. constructor.
    + exact Hx.
    + unfold in_page. cbn [fst snd]. clear -Hne Hsz. lia.
  - cbn [in_flight] in Hif. destruct (w_targets w !! w_page w) as [[amt a2]|] eqn:Et; [|discriminate]. cbn in Hif. injection Hif as <- <-.
    destruct Hfl as (ob2 & Eo2 & Ht & Hpart & Hoff).
    destruct (target_touch (dc_spage c) (dc_lpage c) (obj_of (b_meta ob2)) _ _ _ _ _ _ Ht Hpart Et) as (k2 & p2 & Ek2 & Hk2 & Hamt & Hin).
    destruct (Hin x Hne) as [Hx2 Htouch].
    destruct (w4_owner _ _ r0 _ HS Hp eq_refl) as [_ Hr0].
    destruct (decide (r0 = r)) as [->|Hner].
    + assert (ob2 = ob) as -> by congruence. exists offset, w, buf, st. split; [reflexivity|]. split.
      * apply (touch_part Direct (dc_spage c) (dc_lpage c) (obj_of (b_meta ob)) ps' offset i x Hop Hoff El Hi Htouch).
      * exists k2, a2, p2, amt. split; [exact Et|]. split; [exact Ek2|]. split; [exact Hk2|]. fold ps' in Ek2, Hk2.
        assert (k = k2) as <-; [|rewrite Ek in Ek2; injection Ek2 as <- <-; exact Hik].
        destruct (decide (k = k2)) as [|Hnk]; [assumption|exfalso].
        exact (op_disjoint _ _ _ _ _ Hop k k2 _ _ x Hnk Ek Ek2 Hx Hx2).
    + exfalso. eapply (app_disjoint c _ _ _ _ (a, pw) (a2, p2) x HI Hapw); [|exact Hx|exact Hx2].
      eapply Hoth; [exact Hr0|exact Hner|]. eapply opages_in; [exact Eo2|]. eapply elem_of_list_lookup_2, Ek2.
Qed.
