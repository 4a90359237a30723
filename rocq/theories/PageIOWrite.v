From stdpp Require Import base numbers list list_numbers option.
From Coq Require Import ZifyBool ZifyNat ZifyN.
From Verif Require Import Util LayoutModel LayoutProofs PageIOModel PageIOSpec PageIOProofs.
Open Scope N_scope.
Ltac Zify.zify_post_hook ::= idtac.

Definition asum (ts : list (N * N)) : N := foldr (fun t s => fst t + s) 0 ts.
Lemma asum_cons t ts : asum (t :: ts) = fst t + asum ts. Proof. reflexivity. Qed.
Lemma asum_nil : asum [] = 0. Proof. reflexivity. Qed.
Lemma asum_app l m : asum (l ++ m) = asum l + asum m.
Proof. induction l as [|x l IH]; cbn [app]; rewrite ?asum_cons, ?asum_nil, ?IH; lia. Qed.
Lemma asum_take_S ts j t : ts !! j = Some t -> asum (take (S j) ts) = asum (take j ts) + fst t.
Proof. intros H. rewrite (take_S_r _ _ _ H), asum_app, asum_cons, asum_nil. lia. Qed.
Lemma asum_take_le ts j : asum (take j ts) <= asum ts.
Proof. rewrite <- (take_drop j ts) at 2. rewrite asum_app. lia. Qed.

(** ** Device writes *)
Lemma dev_write_in d a data x b : a <= x -> data !! N.to_nat (x - a) = Some b -> dev_write d a data x = b.
Proof. intros H E. unfold dev_write. destruct (N.leb_spec a x); [|lia]. rewrite E. reflexivity. Qed.
Lemma dev_write_out d a data x : x < a \/ a + N.of_nat (length data) <= x -> dev_write d a data x = d x.
Proof.
  intros H. unfold dev_write. destruct (N.leb_spec a x); [|reflexivity].
  rewrite lookup_ge_None_2 by lia. reflexivity.
Qed.

(** ** Targets of a part *)
Record targets_ok (f : flavour) (spage : N) (ps : list (N * N)) (size offset len : N) (ts : list (N * N)) : Prop := {
  to_sum : asum ts = len;
  to_page : forall j amt a, ts !! j = Some (amt, a) ->
    0 < amt /\ exists k p, ps !! k = Some (a, p) /\ psum ps k = offset + asum (take j ts) /\
      amt <= 2 ^ p /\ amt <= padded_len f spage amt <= 2 ^ p /\
      (padded_len f spage amt <> amt -> psum ps k + amt = size);
}.

Lemma mapM_tails (offs tails : list N) : length offs = length tails ->
  mapM (fun '(i, sz) => a ← offs !! N.to_nat i; Some (N.shiftl 1 sz, a)) (enumerate tails)
  = Some (zip ((fun p => 2 ^ p) <$> tails) offs).
Proof.
  intros Hlen. unfold enumerate.
  assert (G : forall l i0, drop i0 tails = l ->
    mapM (fun '(i, sz) => a ← offs !! N.to_nat i; Some (N.shiftl 1 sz, a))
      (zip (map N.of_nat (seq i0 (length l))) l) = Some (zip ((fun p => 2 ^ p) <$> l) (drop i0 offs))).
  { intros l. induction l as [|p l IH]; intros i0 E.
    - reflexivity.
    - cbn [length seq map].
      change (zip (N.of_nat i0 :: map N.of_nat (seq (S i0) (length l))) (p :: l)) with
        ((N.of_nat i0, p) :: zip (map N.of_nat (seq (S i0) (length l))) l).
      assert (Hp : tails !! i0 = Some p).
      { rewrite <- (Nat.add_0_r i0). rewrite <- lookup_drop, E. reflexivity. }
      assert (exists a, offs !! i0 = Some a) as [a Ea].
      { apply lookup_lt_is_Some_2. rewrite Hlen. eapply lookup_lt_Some. exact Hp. }
      cbn [mapM]. rewrite Nat2N.id, Ea. cbn [mbind option_bind].
      rewrite (IH (S i0)).
      + cbn [mbind option_bind]. rewrite (drop_S _ _ _ Ea), fmap_cons. rewrite N.shiftl_1_l. reflexivity.
      + rewrite <- (Nat.add_1_r i0), <- drop_drop, E. reflexivity. }
  apply (G tails 0%nat). reflexivity.
Qed.

Lemma adjust_last_snoc size l P a :
  adjust_last size (l ++ [(P, a)]) = l ++ [(if negb (size mod P =? 0) then size mod P else P, a)].
Proof.
  induction l as [|x l IH]; [reflexivity|]. cbn [app adjust_last]. rewrite IH.
  destruct x as [x1 x2]. destruct l; reflexivity.
Qed.

Lemma padded_le spage amt p : 0 < amt -> amt <= 2 ^ p -> spage <= p ->
  amt <= padded_len Direct spage amt <= 2 ^ p /\
  (forall s, s mod 2 ^ spage = 0 -> True).
Proof.
  intros H0 H Hp. split; [|tauto]. cbn [padded_len]. pose proof (ceil_pow2_ge amt spage).
  pose proof (ceil_within (2 ^ p) spage amt (pow2_mod_pow2 _ _ Hp) H).
  assert (2 ^ spage <= 2 ^ p) by (apply N.pow_le_mono_r; lia). lia.
Qed.

Lemma padded_full f spage p : spage <= p -> padded_len f spage (2 ^ p) = 2 ^ p.
Proof.
  intros Hp. destruct f; [reflexivity|]. cbn [padded_len].
  pose proof (ceil_pow2_ge (2 ^ p) spage).
  pose proof (ceil_within (2 ^ p) spage (2 ^ p) (pow2_mod_pow2 _ _ Hp) (N.le_refl _)).
  assert (2 ^ spage <= 2 ^ p) by (apply N.pow_le_mono_r; lia). lia.
Qed.

Lemma padded_le_any f spage amt p : 0 < amt -> amt <= 2 ^ p -> spage <= p ->
  amt <= padded_len f spage amt <= 2 ^ p.
Proof. intros H0 H Hp. destruct f; [cbn [padded_len]; lia|]. apply padded_le; assumption. Qed.

Lemma write_check_ok lpage size offset len :
  offset + 2 ^ lpage < 2 ^ 64 -> write_check lpage size offset len = None ->
  offset mod 2 ^ lpage = 0 /\ offset + len = N.min (offset + 2 ^ lpage) size.
Proof.
  intros Hw. unfold write_check. rewrite is_multiple_of_pow2_spec.
  destruct (N.eqb_spec (offset mod 2 ^ lpage) 0) as [Hm|]; cbn [negb]; [|discriminate].
  destruct (N.ltb_spec (2 ^ lpage) len); [discriminate|].
  destruct (N.ltb_spec size (u64_add offset len)); [discriminate|].
  unfold u64_add in *. rewrite (N.mod_small (offset + 2 ^ lpage)) by exact Hw.
  rewrite (N.mod_small (offset + len)) in * by lia.
  destruct (N.eqb_spec (offset + len) (N.min (offset + 2 ^ lpage) size)); [|discriminate]. auto.
Qed.
Lemma check_error lpage size offset len e : offset + 2 ^ lpage < 2 ^ 64 -> write_check lpage size offset len = Some e ->
  part_error lpage size offset len e.
Proof.
  intros Hw. unfold write_check, part_error. rewrite is_multiple_of_pow2_spec.
  destruct (N.eqb_spec (offset mod 2 ^ lpage) 0) as [Hm|Hm]; cbn [negb]; [|intros H; injection H as <-; exact Hm].
  destruct (N.ltb_spec (2 ^ lpage) len) as [H1|H1]; [intros H; injection H as <-; clear -H1; gpow; lia|].
  unfold u64_add. rewrite (N.mod_small (offset + 2 ^ lpage)) by exact Hw.
  rewrite (N.mod_small (offset + len)) by (clear -Hw H1; gpow; lia).
  destruct (N.ltb_spec size (offset + len)) as [H2|H2]; [intros H; injection H as <-; exact H2|].
  destruct (N.eqb_spec (offset + len) (N.min (offset + 2 ^ lpage) size)) as [H3|H3]; cbn [negb]; [discriminate|].
  intros H; injection H as <-; exact H3.
Qed.

(** Full page amounts for the tails, as a list of pages. *)
Lemma asum_zip_take (tails offs : list N) j : length offs = length tails ->
  asum (take j (zip ((fun p => 2 ^ p) <$> tails) offs)) = sum_pow2 (take j tails).
Proof.
  revert offs j. induction tails as [|p tails IH]; intros [|a offs] [|j] H; try discriminate; try reflexivity.
  cbn [fmap list_fmap].
  change (zip (2 ^ p :: ((fun p0 => 2 ^ p0) <$> tails)) (a :: offs)) with
    ((2 ^ p, a) :: zip ((fun p0 => 2 ^ p0) <$> tails) offs).
  cbn [take]. rewrite asum_cons, sum_pow2_cons, IH by (cbn in H; lia). reflexivity.
Qed.

Lemma targets_spec f spage lpage o ps lc t offset len :
  pages_view f spage lpage o ps lc t -> o_size o / 2 ^ lpage < count_limit f ->
  offset + 2 ^ lpage < 2 ^ 64 -> write_check lpage (o_size o) offset len = None ->
  exists ts, write_dev_offsets f spage lpage o offset = Some ts /\
    targets_ok f spage ps (o_size o) offset len ts /\ offset + len = N.min (offset + 2 ^ lpage) (o_size o).
Proof.
  intros V Hlim Hw Hchk. destruct (write_check_ok _ _ _ _ Hw Hchk) as [Hm Hlen]. clear Hchk.
  unfold write_dev_offsets. rewrite (pv_calc _ _ _ _ _ _ _ V). cbn [mbind option_bind].
  rewrite div_pow2_spec.
  pose proof (pv_lc _ _ _ _ _ _ _ V) as Hlc.
  pose proof (N.div_mod (o_size o) (2 ^ lpage) (pow2_nz _)) as Hdm.
  pose proof (N.mod_lt (o_size o) (2 ^ lpage) (pow2_nz _)) as Hml.
  rewrite <- Hlc in *.
  apply N.mod_divide in Hm as [q Eq]; [|apply pow2_nz].
  assert (offset / 2 ^ lpage = q) as -> by (rewrite Eq; apply N.div_mul, pow2_nz).
  assert (Hq : q <= lc).
  { assert (q * 2 ^ lpage < (lc + 1) * 2 ^ lpage) as Hx by lia. apply N.mul_lt_mono_pos_r in Hx; [lia|apply pow2_pos]. }
  destruct (N.leb_spec (count_limit f) q); [lia|].
  destruct (pv_tails _ _ _ _ _ _ _ V) as (tails & Ht & Htl & Eps).
  pose proof (pv_lc_len _ _ _ _ _ _ _ V) as Hll.
  destruct (N.ltb_spec q lc) as [Hql|Hql].
  - destruct (pv_lpages _ _ _ _ _ _ _ V (N.to_nat q)) as (a & Ea & Eo); [lia|].
    rewrite Eo. cbn [mbind option_bind]. rewrite N.shiftl_1_l.
    assert (Hfull : (q + 1) * 2 ^ lpage <= lc * 2 ^ lpage) by (apply N.mul_le_mono_r; lia).
    eexists. split; [reflexivity|]. split; [|exact Hlen]. constructor.
    + cbn [asum foldr fst]. lia.
    + intros [|j] amt a' E; [|destruct j; discriminate]. cbn in E. inversion E; subst amt a'.
      pose proof (pow2_pos lpage). split; [assumption|]. exists (N.to_nat q), lpage.
      pose proof (pv_small _ _ _ _ _ _ _ V _ _ _ Ea) as Hsm.
      split; [exact Ea|]. split.
      { cbn [take]. rewrite asum_nil. 
        unfold psum. rewrite Eps. rewrite take_app_le by (rewrite map_length; lia).
        rewrite firstn_map. rewrite sum_pow2_const. rewrite take_length. rewrite Eq, N.add_0_r. f_equal. lia. }
      split; [lia|]. rewrite padded_full by lia. split; [lia|]. congruence.
  - assert (q = lc) by lia. subst q. clear Hql Hq.
    rewrite (tps_rep_collect _ _ Ht). cbn [mbind option_bind]. rewrite (mapM_tails _ _ Htl).
    cbn [mbind option_bind]. eexists. split; [reflexivity|]. split; [|exact Hlen].
    assert (Htot : psum ps (length ps) = lc * 2 ^ lpage + sum_pow2 tails).
    { unfold psum. rewrite take_ge by lia. rewrite Eps, fmap_app, sum_pow2_app, sum_pow2_const, <- Hll.
      f_equal. f_equal. apply snd_zip_len. exact Htl. }
    pose proof (pv_total _ _ _ _ _ _ _ V) as Htt. rewrite Htot in Htt.
    assert (Hpsum : forall j, psum ps (length (o_lpages o) + j) = offset + sum_pow2 (take j tails)).
    { intros j. unfold psum. rewrite Eps. rewrite take_app_ge by (rewrite map_length; lia). rewrite map_length.
      replace (length (o_lpages o) + j - length (o_lpages o))%nat with j by lia.
      rewrite fmap_app, sum_pow2_app, sum_pow2_const, <- Hll, Eq. f_equal. f_equal.
      rewrite <- (snd_zip_len (o_tails o) tails Htl) at 2. rewrite !fmap_take. reflexivity. }
    assert (Hlook : forall j a p, o_tails o !! j = Some a -> tails !! j = Some p ->
              ps !! (length (o_lpages o) + j)%nat = Some (a, p)).
    { intros j a p Ea Ep. rewrite Eps. rewrite lookup_app_r; rewrite map_length; [|lia].
      replace (length (o_lpages o) + j - length (o_lpages o))%nat with j by lia.
      rewrite lookup_zip_with, Ea. cbn. rewrite Ep. reflexivity. }
    destruct tails as [|p0 tails0] eqn:Etails.
    { (* no tail pages *)
      destruct (o_tails o) eqn:Eot; [|discriminate]. cbn [fmap list_fmap zip zip_with adjust_last].
      rewrite sum_pow2_nil in Htt. constructor; [rewrite asum_nil; lia|]. intros j amt a E. destruct j; discriminate. }
    rewrite <- Etails in *. assert (Hne : tails <> []) by congruence. clear p0 tails0 Etails.
    destruct (exists_last Hne) as (ini & pl & Ei).
    assert (Hleno : exists oini al, o_tails o = oini ++ [al] /\ length oini = length ini).
    { destruct (o_tails o) as [|x l] eqn:Eo; [rewrite Ei in Htl; cbn in Htl; rewrite app_length in Htl; cbn in Htl; lia|].
      destruct (exists_last (l := x :: l) ltac:(congruence)) as (oi & al & E). rewrite E in *.
      exists oi, al. split; [reflexivity|]. rewrite Ei in Htl. rewrite !app_length in Htl. cbn in Htl. lia. }
    destruct Hleno as (oini & al & Eo & Hoi).
    assert (Ezip : zip ((fun p => 2 ^ p) <$> tails) (o_tails o) =
              zip ((fun p => 2 ^ p) <$> ini) oini ++ [(2 ^ pl, al)]).
    { rewrite Ei, Eo, fmap_app. rewrite zip_with_app by (rewrite fmap_length; lia). reflexivity. }
    rewrite Ezip, adjust_last_snoc.
    assert (Hzl : length (zip ((fun p => 2 ^ p) <$> ini) oini) = length ini).
    { rewrite zip_with_length, fmap_length. lia. }
    assert (Eal : o_tails o !! length ini = Some al).
    { rewrite Eo, <- Hoi. rewrite lookup_app_r by lia. rewrite Nat.sub_diag. reflexivity. }
    assert (Epl : tails !! length ini = Some pl).
    { rewrite Ei. rewrite lookup_app_r by lia. rewrite Nat.sub_diag. reflexivity. }
    pose proof (Hlook _ _ _ Eal Epl) as Hpl. pose proof (Hpsum (length ini)) as Hpsl.
    assert (Hti : take (length ini) tails = ini) by (rewrite Ei; apply take_app).
    rewrite Hti in Hpsl.
    assert (Hst : sum_pow2 tails = sum_pow2 ini + 2 ^ pl).
    { rewrite Ei, sum_pow2_app, sum_pow2_cons, sum_pow2_nil. lia. }
    pose proof (pv_small _ _ _ _ _ _ _ V _ _ _ Hpl) as Hsm.
    assert (Hsp : 2 ^ spage <= 2 ^ pl) by (apply N.pow_le_mono_r; lia).
    pose proof (psum_aligned _ _ _ _ (pv_nonincr _ _ _ _ _ _ _ V) Hpl) as Hal. rewrite Hpsl in Hal.
    remember (if negb (o_size o mod 2 ^ pl =? 0) then o_size o mod 2 ^ pl else 2 ^ pl) as amt eqn:Eamt.
    assert (Hamt : offset + sum_pow2 ini + amt = o_size o /\ 0 < amt <= 2 ^ pl).
    { assert (offset + sum_pow2 ini < o_size o <= offset + sum_pow2 ini + 2 ^ pl) as Hr by (rewrite Eq; clia Htt Hst Hsp).
      destruct (N.eq_dec (o_size o) (offset + sum_pow2 ini + 2 ^ pl)) as [E|NE].
      - assert (o_size o mod 2 ^ pl = 0) as E0.
        { rewrite E. apply mod_add_0; [apply pow2_nz|exact Hal|]. apply N.mod_same, pow2_nz. }
        rewrite E0 in Eamt. cbn in Eamt. pose proof (pow2_pos pl) as Hpp. subst amt. clia E Hpp.
      - rewrite (mod_within _ (offset + sum_pow2 ini) (2 ^ pl) (pow2_nz _) Hal) in Eamt by clia Hr NE.
        destruct (N.eqb_spec (o_size o - (offset + sum_pow2 ini)) 0) as [Ez|Ez]; [clia Ez Hr|]. cbn in Eamt. clia Eamt Hr. }
    assert (Hlen2 : offset + len = o_size o).
    { rewrite Eq in *. clear -Hlen Hdm Hml Hlc. rewrite Hlen. rewrite (N.mul_comm (2 ^ lpage)) in Hdm.
      apply N.min_r. gpow. clear Hlen. lia. }
    clear Hlen Hdm Hml Hlim Hlc Htt Htot Hw Eamt Hal Eq Hll H Hst Hsp.
    assert (Hasum : forall j, (j <= length ini)%nat ->
       asum (take j (zip ((fun p => 2 ^ p) <$> ini) oini ++ [(amt, al)])) = sum_pow2 (take j tails)).
    { intros j Hj. rewrite take_app_le by lia. rewrite asum_zip_take by lia.
      rewrite Ei. rewrite take_app_le by lia. reflexivity. }
    constructor.
    + rewrite asum_app, asum_cons, asum_nil. cbn [fst].
      pose proof (asum_zip_take ini oini (length ini) Hoi) as Hx.
      rewrite (take_ge (zip _ _)) in Hx by lia. rewrite (take_ge ini) in Hx by lia. rewrite Hx. lia.
    + intros j am a E. apply lookup_app_Some in E as [E|[Hj E]].
      * assert (j < length ini)%nat as Hj by (rewrite <- Hzl; eapply lookup_lt_Some; exact E).
        rewrite lookup_zip_with, list_lookup_fmap in E.
        destruct (ini !! j) as [p|] eqn:Ep; [|discriminate]. cbn in E.
        destruct (oini !! j) as [a'|] eqn:Ea; [|discriminate]. cbn in E. inversion E; subst am a'. clear E.
        assert (Hk : ps !! (length (o_lpages o) + j)%nat = Some (a, p)).
        { apply Hlook; [rewrite Eo, lookup_app_l by lia; exact Ea|rewrite Ei, lookup_app_l by lia; exact Ep]. }
        pose proof (pv_small _ _ _ _ _ _ _ V _ _ _ Hk) as Hsk. pose proof (pow2_pos p).
        split; [assumption|]. exists (length (o_lpages o) + j)%nat, p. split; [exact Hk|].
        rewrite Hpsum, Hasum by lia. split; [reflexivity|]. split; [lia|].
        rewrite padded_full by lia. split; [lia|congruence].
      * rewrite Hzl in *. destruct (j - length ini)%nat as [|n] eqn:Ej; [|destruct n; discriminate].
        cbn in E. inversion E; subst am a. clear E. assert (j = length ini) as -> by lia.
        split; [lia|]. exists (length (o_lpages o) + length ini)%nat, pl. split; [exact Hpl|].
        rewrite Hasum by lia. rewrite Hti. split; [exact Hpsl|]. split; [lia|].
        split; [apply padded_le_any; lia|]. intros _. lia.
Qed.
