From stdpp Require Import base numbers list list_numbers option.
From Coq Require Import ZifyBool ZifyNat ZifyN.
From Verif Require Import Util LayoutModel LayoutProofs PageIOModel PageIOSpec.
Open Scope N_scope.
Ltac Zify.zify_post_hook ::= idtac.

(** ** Page lists *)
Definition psum (ps : list (N * N)) (k : nat) : N := sum_pow2 (take k ps).*2.

Lemma psum_0 ps : psum ps 0 = 0. Proof. reflexivity. Qed.
Lemma psum_cons a p ps k : psum ((a, p) :: ps) (S k) = 2 ^ p + psum ps k.
Proof. reflexivity. Qed.

Lemma psum_S ps k a p : ps !! k = Some (a, p) -> psum ps (S k) = psum ps k + 2 ^ p.
Proof.
  revert k. induction ps as [|[a' p'] ps IH]; intros [|k] H; try discriminate.
  - cbn in H. inversion H; subst. rewrite psum_cons, !psum_0. lia.
  - rewrite psum_cons. rewrite psum_cons. cbn in H. rewrite (IH _ H). lia.
Qed.

Lemma psum_mono ps k j : (k <= j)%nat -> psum ps k <= psum ps j.
Proof.
  intros H. induction H as [|j H IH]; [lia|].
  destruct (ps !! j) as [[a p]|] eqn:E.
  - rewrite (psum_S _ _ _ _ E). lia.
  - unfold psum. apply lookup_ge_None_1 in E. unfold psum in IH.
    rewrite (take_ge ps (S j)) by lia. rewrite (take_ge ps j) in IH by lia. exact IH.
Qed.

Lemma locate_page ps k a p r : ps !! k = Some (a, p) -> r < 2 ^ p -> locate ps (psum ps k + r) = Some (a + r).
Proof.
  revert k. induction ps as [|[a' p'] ps IH]; intros [|k] H Hr; try discriminate.
  - cbn in H. inversion H; subst. rewrite psum_0. cbn [locate]. rewrite N.add_0_l.
    destruct (N.ltb_spec r (2 ^ p)); [reflexivity|lia].
  - rewrite psum_cons. cbn [locate]. cbn in H.
    destruct (N.ltb_spec (2 ^ p' + psum ps k + r) (2 ^ p')); [lia|].
    rewrite <- (IH _ H Hr). f_equal. lia.
Qed.

Lemma locate_Some ps i x : locate ps i = Some x ->
  exists k a p, ps !! k = Some (a, p) /\ psum ps k <= i < psum ps k + 2 ^ p /\ x = a + (i - psum ps k).
Proof.
  revert i. induction ps as [|[a p] ps IH]; intros i H; cbn [locate] in H; [discriminate|].
  destruct (N.ltb_spec i (2 ^ p)).
  - inversion H; subst. exists 0%nat, a, p. rewrite psum_0. repeat split; try lia.
  - destruct (IH _ H) as (k & a' & p' & Hk & Hi & ->). exists (S k), a', p'.
    rewrite psum_cons. repeat split; [exact Hk|lia|lia|lia].
Qed.

Lemma locate_lt ps i : i < psum ps (length ps) ->
  exists k a p, ps !! k = Some (a, p) /\ psum ps k <= i < psum ps k + 2 ^ p.
Proof.
  revert i. induction ps as [|[a p] ps IH]; intros i H.
  - unfold psum in H. cbn in H. lia.
  - cbn [length] in H. rewrite psum_cons in H. destruct (N.lt_ge_cases i (2 ^ p)).
    + exists 0%nat, a, p. rewrite psum_0. repeat split; lia.
    + destruct (IH (i - 2 ^ p)) as (k & a' & p' & Hk & Hi); [lia|].
      exists (S k), a', p'. rewrite psum_cons. repeat split; [exact Hk|lia|lia].
Qed.

Lemma locate_inj ps i j x : disjoint_pages ps -> locate ps i = Some x -> locate ps j = Some x -> i = j.
Proof.
  intros Hd Hi Hj. apply locate_Some in Hi as (k & a & p & Hk & Hik & Ei).
  apply locate_Some in Hj as (k' & a' & p' & Hk' & Hjk & Ej).
  destruct (decide (k = k')) as [->|Hne].
  - rewrite Hk in Hk'. inversion Hk'; subst. lia.
  - exfalso. apply (Hd k k' _ _ x Hne Hk Hk'); unfold in_page; cbn [fst snd]; lia.
Qed.

(** Exponents do not increase along the list. *)
Definition nonincr (ps : list (N * N)) : Prop :=
  forall j k a p b q, (j <= k)%nat -> ps !! j = Some (a, p) -> ps !! k = Some (b, q) -> q <= p.

Lemma pow2_mod_pow2 p q : q <= p -> 2 ^ p mod 2 ^ q = 0.
Proof.
  intros H. replace p with (p - q + q) by lia. rewrite N.pow_add_r. apply N.mod_mul, pow2_nz.
Qed.

Lemma psum_aligned_gen ps k q : (forall j a p, (j < k)%nat -> ps !! j = Some (a, p) -> q <= p) ->
  psum ps k mod 2 ^ q = 0.
Proof.
  revert k. induction ps as [|[a p] ps IH]; intros [|k] H.
  - apply N.mod_0_l, pow2_nz.
  - apply N.mod_0_l, pow2_nz.
  - apply N.mod_0_l, pow2_nz.
  - rewrite psum_cons. apply mod_add_0; [apply pow2_nz| |].
    + apply pow2_mod_pow2. apply (H 0%nat a); [lia|reflexivity].
    + apply IH. intros j a' p' Hj E. apply (H (S j) a'); [lia|exact E].
Qed.

Lemma psum_aligned ps k a p : nonincr ps -> ps !! k = Some (a, p) -> psum ps k mod 2 ^ p = 0.
Proof. intros Hn Hk. apply psum_aligned_gen. intros j b q Hj E. apply (Hn j k b q a p); [lia|exact E|exact Hk]. Qed.

Lemma mod_within x b P : P <> 0 -> b mod P = 0 -> b <= x < b + P -> x mod P = x - b.
Proof.
  intros HP Hb Hx. apply N.mod_divide in Hb as [q ->]; [|exact HP].
  symmetry. apply (N.mod_unique _ _ q); [lia|]. rewrite N.mul_comm. lia.
Qed.

(** ** The pages of an object *)
Record pages_view (f : flavour) (spage lpage : N) (o : obj) (ps : list (N * N))
  (lc : N) (t : TailPageSizes) : Prop := {
  pv_calc : calc_object_layout spage lpage (count_limit f) (o_size o) = Some (lc, t);
  pv_lc : lc = o_size o / 2 ^ lpage;
  pv_total : o_size o <= psum ps (length ps) < o_size o + 2 ^ spage;
  pv_nonincr : nonincr ps;
  pv_small : forall k a p, ps !! k = Some (a, p) -> spage <= p <= lpage;
  pv_page : forall k, (k < length ps)%nat -> read_page lpage lc t o (N.of_nat k) = ps !! k;
  pv_lpages : forall k, N.of_nat k < lc -> exists a, ps !! k = Some (a, lpage) /\ o_lpages o !! k = Some a;
  pv_lc_sum : psum ps (N.to_nat lc) = lc * 2 ^ lpage;
  pv_lc_len : lc = N.of_nat (length (o_lpages o));
  pv_tails : exists tails, tps_rep t tails /\ length (o_tails o) = length tails /\
     ps = map (fun a => (a, lpage)) (o_lpages o) ++ zip (o_tails o) tails;
}.

Lemma sum_pow2_cons x l : sum_pow2 (x :: l) = 2 ^ x + sum_pow2 l.
Proof. reflexivity. Qed.
Lemma sum_pow2_nil : sum_pow2 [] = 0.
Proof. reflexivity. Qed.

Lemma sum_pow2_app l m : sum_pow2 (l ++ m) = sum_pow2 l + sum_pow2 m.
Proof.
  induction l as [|x l IH]; cbn [app]; [rewrite sum_pow2_nil; lia|].
  rewrite !sum_pow2_cons, IH. lia.
Qed.

Lemma sum_pow2_const (l : list N) (p : N) : sum_pow2 (map (fun a => (a, p)) l).*2 = N.of_nat (length l) * 2 ^ p.
Proof.
  induction l as [|x l IH]; [reflexivity|].
  cbn [map]. rewrite fmap_cons, sum_pow2_cons, IH. cbn [length snd]. lia.
Qed.

Lemma snd_zip_len (l m : list N) : length l = length m -> (zip l m).*2 = m.
Proof. intros H. apply snd_zip. lia. Qed.

Lemma tps_rep_unique t l l' : tps_rep t l -> (forall idx, tps_get t idx = Some (l' !! N.to_nat idx)) -> l = l'.
Proof.
  intros H H'. apply list_eq. intros i. specialize (H' (N.of_nat i)).
  rewrite (tps_rep_get _ _ _ H) in H'. rewrite Nat2N.id in H'. congruence.
Qed.

Lemma desc_lookup l i j x y : desc l -> (i < j)%nat -> l !! i = Some x -> l !! j = Some y -> y < x.
Proof.
  revert i j. induction l as [|z l IH]; intros [|i] [|j] Hd Hij Hx Hy; try discriminate; try lia.
  - inversion Hx; subst z. apply Hd. eapply elem_of_list_lookup_2. exact Hy.
  - apply (IH i j (proj2 Hd)); [lia|exact Hx|exact Hy].
Qed.

Lemma object_pages_view f spage lpage o ps : object_pages f spage lpage o ps ->
  exists lc t, pages_view f spage lpage o ps lc t.
Proof.
  intros [Hs Hl H24 Hlim (t & tails & Ec & Hget & Hlen & Eps) Hdis Hal].
  destruct (calc_layout_spec spage lpage (count_limit f) (o_size o) Hs Hl H24 Hlim)
    as (t' & tails' & Ec' & Ht & _ & Hsum & Hd & Hb & Htop & Hl24).
  rewrite Ec in Ec'. inversion Ec' as [[Hlc Et]]. subst t'.
  pose proof (tps_rep_unique _ _ _ Ht Hget) as ->.
  exists (N.of_nat (length (o_lpages o))), t.
  assert (Hpl : length (map (fun a : N => (a, lpage)) (o_lpages o)) = length (o_lpages o)) by apply map_length.
  assert (Hzl : length (zip (o_tails o) tails) = length tails) by (rewrite zip_with_length; lia).
  assert (Hlk : forall k a p, ps !! k = Some (a, p) ->
     ((k < length (o_lpages o))%nat /\ o_lpages o !! k = Some a /\ p = lpage) \/
     ((length (o_lpages o) <= k)%nat /\ tails !! (k - length (o_lpages o))%nat = Some p
        /\ o_tails o !! (k - length (o_lpages o))%nat = Some a)).
  { intros k a p E. rewrite Eps in E. apply lookup_app_Some in E as [E|[Hk E]].
    - left. rewrite list_lookup_fmap in E. destruct (o_lpages o !! k) as [a'|] eqn:Ea; [|discriminate].
      cbn in E. inversion E; subst. split; [|auto]. eapply lookup_lt_Some. exact Ea.
    - right. rewrite Hpl in *. split; [exact Hk|]. rewrite lookup_zip_with in E.
      destruct (o_tails o !! (k - length (o_lpages o))%nat) as [a'|]; [|discriminate].
      cbn in E. destruct (tails !! (k - length (o_lpages o))%nat) as [p'|]; [|discriminate].
      cbn in E. inversion E; subst. auto. }
  assert (Htot : psum ps (length ps) = N.of_nat (length (o_lpages o)) * 2 ^ lpage + sum_pow2 tails).
  { unfold psum. rewrite take_ge by lia. rewrite Eps, fmap_app, sum_pow2_app, sum_pow2_const.
    f_equal. f_equal. apply snd_zip_len. exact Hlen. }
  pose proof (N.div_mod (o_size o) (2 ^ lpage) (pow2_nz _)) as Hdm.
  pose proof (ceil_pow2_ge (o_size o mod 2 ^ lpage) spage) as Hge.
  pose proof (ceil_pow2_lt (o_size o mod 2 ^ lpage) spage) as Hclt.
  rewrite <- Hlc in *.
  constructor.
  - exact Ec.
  - exact Hlc.
  - rewrite Htot. lia.
  - intros j k a p b q Hjk Ej Ek. apply Hlk in Ej as [(Hj & _ & ->)|(Hj & Tj & _)];
      apply Hlk in Ek as [(Hk & _ & ->)|(Hk & Tk & _)]; try lia.
    + apply Hb. eapply elem_of_list_lookup_2. exact Tk.
    + destruct (decide (j = k)) as [->|Hne]; [rewrite Tj in Tk; inversion Tk; lia|].
      apply N.lt_le_incl. eapply (desc_lookup tails); [exact Hd| |exact Tj|exact Tk]. lia.
  - intros k a p E. apply Hlk in E as [(_ & _ & ->)|(_ & T & _)]; [lia|].
    apply Hb. eapply elem_of_list_lookup_2. exact T.
  - intros k Hk. destruct (lookup_lt_is_Some_2 _ _ Hk) as [[a p] E]. rewrite E.
    unfold read_page. apply Hlk in E as [(Hk' & E & ->)|(Hk' & E & Ea)].
    + destruct (N.ltb_spec (N.of_nat k) (N.of_nat (length (o_lpages o)))); [|lia].
      rewrite Nat2N.id, E. reflexivity.
    + destruct (N.ltb_spec (N.of_nat k) (N.of_nat (length (o_lpages o)))); [lia|].
      pose proof (lookup_lt_Some _ _ _ E) as Hlt.
      destruct (N.leb_spec 256 (N.of_nat k - N.of_nat (length (o_lpages o)))); [lia|].
      rewrite (tps_rep_len _ _ Ht).
      destruct (N.ltb_spec (N.of_nat k - N.of_nat (length (o_lpages o))) (N.of_nat (length tails))); [|lia].
      cbn [negb]. rewrite Hget.
      replace (N.to_nat (N.of_nat k - N.of_nat (length (o_lpages o)))) with (k - length (o_lpages o))%nat by lia.
      rewrite Ea. cbn [mbind option_bind]. rewrite E. reflexivity.
  - intros k Hk. assert (k < length (o_lpages o))%nat as Hk' by lia.
    destruct (lookup_lt_is_Some_2 _ _ Hk') as [a Ea]. exists a. split; [|exact Ea].
    rewrite Eps. rewrite lookup_app_l by lia. rewrite list_lookup_fmap, Ea. reflexivity.
  - rewrite Nat2N.id. unfold psum. rewrite Eps. rewrite <- Hpl at 1. rewrite take_app.
    apply sum_pow2_const.
  - reflexivity.
  - exists tails. auto.
Qed.

(** ** Device reads *)
Definition byte_at (d : device) (ps : list (N * N)) (i : N) : N := from_option d 0 (locate ps i).
Definition slice_at (d : device) (ps : list (N * N)) (i n : N) : list N :=
  (fun j => byte_at d ps (i + N.of_nat j)) <$> seq 0 (N.to_nat n).

Lemma fmap_seq_shift {A} (g : nat -> A) a n : g <$> seq a n = (fun j => g (a + j)%nat) <$> seq 0 n.
Proof.
  apply list_eq. intros i. rewrite !list_lookup_fmap.
  destruct (decide (i < n)%nat).
  - rewrite !lookup_seq_lt by lia. reflexivity.
  - rewrite !lookup_seq_ge by lia. reflexivity.
Qed.

Lemma slice_app d ps i n m : slice_at d ps i (n + m) = slice_at d ps i n ++ slice_at d ps (i + n) m.
Proof.
  unfold slice_at. rewrite N2Nat.inj_add, seq_app, fmap_app. f_equal.
  rewrite Nat.add_0_l, fmap_seq_shift.
  apply list_fmap_ext. intros j x Hj. cbn beta. f_equal. lia.
Qed.

Lemma dev_read_slice d ps k a p off n : ps !! k = Some (a, p) -> off + n <= 2 ^ p ->
  dev_read d (a + off) n = slice_at d ps (psum ps k + off) n.
Proof.
  intros E H. unfold dev_read, slice_at. apply list_fmap_ext. intros i x Hi.
  apply lookup_seq in Hi as [-> Hi]. cbn beta. unfold byte_at.
  rewrite <- (N.add_assoc (psum ps k)). rewrite (locate_page _ _ _ _ _ E) by lia. cbn [from_option]. f_equal. lia.
Qed.

Lemma dev_read_length d off n : length (dev_read d off n) = N.to_nat n.
Proof. unfold dev_read. rewrite fmap_length, seq_length. reflexivity. Qed.

Lemma dev_read_sub d a n off m : off + m <= n ->
  take (N.to_nat m) (drop (N.to_nat off) (dev_read d a n)) = dev_read d (a + off) m.
Proof.
  intros H. apply list_eq. intros i. unfold dev_read.
  destruct (decide (i < N.to_nat m)%nat) as [Hi|Hi].
  - rewrite lookup_take by lia. rewrite lookup_drop. rewrite !list_lookup_fmap.
    rewrite !lookup_seq_lt by lia. cbn. do 2 f_equal. lia.
  - rewrite lookup_take_ge by lia. symmetry. apply lookup_ge_None_2. rewrite fmap_length, seq_length. lia.
Qed.

Lemma unaligned_read_spec spage d off len : 0 < len ->
  unaligned_read spage d off len =
    Some (dev_read d off len, (floor_pow2 off spage, ceil_pow2 (off + len) spage - floor_pow2 off spage)).
Proof.
  intros Hlen. unfold unaligned_read.
  pose proof (floor_pow2_le off spage) as H1. pose proof (ceil_pow2_ge (off + len) spage) as H2.
  assert (H3 : 2 ^ spage <= ceil_pow2 (off + len) spage).
  { pose proof (ceil_pow2_mult (off + len) spage) as Hm. apply N.mod_divide in Hm as [q Hq]; [|apply pow2_nz].
    rewrite Hq. assert (q <> 0) by (intros ->; lia). nia. }
  rewrite N.max_l by exact H3. rewrite dev_read_length, N2Nat.id.
  destruct (N.ltb_spec (ceil_pow2 (off + len) spage - floor_pow2 off spage) (off - floor_pow2 off spage + len)); [lia|].
  rewrite dev_read_sub by lia. do 3 f_equal. lia.
Qed.

(** ** The read loops *)
Definition ranges_ok (ps : list (N * N)) (outs : list (list N * (N * N))) : Prop :=
  Forall (fun '(_, (s, n)) => exists a p, (a, p) ∈ ps /\ a <= s /\ s + n <= a + 2 ^ p) outs.

Definition read_post (d : device) (ps : list (N * N)) (start fin : N)
  (res : option (list (list N * (N * N)) * rcall)) : Prop :=
  exists outs, res = Some (outs, RDone) /\ concat outs.*1 = slice_at d ps start (fin - start) /\ ranges_ok ps outs.

Definition RInv (ps : list (N * N)) (o : obj) (lc : N) (t : TailPageSizes) (r : reader) : Prop :=
  r_obj r = o /\ r_lpage_count r = lc /\ r_tails r = t /\ r_next r <= r_end r <= o_size o /\
  (r_next r < r_end r -> exists k a p, r_idx r = N.of_nat k /\ ps !! k = Some (a, p) /\
      psum ps k <= r_next r < psum ps k + 2 ^ p).

Lemma slice_0 d ps i : slice_at d ps i 0 = [].
Proof. reflexivity. Qed.

Lemma drain_S step n r : drain step (S n) (RNext r) =
  let '(out, c') := step r in
  match drain step n c' with
  | None => None
  | Some (outs, c'') => Some (match out with Some x => x :: outs | None => outs end, c'')
  end.
Proof. reflexivity. Qed.
Lemma drain_done step n : drain step n RDone = Some ([], RDone).
Proof. destruct n; reflexivity. Qed.

Lemma next_page_inv f spage lpage o ps lc t k a p e :
  pages_view f spage lpage o ps lc t -> ps !! k = Some (a, p) ->
  psum ps k + 2 ^ p < e -> e <= o_size o ->
  exists k' a' p', N.of_nat k + 1 = N.of_nat k' /\ ps !! k' = Some (a', p') /\
    psum ps k' <= psum ps k + 2 ^ p < psum ps k' + 2 ^ p'.
Proof.
  intros V E H1 H2. pose proof (pv_total _ _ _ _ _ _ _ V) as Ht.
  pose proof (psum_S _ _ _ _ E) as HS.
  assert (S k < length ps)%nat as Hlt.
  { destruct (Nat.lt_ge_cases (S k) (length ps)); [assumption|].
    pose proof (psum_mono ps (length ps) (S k) ltac:(lia)). lia. }
  destruct (lookup_lt_is_Some_2 _ _ Hlt) as [[a' p'] E'].
  exists (S k), a', p'. split; [lia|]. split; [exact E'|]. pose proof (pow2_pos p'). lia.
Qed.

Lemma lite_drain f spage lpage o ps lc t d :
  pages_view f spage lpage o ps lc t ->
  forall n r, (N.to_nat (r_end r - r_next r) <= n)%nat -> RInv ps o lc t r ->
  read_post d ps (r_next r) (r_end r) (drain (lite_read_step lpage d) (S n) (RNext r)).
Proof.
  intros V n. induction n as [|n IH]; intros r Hn (Ho & Hlc & Ht & Hle & Hk).
  - assert (r_next r = r_end r) as E by lia. exists []. cbn [drain]. unfold lite_read_step.
    destruct (N.ltb_spec (r_next r) (r_end r)); [lia|]. cbn.
    split; [reflexivity|]. split; [|constructor]. rewrite E, N.sub_diag. reflexivity.
  - rewrite drain_S. unfold lite_read_step at 1.
    destruct (N.ltb_spec (r_next r) (r_end r)) as [Hlt|Hge]; cbn [negb].
    2:{ exists []. rewrite drain_done. split; [reflexivity|]. split; [|constructor].
        replace (r_end r - r_next r) with 0 by lia. reflexivity. }
    destruct (Hk Hlt) as (k & a & p & Ek & E & Hin). rewrite Ho, Hlc, Ht, Ek.
    rewrite (pv_page _ _ _ _ _ _ _ V k) by (eapply lookup_lt_Some; exact E). rewrite E.
    rewrite mod_pow2_spec, N.shiftl_1_l.
    rewrite (mod_within _ (psum ps k) _ (pow2_nz _) (psum_aligned _ _ _ _ (pv_nonincr _ _ _ _ _ _ _ V) E) Hin).
    remember (N.min (r_end r - r_next r) (2 ^ p - (r_next r - psum ps k))) as cl eqn:Ecl.
    assert (Hcl : 0 < cl /\ cl <= r_end r - r_next r /\ r_next r - psum ps k + cl <= 2 ^ p) by lia.
    destruct (IH {| r_obj := o; r_lpage_count := lc; r_tails := t; r_idx := N.of_nat k + 1;
                r_next := r_next r + cl; r_end := r_end r |}) as (outs & Eo & Hc & Hr).
    + cbn [r_end r_next]. lia.
    + repeat split; cbn [r_end r_next r_idx]; try lia. intros Hlt'.
      assert (r_next r + cl = psum ps k + 2 ^ p) as Enx by lia. rewrite Enx.
      apply (next_page_inv f spage lpage o ps lc t k a p (r_end r) V E); lia.
    + rewrite Eo. eexists. split; [reflexivity|]. cbn [r_next r_end] in *. split.
      * cbn [fmap list_fmap fst concat]. cbn [fmap] in Hc. rewrite Hc.
        rewrite (dev_read_slice _ _ _ _ _ _ _ E) by lia.
        replace (psum ps k + (r_next r - psum ps k)) with (r_next r) by lia.
        rewrite <- slice_app. f_equal. lia.
      * constructor; [|exact Hr]. exists a, p. split; [eapply elem_of_list_lookup_2; exact E|]. lia.
Qed.

Lemma floor_within a p spage x : a mod 2 ^ spage = 0 -> spage <= p -> a <= x -> a <= floor_pow2 x spage.
Proof.
  intros Ha Hp Hx. rewrite floor_pow2_spec. apply N.mod_divide in Ha as [q ->]; [|apply pow2_nz].
  apply N.mul_le_mono_r. apply le_div_mul; [apply pow2_nz|exact Hx].
Qed.

Lemma ceil_within b spage x : b mod 2 ^ spage = 0 -> x <= b -> ceil_pow2 x spage <= b.
Proof.
  intros Hb Hx. pose proof (ceil_pow2_lt x spage) as Hlt. pose proof (ceil_pow2_mult x spage) as Hm.
  apply N.mod_divide in Hb as [q ->]; [|apply pow2_nz]. apply N.mod_divide in Hm as [r Hr]; [|apply pow2_nz].
  rewrite Hr in *. apply N.mul_le_mono_r. pose proof (pow2_pos spage).
  assert (r * 2 ^ spage < (q + 1) * 2 ^ spage) by lia. apply N.mul_lt_mono_pos_r in H0; lia.
Qed.

Lemma direct_drain f spage lpage o ps lc t d sbs :
  pages_view f spage lpage o ps lc t -> (forall a p, (a, p) ∈ ps -> a mod 2 ^ spage = 0) -> 0 < sbs ->
  forall n r, (N.to_nat (r_end r - r_next r) <= n)%nat -> RInv ps o lc t r ->
  read_post d ps (r_next r) (r_end r) (drain (direct_read_step spage lpage sbs true true d) (S n) (RNext r)).
Proof.
  intros V Hal Hsbs n. induction n as [|n IH]; intros r Hn (Ho & Hlc & Ht & Hle & Hk).
  - assert (r_next r = r_end r) as E by lia. exists []. cbn [drain]. unfold direct_read_step.
    destruct (N.ltb_spec (r_next r) (r_end r)); [lia|]. cbn.
    split; [reflexivity|]. split; [|constructor]. rewrite E, N.sub_diag. reflexivity.
  - rewrite drain_S. unfold direct_read_step at 1.
    destruct (N.ltb_spec (r_next r) (r_end r)) as [Hlt|Hge]; cbn [negb].
    2:{ exists []. rewrite drain_done. split; [reflexivity|]. split; [|constructor].
        replace (r_end r - r_next r) with 0 by lia. reflexivity. }
    destruct (Hk Hlt) as (k & a & p & Ek & E & Hin). rewrite Ho, Hlc, Ht, Ek.
    rewrite (pv_page _ _ _ _ _ _ _ V k) by (eapply lookup_lt_Some; exact E). rewrite E.
    rewrite mod_pow2_spec, N.shiftl_1_l.
    rewrite (mod_within _ (psum ps k) _ (pow2_nz _) (psum_aligned _ _ _ _ (pv_nonincr _ _ _ _ _ _ _ V) E) Hin).
    remember (2 ^ p - (r_next r - psum ps k)) as rem eqn:Erem.
    remember (N.min (N.min sbs (r_end r - r_next r)) rem) as cl eqn:Ecl.
    assert (Hrem : psum ps k + 2 ^ p = r_next r + rem) by lia.
    assert (Hcl : 0 < cl /\ cl <= r_end r - r_next r /\ cl <= rem /\ r_next r - psum ps k + cl <= 2 ^ p) by lia.
    rewrite unaligned_read_spec by lia. rewrite dev_read_length, N2Nat.id, N.eqb_refl. cbn [negb].
    destruct (IH {| r_obj := o; r_lpage_count := lc; r_tails := t;
                r_idx := if cl =? rem then N.of_nat k + 1 else N.of_nat k;
                r_next := r_next r + cl; r_end := r_end r |}) as (outs & Eo & Hc & Hr).
    + cbn [r_end r_next]. lia.
    + repeat split; cbn [r_end r_next r_idx]; try lia. intros Hlt'.
      destruct (N.eqb_spec cl rem) as [Ecr|Ncr].
      * assert (r_next r + cl = psum ps k + 2 ^ p) as Enx by lia. rewrite Enx.
        apply (next_page_inv f spage lpage o ps lc t k a p (r_end r) V E); lia.
      * exists k, a, p. split; [reflexivity|]. split; [exact E|]. lia.
    + rewrite Eo. eexists. split; [reflexivity|]. cbn [r_next r_end] in *. split.
      * cbn [fmap list_fmap fst concat]. cbn [fmap] in Hc. rewrite Hc.
        rewrite (dev_read_slice _ _ _ _ _ _ _ E) by lia.
        replace (psum ps k + (r_next r - psum ps k)) with (r_next r) by lia.
        rewrite <- slice_app. f_equal. lia.
      * constructor; [|exact Hr]. exists a, p.
        pose proof (elem_of_list_lookup_2 _ _ _ E) as Hel. split; [exact Hel|].
        pose proof (pv_small _ _ _ _ _ _ _ V _ _ _ E) as Hps.
        pose proof (floor_within a p spage (a + (r_next r - psum ps k)) (Hal _ _ Hel) (proj1 Hps) ltac:(lia)) as Hf.
        pose proof (ceil_within (a + 2 ^ p) spage (a + (r_next r - psum ps k) + cl)) as Hcw.
        assert (ceil_pow2 (a + (r_next r - psum ps k) + cl) spage <= a + 2 ^ p) as Hc2.
        { apply Hcw; [|lia]. apply mod_add_0; [apply pow2_nz|exact (Hal _ _ Hel)|]. apply pow2_mod_pow2. lia. }
        split; [exact Hf|].
        pose proof (floor_pow2_le (a + (r_next r - psum ps k)) spage) as Hfl.
        pose proof (ceil_pow2_ge (a + (r_next r - psum ps k) + cl) spage) as Hcg.
        clear -Hf Hc2 Hcl Hfl Hcg. remember (a + (r_next r - psum ps k)) as xx. clear Heqxx.
        remember (floor_pow2 xx spage) as fl.
        remember (ceil_pow2 (xx + cl) spage) as ce. remember (2 ^ p) as P. clear -Hf Hc2 Hfl Hcg. lia.
Qed.

(** Where the loop starts. *)
Lemma skip_tails_spec tails b start i0 accum idx :
  accum = b -> b <= start < b + sum_pow2 tails ->
  exists j p, skip_tails start accum idx (zip (map N.of_nat (seq i0 (length tails))) tails) = idx + N.of_nat j /\
    tails !! j = Some p /\ b + sum_pow2 (take j tails) <= start < b + sum_pow2 (take j tails) + 2 ^ p.
Proof.
  revert b i0 accum idx. induction tails as [|p tails IH]; intros b i0 accum idx -> H; cbn [sum_pow2 foldr] in H; [lia|].
  fold (sum_pow2 tails) in H.
  cbn [length seq map].
  change (zip (N.of_nat i0 :: map N.of_nat (seq (S i0) (length tails))) (p :: tails)) with
    ((N.of_nat i0, p) :: zip (map N.of_nat (seq (S i0) (length tails))) tails).
  cbn [skip_tails]. rewrite N.shiftl_1_l.
  destruct (N.ltb_spec start (b + 2 ^ p)).
  - exists 0%nat, p. cbn. split; [lia|]. split; [reflexivity|]. lia.
  - destruct (IH (b + 2 ^ p) (S i0) (b + 2 ^ p) (idx + 1) eq_refl ltac:(lia)) as (j & q & Es & Ej & Hj).
    exists (S j), q. rewrite Es. split; [lia|]. split; [exact Ej|].
    cbn [take sum_pow2 foldr]. fold (sum_pow2 (take j tails)). lia.
Qed.

Lemma read_start_idx_spec f spage lpage o ps lc t start :
  pages_view f spage lpage o ps lc t -> start < o_size o ->
  o_size o / 2 ^ lpage < count_limit f ->
  exists k a p, read_start_idx f lpage lc t start = Some (N.of_nat k) /\ ps !! k = Some (a, p) /\
    psum ps k <= start < psum ps k + 2 ^ p.
Proof.
  intros V Hs Hlim. unfold read_start_idx. rewrite div_pow2_spec, N.shiftl_1_l.
  assert (Hle : start / 2 ^ lpage <= o_size o / 2 ^ lpage) by (apply N.div_le_mono; [apply pow2_nz|lia]).
  pose proof (N.div_mod start (2 ^ lpage) (pow2_nz _)) as Hdm.
  pose proof (N.mod_lt start (2 ^ lpage) (pow2_nz _)) as Hml.
  rewrite <- (pv_lc _ _ _ _ _ _ _ V) in Hle, Hlim.
  destruct (N.leb_spec (count_limit f) (start / 2 ^ lpage)); [lia|].
  remember (start / 2 ^ lpage) as q eqn:Eq. remember (start mod 2 ^ lpage) as rr eqn:Err.
  destruct (N.leb_spec lc q) as [Hq|Hq].
  - assert (q = lc) as -> by lia.
    destruct (pv_tails _ _ _ _ _ _ _ V) as (tails & Ht & Hlen & Eps).
    rewrite (tps_rep_collect _ _ Ht). cbn [mbind option_bind].
    pose proof (pv_lc_len _ _ _ _ _ _ _ V) as Hll.
    pose proof (pv_lc_sum _ _ _ _ _ _ _ V) as Hls.
    assert (Htot : psum ps (length ps) = lc * 2 ^ lpage + sum_pow2 tails).
    { unfold psum. rewrite take_ge by lia. rewrite Eps, fmap_app, sum_pow2_app, sum_pow2_const, <- Hll.
      f_equal. f_equal. apply snd_zip_len. exact Hlen. }
    pose proof (pv_total _ _ _ _ _ _ _ V) as Htt.
    destruct (skip_tails_spec tails (lc * 2 ^ lpage) start 0 (lc * 2 ^ lpage) lc eq_refl) as (j & p & Es & Ej & Hj).
    { rewrite (N.mul_comm lc). rewrite (N.mul_comm lc) in Htot. lia. }
    unfold enumerate. rewrite Es.
    assert (exists a, o_tails o !! j = Some a) as [a Ea].
    { apply lookup_lt_is_Some_2. rewrite Hlen. eapply lookup_lt_Some. exact Ej. }
    exists (length (o_lpages o) + j)%nat, a, p. split; [f_equal; lia|].
    assert (Hk : ps !! (length (o_lpages o) + j)%nat = Some (a, p)).
    { rewrite Eps. rewrite lookup_app_r; rewrite map_length; [|lia].
      replace (length (o_lpages o) + j - length (o_lpages o))%nat with j by lia.
      rewrite lookup_zip_with, Ea. cbn. rewrite Ej. reflexivity. }
    split; [exact Hk|].
    assert (psum ps (length (o_lpages o) + j) = lc * 2 ^ lpage + sum_pow2 (take j tails)) as ->; [|exact Hj].
    unfold psum. rewrite Eps. rewrite take_app_ge by (rewrite map_length; lia). rewrite map_length.
    replace (length (o_lpages o) + j - length (o_lpages o))%nat with j by lia.
    rewrite fmap_app, sum_pow2_app, sum_pow2_const, <- Hll. f_equal. f_equal.
    rewrite <- (snd_zip_len (o_tails o) tails Hlen) at 2.
    rewrite !fmap_take. reflexivity.
  - destruct (pv_lpages _ _ _ _ _ _ _ V (N.to_nat q)) as (a & Ea & _); [lia|].
    exists (N.to_nat q), a, lpage. split; [f_equal; lia|]. split; [exact Ea|].
    assert (psum ps (N.to_nat q) = q * 2 ^ lpage) as ->; [|rewrite (N.mul_comm q); lia].
    destruct (pv_tails _ _ _ _ _ _ _ V) as (tails & Ht & Hlen & Eps).
    pose proof (pv_lc_len _ _ _ _ _ _ _ V) as Hll.
    unfold psum. rewrite Eps. rewrite take_app_le by (rewrite map_length; lia).
    rewrite firstn_map. rewrite sum_pow2_const. rewrite take_length. f_equal. lia.
Qed.
