(** The allocator invariant over every history, and the property lemmas. *)
From stdpp Require Import gmap sets fin_sets.
From Coq Require Import ZifyBool ZifyNat ZifyN.
From Verif Require Import Util BuddyModel BuddySpec BuddyProofs.
Open Scope N_scope.
Ltac Zify.zify_post_hook ::= idtac.

(** * Free bytes *)
Lemma fbf_app p l1 l2 :
  free_bytes_from p (l1 ++ l2) =
  free_bytes_from p l1 + free_bytes_from (p + N.of_nat (length l1)) l2.
Proof.
  revert p. induction l1 as [|b l1 IH]; intros p; cbn [app free_bytes_from length].
  - rewrite N.add_0_r. lia.
  - rewrite IH. replace (p + 1 + N.of_nat (length l1)) with (p + N.of_nat (S (length l1))) by lia. lia.
Qed.

Lemma size_remove (b : bitmap) n : n ∈ b -> N.of_nat (size b) = N.of_nat (size (b ∖ {[n]})) + 1.
Proof.
  intros H. rewrite size_difference by set_solver. rewrite size_singleton.
  assert (size b <> 0%nat) by (apply size_non_empty_iff; set_solver). lia.
Qed.
Lemma size_insert (b : bitmap) n : n ∉ b -> N.of_nat (size ({[n]} ∪ b)) = N.of_nat (size b) + 1.
Proof. intros H. rewrite size_union by set_solver. rewrite size_singleton. lia. Qed.

Lemma alloc_from_bytes dir l n l' p :
  alloc_from dir l = Ok (n, l') -> free_bytes_from p l = free_bytes_from p l' + 2 ^ p.
Proof.
  revert n l' p. induction l as [|b rest IH]; intros n l' p; cbn [alloc_from]; [discriminate|].
  destruct (pick dir b) as [m|] eqn:Hp.
  - intros H. inversion H; subst n l'; clear H. cbn [free_bytes_from].
    rewrite (size_remove b m) by now apply pick_some in Hp. lia.
  - apply pick_none in Hp. subst b. destruct rest as [|b2 rest2]; [discriminate|].
    destruct (alloc_from dir (b2 :: rest2)) as [[larger rest']| |] eqn:Ha; try discriminate.
    specialize (IH _ _ (p + 1) eq_refl). intros H.
    assert (Hg : forall x : N, free_bytes_from p (∅ :: b2 :: rest2) =
       free_bytes_from p ({[x]} ∪ ∅ :: rest') + 2 ^ p).
    { intros x. cbn [free_bytes_from] in *. rewrite size_insert by set_solver.
      rewrite size_empty. rewrite IH, N.add_1_r, N.pow_succ_r'. lia. }
    destruct dir; case_bool_decide as Hcb; try discriminate; inversion H; subst; apply Hg.
Qed.

Lemma mark_from_bytes l n l' p :
  mark_from l n = Some l' -> (forall u, cov l u <= 1)%nat ->
  free_bytes_from p l = free_bytes_from p l' + 2 ^ p.
Proof.
  revert n l' p. induction l as [|b rest IH]; intros n l' p; cbn [mark_from]; [discriminate|].
  case_bool_decide as Hn.
  - intros H _. inversion H; subst l'. cbn [free_bytes_from]. rewrite (size_remove b n) by done. lia.
  - destruct (mark_from rest (n / 2)) as [rest'|] eqn:Hm; [|discriminate].
    intros H Hle. inversion H; subst l'; clear H.
    assert (Hle' : forall u, (cov rest u <= 1)%nat).
    { intros u. specialize (Hle (2 * u)). rewrite cov_cons in Hle.
      replace (2 * u / 2) with u in Hle by lia. lia. }
    specialize (IH _ _ (p + 1) Hm Hle').
    apply mark_from_cov in Hm as [_ Hcov]; [|exact Hle'].
    assert (Hx : N.lxor n 1 ∉ b).
    { intros Hx. specialize (Hle (N.lxor n 1)). rewrite cov_cons, lxor1_half in Hle.
      rewrite one_true in Hle by done. specialize (Hcov (n / 2)).
      rewrite one_true in Hcov by done. lia. }
    cbn [free_bytes_from]. rewrite size_insert by done. rewrite IH, N.add_1_r, N.pow_succ_r'. lia.
Qed.

Lemma release_from_bytes l n l' p :
  release_from l n = Some l' -> free_bytes_from p l' = free_bytes_from p l + 2 ^ p.
Proof.
  revert n l' p. induction l as [|b rest IH]; intros n l' p; cbn [release_from]; [discriminate|].
  intros H.
  assert (Hg : n ∉ b -> free_bytes_from p ({[n]} ∪ b :: rest) = free_bytes_from p (b :: rest) + 2 ^ p).
  { intros Hn. cbn [free_bytes_from]. rewrite size_insert by done. lia. }
  destruct rest as [|b2 rest2].
  { case_bool_decide as Hcb; [discriminate|]. inversion H; subst l'. now apply Hg. }
  case_bool_decide as Hb.
  - case_bool_decide as Hcb; [discriminate|].
    destruct (release_from (b2 :: rest2) (n / 2)) as [rest'|] eqn:Hr; [|discriminate].
    inversion H; subst l'; clear H. specialize (IH _ _ (p + 1) Hr).
    cbn [free_bytes_from] in *. rewrite (size_remove b (N.lxor n 1)) by done.
    rewrite IH, N.add_1_r, N.pow_succ_r'. lia.
  - case_bool_decide as Hcb; [discriminate|]. inversion H; subst l'. now apply Hg.
Qed.

(** * Live pages *)
Definition pcov (base spage : N) (p : page) (u : N) : nat :=
  one (u / 2 ^ (snd p - spage) = (fst p - base) / 2 ^ snd p).

Fixpoint cnt (base spage : N) (live : list page) (u : N) : nat :=
  match live with
  | [] => 0
  | p :: live => (pcov base spage p u + cnt base spage live u)%nat
  end.

Lemma cnt_app base spage l1 l2 u :
  cnt base spage (l1 ++ l2) u = (cnt base spage l1 u + cnt base spage l2 u)%nat.
Proof. induction l1 as [|p l1 IH]; cbn [app cnt]; [reflexivity|]. rewrite IH. lia. Qed.

Definition page_wf (base spage lpage : N) (p : page) : Prop :=
  spage <= snd p <= lpage /\ base <= fst p /\ (fst p - base) mod 2 ^ snd p = 0.

Record Inv (base heap spage lpage lim : N) (dir : AllocDir) (a : Allocator)
           (live : list page) (failed : N) : Prop := {
  inv_base : a_base a = base;
  inv_dir : a_dir a = dir;
  inv_sp : a_spage_pow2 a = spage;
  inv_lp : a_lpage_pow2 a = lpage;
  inv_lim : a_pn_limit a = lim;
  inv_sl : spage <= lpage;
  inv_heap : heap mod 2 ^ lpage = 0;
  inv_balign : base mod 2 ^ lpage = 0;
  inv_fit : forall p, spage <= p <= lpage -> heap / 2 ^ p < lim;
  inv_len : N.of_nat (length (a_free a)) = lpage + 1 - spage;
  inv_cov : forall u, (cov (a_free a) u + cnt base spage live u)%nat = one (u < heap / 2 ^ spage);
  inv_nb : nb (a_free a);
  inv_live : forall p, p ∈ live -> page_wf base spage lpage p;
  inv_metric : a_allocated_bytes a = Z.of_N (total_bytes live + failed);
  inv_bytes : free_bytes a + total_bytes live = heap;
}.

Arguments inv_base {_ _ _ _ _ _ _ _ _}.
Arguments inv_dir {_ _ _ _ _ _ _ _ _}.
Arguments inv_sp {_ _ _ _ _ _ _ _ _}.
Arguments inv_lp {_ _ _ _ _ _ _ _ _}.
Arguments inv_lim {_ _ _ _ _ _ _ _ _}.
Arguments inv_sl {_ _ _ _ _ _ _ _ _}.
Arguments inv_heap {_ _ _ _ _ _ _ _ _}.
Arguments inv_balign {_ _ _ _ _ _ _ _ _}.
Arguments inv_fit {_ _ _ _ _ _ _ _ _}.
Arguments inv_len {_ _ _ _ _ _ _ _ _}.
Arguments inv_cov {_ _ _ _ _ _ _ _ _}.
Arguments inv_nb {_ _ _ _ _ _ _ _ _}.
Arguments inv_live {_ _ _ _ _ _ _ _ _}.
Arguments inv_metric {_ _ _ _ _ _ _ _ _}.
Arguments inv_bytes {_ _ _ _ _ _ _ _ _}.

(** Bring only the linear facts into the context. *)
Ltac open_inv HI :=
  pose proof (inv_base HI) as Hbase; pose proof (inv_dir HI) as Hdir;
  pose proof (inv_sp HI) as Hsp; pose proof (inv_lp HI) as Hlp;
  pose proof (inv_lim HI) as Hlim; pose proof (inv_sl HI) as Hsl;
  pose proof (inv_len HI) as Hlen.

Lemma div_div_pow2 x s p : s <= p -> x / 2 ^ s / 2 ^ (p - s) = x / 2 ^ p.
Proof.
  intros H. rewrite N.div_div by apply pow2_nz. rewrite <- N.pow_add_r.
  do 2 f_equal. lia.
Qed.

Lemma mod_pow2_le x s p : s <= p -> x mod 2 ^ p = 0 -> x mod 2 ^ s = 0.
Proof.
  intros Hle H. apply N.mod_divide in H as [k ->]; [|apply pow2_nz].
  apply N.mod_divide; [apply pow2_nz|]. exists (k * 2 ^ (p - s)).
  rewrite <- N.mul_assoc, <- N.pow_add_r. do 2 f_equal. lia.
Qed.

(** Bytes of a page in terms of units. *)
Lemma page_bytes_units base spage lpage p b :
  page_wf base spage lpage p ->
  (page_bytes p b <->
   base <= b /\ (b - base) / 2 ^ spage / 2 ^ (snd p - spage) = (fst p - base) / 2 ^ snd p).
Proof.
  destruct p as [off p]. unfold page_wf, page_bytes. cbn [fst snd].
  intros ((Hs & Hl) & Hb & Hm). rewrite div_div_pow2 by done.
  pose proof (pow2_nz p) as Hp.
  pose proof (N.div_mod (off - base) (2 ^ p) Hp) as Ho.
  pose proof (N.div_mod (b - base) (2 ^ p) Hp) as Hbb.
  pose proof (N.mod_lt (b - base) (2 ^ p) Hp) as Hlt.
  rewrite Hm in Ho.
  remember ((off - base) / 2 ^ p) as q1. remember ((b - base) / 2 ^ p) as q2.
  remember (2 ^ p) as P. remember ((b - base) mod P) as r.
  split.
  - intros [H1 H2]. split; [lia|]. assert (P * q2 + r >= P * q1) by lia.
    assert (P * q2 + r < P * q1 + P) by lia. nia.
  - intros [H1 H2]. subst q2. lia.
Qed.

Lemma unit_byte base spage u : (base + u * 2 ^ spage - base) / 2 ^ spage = u.
Proof. replace (base + u * 2 ^ spage - base) with (u * 2 ^ spage) by lia. apply N.div_mul, pow2_nz. Qed.

(** ** new *)
Lemma seqN_length s n : length (seqN s n) = N.to_nat n.
Proof. unfold seqN. rewrite map_length, seq_length. reflexivity. Qed.
Lemma elem_of_seqN s n x : In x (seqN s n) <-> s <= x < s + n.
Proof.
  unfold seqN. rewrite in_map_iff. split.
  - intros (k & <- & Hk). apply in_seq in Hk. lia.
  - intros H. exists (N.to_nat (x - s)). split; [lia|]. apply in_seq. lia.
Qed.
Lemma seqN_snoc s n : seqN s (n + 1) = seqN s n ++ [s + n].
Proof.
  unfold seqN. replace (N.to_nat (n + 1)) with (N.to_nat n + 1)%nat by lia.
  rewrite seq_app, map_app. cbn [seq map Nat.add]. rewrite N2Nat.id. reflexivity.
Qed.

Lemma full_bitmap_spec c n : n ∈ full_bitmap c <-> n < c.
Proof.
  unfold full_bitmap. rewrite elem_of_list_to_set, elem_of_list_In, elem_of_seqN. lia.
Qed.
Lemma full_bitmap_size c : N.of_nat (size (full_bitmap c)) = c.
Proof.
  unfold full_bitmap. rewrite size_list_to_set.
  - rewrite seqN_length. lia.
  - unfold seqN. apply NoDup_ListNoDup. apply FinFun.Injective_map_NoDup.
    + intros x y. lia.
    + apply seq_NoDup.
Qed.

Lemma new_free_shape heap spage lpage : spage <= lpage ->
  map (fun sz => if sz =? lpage then full_bitmap (div_pow2 heap sz) else ∅)
      (seqN spage (lpage + 1 - spage)) =
  replicate (N.to_nat (lpage - spage)) ∅ ++ [full_bitmap (heap / 2 ^ lpage)].
Proof.
  intros Hsl. replace (lpage + 1 - spage) with (lpage - spage + 1) by lia.
  rewrite seqN_snoc, map_app. cbn [map].
  replace (spage + (lpage - spage)) with lpage by lia. rewrite N.eqb_refl, div_pow2_spec.
  f_equal. rewrite <- (seqN_length spage (lpage - spage)).
  assert (H : forall x, In x (seqN spage (lpage - spage)) -> x < lpage)
    by (intros x Hx; apply elem_of_seqN in Hx; lia).
  induction (seqN spage (lpage - spage)) as [|x xs IH]; [reflexivity|].
  cbn [map length replicate]. f_equal.
  - specialize (H x (or_introl eq_refl)). destruct (N.eqb_spec x lpage); [lia|reflexivity].
  - apply IH. intros y Hy. apply H. now right.
Qed.

Lemma cov_replicate n l u : cov (replicate n ∅ ++ l) u = cov l (u / 2 ^ N.of_nat n).
Proof.
  rewrite cov_app. rewrite replicate_length.
  assert (E : cov (replicate n ∅) u = 0%nat).
  { revert u. induction n as [|n IH]; intros u; [reflexivity|].
    cbn [replicate]. rewrite cov_cons, IH. rewrite one_false by set_solver. reflexivity. }
  rewrite E. reflexivity.
Qed.

Lemma nb_replicate n b : nb (replicate n ∅ ++ [b]).
Proof.
  induction n as [|n IH]; cbn [replicate app nb].
  - split; [congruence|exact I].
  - split; [set_solver|exact IH].
Qed.

Lemma new_inv base heap spage lpage lim dir a :
  spage <= lpage -> allocator_new base heap spage lpage lim dir = Ok a ->
  Inv base heap spage lpage lim dir a [] 0.
Proof.
  intros Hsl. unfold allocator_new. rewrite !mod_pow2_spec.
  destruct (N.eqb_spec (base mod 2 ^ lpage) 0) as [Hb|]; cbn [negb]; [|discriminate].
  destruct (N.eqb_spec (heap mod 2 ^ lpage) 0) as [Hh|]; cbn [negb]; [|discriminate].
  destruct (forallb _ _) eqn:Hf; [|discriminate].
  intros H. injection H as <-. rewrite new_free_shape by done.
  remember (N.to_nat (lpage - spage)) as k eqn:Ek.
  split; cbn [a_base a_dir a_spage_pow2 a_lpage_pow2 a_pn_limit a_free a_allocated_bytes]; try apply HI; auto.
  - intros p Hp. rewrite forallb_forall in Hf. specialize (Hf p).
    rewrite elem_of_seqN, div_pow2_spec in Hf.
    apply N.ltb_lt, Hf. clear -Hp Hsl. lia.
  - rewrite app_length, replicate_length. cbn [length]. lia.
  - intros u. cbn [cnt]. rewrite cov_replicate, cov_cons. cbn [cov].
    rewrite !Nat.add_0_r. apply one_iff. rewrite full_bitmap_spec.
    replace (N.of_nat k) with (lpage - spage) by lia.
    assert (Hu : heap / 2 ^ spage = heap / 2 ^ lpage * 2 ^ (lpage - spage)).
    { apply N.mod_divide in Hh as [q ->]; [|apply pow2_nz].
      rewrite N.div_mul by apply pow2_nz.
      replace (2 ^ lpage) with (2 ^ (lpage - spage) * 2 ^ spage)
        by (rewrite <- N.pow_add_r; f_equal; lia).
      rewrite N.mul_assoc. apply N.div_mul, pow2_nz. }
    rewrite Hu. apply div_lt_mul, pow2_nz.
  - apply nb_replicate.
  - intros p Hp. inversion Hp.
  - unfold free_bytes. cbn [a_spage_pow2 a_free total_bytes].
    rewrite fbf_app, replicate_length.
    assert (E : forall p, free_bytes_from p (replicate k ∅) = 0).
    { clear. induction k as [|k IH]; intros p; cbn [replicate free_bytes_from]; [reflexivity|].
      rewrite IH, size_empty. lia. }
    rewrite E. cbn [free_bytes_from]. rewrite full_bitmap_size.
    replace (spage + N.of_nat k) with lpage by (clear -Ek Hsl; lia).
    pose proof (N.div_mod heap (2 ^ lpage) (pow2_nz _)) as Hd. rewrite Hh in Hd. clear -Hd. lia.
Qed.

Section steps.
Context (base heap spage lpage lim : N) (dir : AllocDir).
Local Notation inv := (Inv base heap spage lpage lim dir).

Lemma inv_cov_le a live f u : inv a live f -> (cov (a_free a) u <= 1)%nat.
Proof. intros H. pose proof (inv_cov H u). pose proof (one_le (u < heap / 2 ^ spage)). lia. Qed.

Lemma cov_drop_le l i : (forall u, cov l u <= 1)%nat -> (forall u, cov (drop i l) u <= 1)%nat.
Proof.
  intros H u. destruct (le_lt_dec (length l) i) as [Hi|Hi].
  { rewrite drop_ge by done. cbn. slia. }
  specialize (H (u * 2 ^ N.of_nat i)). rewrite <- (take_drop i l), cov_app in H.
  rewrite take_length, Nat.min_l in H by slia. rewrite N.div_mul in H by apply pow2_nz. lia.
Qed.

Lemma class_idx_ok a p : a_spage_pow2 a = spage -> a_lpage_pow2 a = lpage ->
  spage <= p <= lpage -> class_idx a p = Ok (N.to_nat (p - spage)).
Proof.
  intros Es El Hp. unfold class_idx. rewrite Es, El.
  destruct (N.leb_spec spage p); [|slia]. destruct (N.leb_spec p lpage); [reflexivity|slia].
Qed.

Lemma alloc_pow2_fits size : fits_exactly spage size (alloc_pow2 spage size).
Proof.
  unfold fits_exactly, alloc_pow2. destruct (N.eq_dec size 0) as [->|Hz].
  { rewrite N.log2_up_nonpos by slia. split; [slia|]. split; [apply N.le_0_l|]. slia. }
  split; [slia|]. split.
  - apply N.log2_up_le_pow2; slia.
  - intros q Hq Hs. apply N.log2_up_le_pow2 in Hs; slia.
Qed.

Lemma fits_unique size p : fits_exactly spage size p -> p = alloc_pow2 spage size.
Proof.
  intros (H1 & H2 & H3). destruct (alloc_pow2_fits size) as (G1 & G2 & G3).
  pose proof (H3 _ G1 G2). pose proof (G3 _ H1 H2). slia.
Qed.

(** Changing one class page: bookkeeping shared by the three operations. *)
Lemma fbytes_split i l l' : (i < length l)%nat -> length l' = length (drop i l) ->
  forall d, free_bytes_from (spage + N.of_nat i) (drop i l) + d = free_bytes_from (spage + N.of_nat i) l' ->
  free_bytes_from spage l + d = free_bytes_from spage (take i l ++ l').
Proof.
  intros Hi Hl d Hd. rewrite <- (take_drop i l) at 1. rewrite !fbf_app, take_length, Nat.min_l by slia. slia.
Qed.
Lemma fbytes_split2 i l l' : (i < length l)%nat -> length l' = length (drop i l) ->
  forall d, free_bytes_from (spage + N.of_nat i) (drop i l) = free_bytes_from (spage + N.of_nat i) l' + d ->
  free_bytes_from spage l = free_bytes_from spage (take i l ++ l') + d.
Proof.
  intros Hi Hl d Hd. rewrite <- (take_drop i l) at 1. rewrite !fbf_app, take_length, Nat.min_l by slia. slia.
Qed.

Lemma allocate_inv a live f size a' off :
  inv a live f -> allocate a size = (a', Ok off) ->
  inv a' ((off, alloc_pow2 spage size) :: live) f.
Proof.
  intros HI. open_inv HI.
  unfold allocate. rewrite Hsp, Hlp. assert (Hp1 : spage <= alloc_pow2 spage size) by apply alloc_pow2_fits.
  remember (alloc_pow2 spage size) as p eqn:Ep.
  destruct (N.leb_spec p lpage) as [Hp2|]; cbn [negb]; [|discriminate].
  rewrite (class_idx_ok _ p) by (cbn [add_allocated a_spage_pow2 a_lpage_pow2]; auto).
  remember (N.to_nat (p - spage)) as i eqn:Ei.
  cbn [add_allocated a_free a_dir].
  destruct (alloc_from (a_dir a) (drop i (a_free a))) as [[n l]| |] eqn:Ha; try discriminate.
  intros H. inversion H; subst a' off; clear H.
  assert (Hi : (i < length (a_free a))%nat) by slia.
  destruct (alloc_from_cov _ _ _ _ Ha) as [Hl Hc].
  pose proof (alloc_from_nb _ _ _ _ Ha (nb_drop _ i (inv_nb HI))) as Hn.
  assert (Hdne : drop i (a_free a) <> []).
  { intros E. apply (f_equal length) in E. rewrite drop_length in E. cbn in E. slia. }
  split; cbn [set_free add_allocated a_base a_dir a_spage_pow2 a_lpage_pow2 a_pn_limit a_free
    a_allocated_bytes]; try apply HI; auto.
  - rewrite app_length, take_length, Hl, drop_length. slia.
  - intros u. rewrite <- (inv_cov HI). rewrite <- (take_drop i (a_free a)) at 2.
    rewrite !cov_app, take_length, Nat.min_l by slia.
    rewrite Hc. cbn [cnt]. unfold pcov. cbn [fst snd].
    unfold to_page_dev_offset. cbn [a_base add_allocated]. rewrite Hbase, mul_pow2_spec.
    rewrite N.add_sub, N.div_mul by apply pow2_nz.
    replace (N.of_nat i) with (p - spage) by slia. slia.
  - eapply nb_app; [exact Hdne| |exact Hn]. rewrite take_drop. apply (inv_nb HI).
  - intros q Hq. apply elem_of_cons in Hq as [->|Hq]; [|exact (inv_live HI _ Hq)].
    unfold page_wf, to_page_dev_offset. cbn [fst snd a_base add_allocated]. rewrite Hbase, mul_pow2_spec.
    rewrite N.add_sub. split; [slia|]. split; [slia|]. apply N.mod_mul, pow2_nz.
  - rewrite (inv_metric HI). cbn [total_bytes snd]. slia.
  - pose proof (inv_bytes HI) as Hby. unfold free_bytes in *. cbn [set_free add_allocated a_spage_pow2 a_free total_bytes snd]. rewrite Hsp in *.
    pose proof (alloc_from_bytes _ _ _ _ (spage + N.of_nat i) Ha) as Hb.
    apply fbytes_split2 in Hb; [|done|done].
    replace (spage + N.of_nat i) with p in Hb by slia.
 lia.
Qed.

Lemma allocate_failed_inv a live f size a' :
  inv a live f -> allocate a size = (a', OutOfSpace) ->
  inv a' live (f + 2 ^ alloc_pow2 spage size) /\ a_free a' = a_free a.
Proof.
  intros HI. open_inv HI.
  unfold allocate. rewrite Hsp, Hlp. assert (Hp1 : spage <= alloc_pow2 spage size) by apply alloc_pow2_fits.
  remember (alloc_pow2 spage size) as p eqn:Ep.
  destruct (N.leb_spec p lpage) as [Hp2|]; cbn [negb]; [|discriminate].
  rewrite (class_idx_ok _ p) by (cbn [add_allocated a_spage_pow2 a_lpage_pow2]; auto).
  destruct (alloc_from _ _) as [[n l]| |] eqn:Ha; try discriminate.
  intros H. inversion H; subst a'; clear H. split; [|reflexivity].
  split; cbn [set_free add_allocated a_base a_dir a_spage_pow2 a_lpage_pow2 a_pn_limit a_free
    a_allocated_bytes]; try apply HI; auto. rewrite (inv_metric HI). slia.
Qed.

Lemma allocate_total a live f size : inv a live f -> alloc_pow2 spage size <= lpage ->
  forall a', allocate a size <> (a', Panic).
Proof.
  intros HI Hp2 a'. open_inv HI.
  unfold allocate. rewrite Hsp, Hlp. assert (Hp1 : spage <= alloc_pow2 spage size) by apply alloc_pow2_fits.
  remember (alloc_pow2 spage size) as p eqn:Ep.
  destruct (N.leb_spec p lpage) as [_|]; cbn [negb]; [|slia].
  rewrite (class_idx_ok _ p) by (cbn [add_allocated a_spage_pow2 a_lpage_pow2]; auto).
  cbn [add_allocated a_free a_dir].
  destruct (alloc_from _ _) as [[n l]| |] eqn:Ha; try discriminate.
  exfalso. revert Ha. apply alloc_from_not_panic.
  intros E. apply (f_equal length) in E. rewrite drop_length in E. cbn in E. slia.
Qed.

(** A page all of whose units are covered by [live] members lies in the heap. *)
Lemma unit_in_heap a live f p u :
  inv a live f -> p ∈ live -> u / 2 ^ (snd p - spage) = (fst p - base) / 2 ^ snd p ->
  u < heap / 2 ^ spage.
Proof.
  intros HI Hp Hu. pose proof (inv_cov HI u) as Hc.
  assert (1 <= cnt base spage live u)%nat.
  { apply elem_of_list_split in Hp as (l1 & l2 & ->). rewrite cnt_app. cbn [cnt].
    unfold pcov. rewrite one_true by done. slia. }
  ones; lia.
Qed.

Lemma heap_units : spage <= lpage -> heap mod 2 ^ lpage = 0 -> heap = heap / 2 ^ spage * 2 ^ spage.
Proof.
  intros Hsl Hh. apply (mod_pow2_le _ spage) in Hh; [|done].
  pose proof (N.div_mod heap (2 ^ spage) (pow2_nz _)). lia.
Qed.

Lemma live_well_placed a live f p : inv a live f -> p ∈ live -> well_placed base heap spage lpage p.
Proof.
  intros HI Hp. pose proof (inv_live HI p Hp) as Hw.
  pose proof Hw as ((Hs & Hl) & Hb & Hm). split; [done|]. split.
  - pose proof (inv_balign HI) as Hba. apply (mod_pow2_le _ (snd p)) in Hba; [|done].
    replace (fst p) with (base + (fst p - base)) by (clear -Hb; slia).
    now apply mod_add_0; [apply pow2_nz| |].
  - intros b Hbb. apply (page_bytes_units base spage lpage) in Hbb as [H1 H2]; [|done].
    pose proof (unit_in_heap _ _ _ _ _ HI Hp H2) as Hu.
    pose proof (heap_units (inv_sl HI) (inv_heap HI)) as Hh.
    split; [done|].
    apply div_lt_mul in Hu; [|apply pow2_nz]. rewrite <- Hh in Hu. clear -H1 Hu. slia.
Qed.

Lemma live_page_num a live f p : inv a live f -> p ∈ live ->
  to_page_num a (fst p) (snd p) = Ok ((fst p - base) / 2 ^ snd p).
Proof.
  intros HI Hp. pose proof (live_well_placed _ _ _ _ HI Hp) as (Hsl & _ & Hin).
  pose proof (inv_live HI p Hp) as (_ & Hb & Hm).
  unfold to_page_num. rewrite (inv_base HI), (inv_lim HI), div_pow2_spec.
  destruct (N.ltb_spec (fst p) base); [slia|].
  pose proof (inv_fit HI (snd p) Hsl) as Hfit.
  pose proof (pow2_pos (snd p)) as Hpos.
  assert (Hx : (fst p - base) / 2 ^ snd p <= heap / 2 ^ snd p).
  { apply N.div_le_mono; [apply pow2_nz|].
    destruct (Hin (fst p)) as [? ?]; [unfold page_bytes; slia|]. slia. }
  destruct (N.ltb_spec ((fst p - base) / 2 ^ snd p) lim); [reflexivity|lia].
Qed.

Lemma release_inv a l1 l2 f off p :
  inv a (l1 ++ (off, p) :: l2) f -> exists a', release a off p = Ok a' /\ inv a' (l1 ++ l2) f.
Proof.
  intros HI. open_inv HI.
  assert (Hin : (off, p) ∈ l1 ++ (off, p) :: l2) by set_solver.
  pose proof (live_page_num _ _ _ _ HI Hin) as Hpn. cbn [fst snd] in Hpn.
  pose proof (inv_live HI _ Hin) as Hw. destruct Hw as ((Hs & Hl) & Hb & Hm). cbn [fst snd] in *.
  unfold release. rewrite Hpn. rewrite (class_idx_ok a p) by (auto; slia).
  remember (N.to_nat (p - spage)) as i eqn:Ei. remember ((off - base) / 2 ^ p) as n eqn:En.
  assert (Hi : (i < length (a_free a))%nat) by slia.
  assert (Hdne : drop i (a_free a) <> []).
  { intros E. apply (f_equal length) in E. rewrite drop_length in E. cbn in E. slia. }
  assert (Hle : forall u, (cov (a_free a) u <= 1)%nat) by (intros u; eapply inv_cov_le, HI).
  assert (H0 : cov (drop i (a_free a)) n = 0%nat).
  { pose proof (inv_cov HI (n * 2 ^ N.of_nat i)) as Hcov.
    rewrite <- (take_drop i (a_free a)), cov_app, take_length, Nat.min_l in Hcov by slia.
    rewrite N.div_mul in Hcov by apply pow2_nz.
    rewrite cnt_app in Hcov. cbn [cnt] in Hcov. unfold pcov in Hcov. cbn [fst snd] in Hcov.
    replace (N.of_nat i) with (p - spage) in Hcov by slia.
    rewrite N.div_mul in Hcov by apply pow2_nz. rewrite <- ?En in Hcov.
    rewrite (one_true (n = n)) in Hcov by done.
    match type of Hcov with _ = one ?P => pose proof (one_le P) end. lia. }
  destruct (release_from_some _ _ Hdne (cov_drop_le _ i Hle) H0) as (l & Hr & Hlen' & Hc).
  rewrite Hr. eexists. split; [reflexivity|].
  assert (Htb : total_bytes (l1 ++ (off, p) :: l2) = total_bytes (l1 ++ l2) + 2 ^ p).
  { clear. induction l1 as [|q l1 IH]; cbn [app total_bytes snd]; lia. }
  split; cbn [set_free add_allocated a_base a_dir a_spage_pow2 a_lpage_pow2 a_pn_limit a_free
    a_allocated_bytes]; try apply HI; auto.
  - rewrite app_length, take_length, Hlen', drop_length. slia.
  - intros u. rewrite <- (inv_cov HI). rewrite <- (take_drop i (a_free a)) at 2.
    rewrite !cov_app, take_length, Nat.min_l by slia.
    rewrite Hc, !cnt_app. cbn [cnt]. unfold pcov. cbn [fst snd]. rewrite <- ?En.
    replace (N.of_nat i) with (p - spage) by slia. slia.
  - eapply nb_app; [exact Hdne| |].
    + rewrite take_drop. apply (inv_nb HI).
    + eapply release_from_nb; [exact Hr|]. apply nb_drop, (inv_nb HI).
  - intros q Hq. apply (inv_live HI). set_solver.
  - rewrite (inv_metric HI), Htb. slia.
  - pose proof (inv_bytes HI) as Hby. unfold free_bytes in *. cbn [set_free add_allocated a_spage_pow2 a_free]. rewrite Hsp in *.
    pose proof (release_from_bytes _ _ _ (spage + N.of_nat i) Hr) as Hbb.
    symmetry in Hbb. apply fbytes_split in Hbb; [|done|done].
    replace (spage + N.of_nat i) with p in Hbb by slia. rewrite Htb in Hby. lia.
Qed.

Lemma mark_inv a live f off p a' :
  inv a live f -> mark_as_allocated a off p = Ok a' -> inv a' ((off, p) :: live) f.
Proof.
  intros HI. open_inv HI.
  unfold mark_as_allocated, to_page_num, class_idx.
  rewrite mod_pow2_spec, div_pow2_spec, Hsp, Hlp, Hbase, Hlim.
  destruct (N.eqb_spec (off mod 2 ^ p) 0) as [Hm|]; cbn [negb]; [|discriminate].
  destruct (N.ltb_spec off base) as [|Hb]; [discriminate|].
  destruct (N.ltb_spec ((off - base) / 2 ^ p) lim) as [Hn|]; [|discriminate].
  destruct (N.leb_spec spage p) as [Hs|]; cbn [andb]; [|discriminate].
  destruct (N.leb_spec p lpage) as [Hl|]; [|discriminate].
  remember (N.to_nat (p - spage)) as i eqn:Ei. remember ((off - base) / 2 ^ p) as n eqn:En.
  destruct (mark_from (drop i (a_free a)) n) as [l|] eqn:Hmk; [|discriminate].
  intros H. inversion H; subst a'; clear H.
  assert (Hi : (i < length (a_free a))%nat) by slia.
  assert (Hdne : drop i (a_free a) <> []).
  { intros E. apply (f_equal length) in E. rewrite drop_length in E. cbn in E. slia. }
  assert (Hle : forall u, (cov (a_free a) u <= 1)%nat) by (intros u; eapply inv_cov_le, HI).
  destruct (mark_from_cov _ _ _ Hmk (cov_drop_le _ i Hle)) as [Hlen' Hc].
  split; cbn [set_free add_allocated a_base a_dir a_spage_pow2 a_lpage_pow2 a_pn_limit a_free
    a_allocated_bytes]; try apply HI; auto.
  - rewrite app_length, take_length, Hlen', drop_length. slia.
  - intros u. rewrite <- (inv_cov HI). rewrite <- (take_drop i (a_free a)) at 2.
    rewrite !cov_app, take_length, Nat.min_l by slia.
    rewrite Hc. cbn [cnt]. unfold pcov. cbn [fst snd]. rewrite <- ?En.
    replace (N.of_nat i) with (p - spage) by slia. slia.
  - eapply nb_app; [exact Hdne| |].
    + rewrite take_drop. apply (inv_nb HI).
    + eapply mark_from_nb; [exact Hmk|]. apply nb_drop, (inv_nb HI).
  - intros q Hq. apply elem_of_cons in Hq as [->|Hq]; [|exact (inv_live HI _ Hq)].
    unfold page_wf. cbn [fst snd]. split; [slia|]. split; [slia|].
    pose proof (inv_balign HI) as Hba. apply (mod_pow2_le _ p) in Hba; [|done].
    now apply mod_sub_0; [apply pow2_nz| |].
  - rewrite (inv_metric HI). cbn [total_bytes snd]. slia.
  - pose proof (inv_bytes HI) as Hby. unfold free_bytes in *. cbn [set_free add_allocated a_spage_pow2 a_free total_bytes snd]. rewrite Hsp in *.
    pose proof (mark_from_bytes _ _ _ (spage + N.of_nat i) Hmk (cov_drop_le _ i Hle)) as Hbb.
    apply fbytes_split2 in Hbb; [|done|done].
    replace (spage + N.of_nat i) with p in Hbb by slia. lia.
Qed.

(** Marking succeeds on a well-placed page disjoint from the live ones. *)
Lemma mark_ok a live f off p :
  inv a live f -> well_placed base heap spage lpage (off, p) ->
  (forall q, q ∈ live -> pages_disjoint (off, p) q) ->
  exists a', mark_as_allocated a off p = Ok a'.
Proof.
  intros HI (Hsl' & Hal & Hin) Hdis.
  open_inv HI.
  cbn [fst snd] in *. pose proof (pow2_pos p) as Hpos.
  destruct (Hin off) as [Hb1 Hb2]; [unfold page_bytes; cbn [fst snd]; slia|].
  assert (Hw : page_wf base spage lpage (off, p)).
  { unfold page_wf. cbn [fst snd]. split; [slia|]. split; [slia|].
    pose proof (inv_balign HI) as Hba. apply (mod_pow2_le _ p) in Hba; [|slia].
    now apply mod_sub_0; [apply pow2_nz| |]. }
  unfold mark_as_allocated, to_page_num. rewrite mod_pow2_spec, div_pow2_spec, Hbase, Hlim, Hal.
  cbn [N.eqb negb]. destruct (N.ltb_spec off base); [slia|].
  pose proof (inv_fit HI p Hsl') as Hf.
  assert (Hx : (off - base) / 2 ^ p <= heap / 2 ^ p) by (apply N.div_le_mono; [apply pow2_nz|slia]).
  destruct (N.ltb_spec ((off - base) / 2 ^ p) lim); [|lia].
  rewrite (class_idx_ok a p) by auto.
  remember (N.to_nat (p - spage)) as i eqn:Ei. remember ((off - base) / 2 ^ p) as n eqn:En.
  assert (Hi : (i < length (a_free a))%nat) by slia.
  assert (Hle : forall u, (cov (a_free a) u <= 1)%nat) by (intros u; eapply inv_cov_le, HI).
  destruct (mark_from_some (drop i (a_free a)) n) as [l' ->]; [|eauto].
  rewrite (cov_drop _ i n (inv_nb HI) Hi Hle); [slia|].
  intros u Hu.
  assert (Hbytes : page_bytes (off, p) (base + u * 2 ^ spage)).
  { apply (page_bytes_units base spage lpage); [done|]. split; [slia|].
    rewrite unit_byte. cbn [fst snd]. rewrite <- ?En. rewrite <- Hu. f_equal. f_equal. slia. }
  pose proof (inv_cov HI u) as Hcov. rewrite one_true in Hcov.
  - assert (Hz : cnt base spage live u = 0%nat); [|slia].
    pose proof (inv_live HI) as Hlive. clear Hcov HI. induction live as [|q live IH]; [reflexivity|].
    cbn [cnt]. rewrite IH; [|intros ? ?; apply Hdis; set_solver|intros ? ?; apply Hlive; set_solver].
    unfold pcov. rewrite one_false; [reflexivity|].
    intros Hq. apply (Hdis q ltac:(set_solver) (base + u * 2 ^ spage)). split; [done|].
    apply (page_bytes_units base spage lpage); [apply Hlive; set_solver|].
    split; [slia|]. now rewrite unit_byte.
  - destruct (Hin _ Hbytes) as [_ Hlt]. pose proof (heap_units Hsl (inv_heap HI)) as Hh.
    apply (N.mul_lt_mono_pos_r (2 ^ spage)); [apply pow2_pos|]. rewrite <- Hh. clear -Hlt. lia.
Qed.

(** * Consequences, in terms of bytes *)

Lemma live_disjoint a live f : inv a live f -> pairwise_disjoint live.
Proof.
  intros HI i j p q Hij Hp Hq b [H1 H2].
  assert (Hwp := inv_live HI p ltac:(eapply elem_of_list_lookup_2; eauto)).
  assert (Hwq := inv_live HI q ltac:(eapply elem_of_list_lookup_2; eauto)).
  apply (page_bytes_units base spage lpage _ _ Hwp) in H1 as [_ H1].
  apply (page_bytes_units base spage lpage _ _ Hwq) in H2 as [_ H2].
  set (u := (b - base) / 2 ^ spage) in *.
  pose proof (inv_cov HI u) as Hc. pose proof (one_le (u < heap / 2 ^ spage)).
  assert (Hgen : forall (l : list page) i j, (i < j)%nat -> forall p q, l !! i = Some p -> l !! j = Some q ->
     u / 2 ^ (snd p - spage) = (fst p - base) / 2 ^ snd p ->
     u / 2 ^ (snd q - spage) = (fst q - base) / 2 ^ snd q -> (2 <= cnt base spage l u)%nat).
  { clear. intros l i j Hij p q Hp Hq H1 H2.
    apply elem_of_list_split_length in Hp as (l1 & l2 & -> & ->).
    rewrite cnt_app. cbn [cnt]. unfold pcov at 1. rewrite one_true by done.
    rewrite lookup_app_r in Hq by slia.
    destruct (j - length l1)%nat as [|k] eqn:E; [slia|]. cbn in Hq.
    apply elem_of_list_split_length in Hq as (l3 & l4 & -> & _).
    rewrite cnt_app. cbn [cnt]. unfold pcov. rewrite one_true by done. slia. }
  destruct (Nat.lt_total i j) as [Hlt|[?|Hlt]]; [|slia|].
  - pose proof (Hgen live i j Hlt p q Hp Hq H1 H2) as Hg. clear -Hc H Hg. lia.
  - pose proof (Hgen live j i Hlt q p Hq Hp H2 H1) as Hg. clear -Hc H Hg. lia.
Qed.

Lemma cov_lookup l i b n u : l !! i = Some b -> n ∈ b -> u / 2 ^ N.of_nat i = n -> (1 <= cov l u)%nat.
Proof.
  intros Hi Hn Hu. rewrite <- (take_drop i l), cov_app.
  pose proof (lookup_lt_Some _ _ _ Hi). rewrite take_length, Nat.min_l by slia.
  rewrite Hu. rewrite (drop_S _ _ _ Hi), cov_cons, one_true by done. slia.
Qed.

Lemma lookup_cov l u : (1 <= cov l u)%nat -> exists i b, l !! i = Some b /\ u / 2 ^ N.of_nat i ∈ b.
Proof.
  revert u. induction l as [|b l IH]; intros u; [cbn; slia|]. rewrite cov_cons. intros H.
  destruct (decide (u ∈ b)) as [Hu|Hu].
  - exists 0%nat, b. split; [reflexivity|]. cbn [N.of_nat]. now rewrite N.pow_0_r, N.div_1_r.
  - rewrite one_false in H by done. destruct (IH (u / 2)) as (i & c & Hi & Hc); [lia|].
    exists (S i), c. split; [exact Hi|]. rewrite Nat2N.inj_succ, N.pow_succ_r'.
    rewrite <- N.div_div by (try slia; apply pow2_nz). exact Hc.
Qed.

Lemma free_page_wf a live f p : inv a live f -> free_page a p ->
  page_wf base spage lpage p /\
  exists i b, a_free a !! i = Some b /\ (fst p - base) / 2 ^ snd p ∈ b /\ snd p = spage + N.of_nat i.
Proof.
  intros HI (i & b & n & Hi & Hn & Hs & Hf).
  pose proof (inv_len HI) as Hlen. pose proof (lookup_lt_Some _ _ _ Hi) as Hlt.
  rewrite (inv_sp HI) in Hs. rewrite (inv_base HI) in Hf.
  assert (E : fst p - base = n * 2 ^ snd p) by (clear -Hf; lia).
  split.
  - unfold page_wf. split; [slia|]. split; [lia|]. rewrite E. apply N.mod_mul, pow2_nz.
  - exists i, b. rewrite E, N.div_mul by apply pow2_nz. auto.
Qed.

Lemma free_unit_cov a live f p u : inv a live f -> free_page a p ->
  u / 2 ^ (snd p - spage) = (fst p - base) / 2 ^ snd p -> (1 <= cov (a_free a) u)%nat.
Proof.
  intros HI Hp Hu. destruct (free_page_wf _ _ _ _ HI Hp) as (Hw & i & b & Hi & Hn & Hs).
  eapply cov_lookup; [exact Hi|exact Hn|]. rewrite <- Hu. f_equal. f_equal. slia.
Qed.

Lemma live_free_disjoint a live f p q :
  inv a live f -> p ∈ live -> free_page a q -> pages_disjoint p q.
Proof.
  intros HI Hp Hq b [H1 H2].
  assert (Hwp := inv_live HI p Hp).
  destruct (free_page_wf _ _ _ _ HI Hq) as (Hwq & _).
  apply (page_bytes_units base spage lpage _ _ Hwp) in H1 as [_ H1].
  apply (page_bytes_units base spage lpage _ _ Hwq) in H2 as [_ H2].
  set (u := (b - base) / 2 ^ spage) in *.
  pose proof (inv_cov HI u) as Hc. pose proof (one_le (u < heap / 2 ^ spage)) as Hle.
  pose proof (free_unit_cov _ _ _ _ _ HI Hq H2) as Hfu.
  apply elem_of_list_split in Hp as (l1 & l2 & ->). rewrite cnt_app in Hc. cbn [cnt] in Hc.
  unfold pcov in Hc. rewrite one_true in Hc by done. clear -Hc Hle Hfu. lia.
Qed.

(** Every heap byte belongs to a live or a free page. *)
Lemma heap_byte_owned a live f b :
  inv a live f -> in_heap base heap b ->
  (exists p, p ∈ live /\ page_bytes p b) \/ (exists p, free_page a p /\ page_bytes p b).
Proof.
  intros HI [H1 H2]. set (u := (b - base) / 2 ^ spage).
  pose proof (inv_cov HI u) as Hc.
  pose proof (heap_units (inv_sl HI) (inv_heap HI)) as Hh.
  rewrite one_true in Hc.
  2: { apply N.div_lt_upper_bound; [apply pow2_nz|]. lia. }
  destruct (cov (a_free a) u) as [|c] eqn:E.
  - left. assert (Hex : exists p, p ∈ live /\ u / 2 ^ (snd p - spage) = (fst p - base) / 2 ^ snd p).
    { clear -Hc. induction live as [|p live IH]; cbn [cnt] in Hc; [slia|].
      unfold pcov in Hc. destruct (decide (u / 2 ^ (snd p - spage) = (fst p - base) / 2 ^ snd p)).
      - exists p. split; [set_solver|done].
      - rewrite one_false in Hc by done. destruct IH as (q & Hq & Hu); [slia|].
        exists q. split; [set_solver|done]. }
    destruct Hex as (p & Hp & Hu). exists p. split; [done|].
    apply (page_bytes_units base spage lpage); [eapply inv_live; eauto|]. done.
  - right. destruct (lookup_cov (a_free a) u) as (i & bm & Hi & Hn); [slia|].
    set (n := u / 2 ^ N.of_nat i) in *. set (pw := spage + N.of_nat i).
    assert (Hf : free_page a (base + n * 2 ^ pw, pw)).
    { exists i, bm, n. cbn [fst snd]. rewrite (inv_sp HI), (inv_base HI). auto. }
    eexists. split; [exact Hf|]. destruct (free_page_wf _ _ _ _ HI Hf) as (Hw & _).
    apply (page_bytes_units base spage lpage _ _ Hw). split; [done|]. cbn [fst snd].
    replace (base + n * 2 ^ pw - base) with (n * 2 ^ pw) by (clear; lia).
    rewrite N.div_mul by apply pow2_nz. fold u. unfold n. f_equal. f_equal. slia.
Qed.

Lemma no_free_buddies a live f p q :
  inv a live f -> free_page a p -> free_page a q -> buddies base p q -> snd p = lpage.
Proof.
  intros HI Hp Hq (Hs & Hf & Hm).
  destruct (free_page_wf _ _ _ _ HI Hp) as (Hwp & i & b & Hi & Hn & Hpw).
  destruct (free_page_wf _ _ _ _ HI Hq) as (Hwq & j & c & Hj & Hnq & Hqw).
  assert (i = j) by slia. subst j. assert (b = c) by congruence. subst c.
  destruct (N.eq_dec (snd p) lpage) as [?|Hne]; [done|exfalso].
  pose proof (inv_nb HI) as Hnb. apply (nb_drop _ i) in Hnb.
  rewrite (drop_S _ _ _ Hi) in Hnb. destruct Hnb as [Hnb _].
  destruct Hwp as ((Hs1 & Hs2) & Hb & Hm2).
  assert (Hrest : drop (S i) (a_free a) <> []).
  { intros E. apply (f_equal length) in E. rewrite drop_length in E. cbn in E.
    pose proof (inv_len HI). slia. }
  apply (Hnb Hrest ((fst p - base) / 2 ^ snd p)); [exact Hn|].
  replace (N.lxor ((fst p - base) / 2 ^ snd p) 1) with ((fst q - base) / 2 ^ snd q); [exact Hnq|].
  rewrite <- Hs, Hf. replace (fst p + 2 ^ snd p - base) with (fst p - base + 1 * 2 ^ snd p)
    by (clear -Hb; lia).
  rewrite N.div_add by apply pow2_nz.
  apply N.mod_divide in Hm as [k Hk]; [|apply pow2_nz].
  rewrite N.pow_add_r, N.pow_1_r in Hk.
  replace (fst p - base) with (k * 2 * 2 ^ snd p) by (clear -Hk; lia).
  rewrite N.div_mul by apply pow2_nz. clear.
  destruct (lxor1_cases (k * 2)) as [[? E]|[E ?]].
  - rewrite E. reflexivity.
  - rewrite N.mod_mul in E by discriminate. discriminate.
Qed.

(** The state of the free lists is a function of the set of live bytes. *)
Lemma inv_canonical a1 l1 f1 a2 l2 f2 :
  inv a1 l1 f1 -> inv a2 l2 f2 ->
  (forall u, cnt base spage l1 u = cnt base spage l2 u) -> a_free a1 = a_free a2.
Proof.
  intros H1 H2 Hc.
  apply cov_inj.
  - pose proof (inv_len H1). pose proof (inv_len H2). slia.
  - apply (inv_nb H1).
  - apply (inv_nb H2).
  - intros u. eapply inv_cov_le, H1.
  - intros u. pose proof (inv_cov H1 u).
    pose proof (inv_cov H2 u). specialize (Hc u). lia.
Qed.

Lemma cnt_perm l1 l2 u : l1 ≡ₚ l2 -> cnt base spage l1 u = cnt base spage l2 u.
Proof. induction 1; cbn [cnt]; slia. Qed.

Lemma reaches_inv a0 a live f :
  inv a0 [] 0 -> reaches a0 a live f -> inv a live f.
Proof.
  intros H0 H. pose proof (inv_sp H0) as Hsp.
  induction H as [|a live f size p a' off H IH Hfit Ha|a live f size p a' H IH Hfit Ha
    |a l1 l2 f off p a' H IH Hr|a live f off p a' H IH Hm].
  - exact H0.
  - rewrite Hsp in Hfit. apply fits_unique in Hfit. subst p. exact (allocate_inv _ _ _ _ _ _ IH Ha).
  - rewrite Hsp in Hfit. apply fits_unique in Hfit. subst p. exact (proj1 (allocate_failed_inv _ _ _ _ _ IH Ha)).
  - destruct (release_inv _ _ _ _ _ _ IH) as (a2 & Hr2 & HI). congruence.
  - exact (mark_inv _ _ _ _ _ _ IH Hm).
Qed.

(** allocate fails only for lack of a large enough free page. *)
Lemma allocate_oos a live f size :
  inv a live f -> alloc_pow2 spage size <= lpage ->
  ((exists a', allocate a size = (a', OutOfSpace)) <->
   forall p, free_page a p -> snd p < alloc_pow2 spage size).
Proof.
  intros HI Hp2. open_inv HI.
  unfold allocate. rewrite Hsp, Hlp. assert (Hp1 : spage <= alloc_pow2 spage size) by apply alloc_pow2_fits.
  remember (alloc_pow2 spage size) as p eqn:Ep.
  destruct (N.leb_spec p lpage) as [_|]; cbn [negb]; [|slia].
  rewrite (class_idx_ok _ p) by (cbn [add_allocated a_spage_pow2 a_lpage_pow2]; auto).
  cbn [add_allocated a_free a_dir]. remember (N.to_nat (p - spage)) as i eqn:Ei.
  assert (Hdne : drop i (a_free a) <> []).
  { intros E. apply (f_equal length) in E. rewrite drop_length in E. cbn in E. slia. }
  pose proof (alloc_from_oos (a_dir a) (drop i (a_free a)) Hdne) as [Hoos1 Hoos2].
  assert (Hiff : (forall j b, drop i (a_free a) !! j = Some b -> b = ∅) <->
                 (forall q, free_page a q -> snd q < p)).
  { split.
    - intros H q (k & b & n & Hk & Hn & Hs & Hf). rewrite Hsp in Hs.
      destruct (le_lt_dec i k) as [Hik|Hik]; [|slia].
      rewrite (H (k - i)%nat b) in Hn; [set_solver|]. rewrite lookup_drop. rewrite <- Hk. f_equal. slia.
    - intros H j b Hj. rewrite lookup_drop in Hj. apply leibniz_equiv, elem_of_equiv_empty.
      intros n Hn. pose proof (H (base + n * 2 ^ (spage + N.of_nat (i + j)), spage + N.of_nat (i + j))) as Hq.
      cbn [snd] in Hq. assert (spage + N.of_nat (i + j) < p); [|slia]. apply Hq.
      exists (i + j)%nat, b, n. cbn [fst snd]. rewrite Hsp, Hbase. auto. }
  rewrite <- Hiff. split.
  - intros [a' Ha]. apply Hoos1.
    destruct (alloc_from _ _) as [[n l]| |] eqn:E; try discriminate. reflexivity.
  - intros H. rewrite (Hoos2 H). eauto.
Qed.

(** Which page is taken. *)
Lemma allocate_fit a live f size a' off :
  inv a live f -> allocate a size = (a', Ok off) ->
  exists q, free_page a q /\ alloc_pow2 spage size <= snd q /\
    (forall r, free_page a r -> alloc_pow2 spage size <= snd r -> snd q <= snd r) /\
    (forall r, free_page a r -> snd r = snd q ->
       match dir with DirLeft => fst q <= fst r | DirRight => fst r <= fst q end) /\
    match dir with
    | DirLeft => off = fst q
    | DirRight => off + 2 ^ alloc_pow2 spage size = fst q + 2 ^ snd q
    end.
Proof.
  intros HI. open_inv HI.
  unfold allocate. rewrite Hsp, Hlp. assert (Hp1 : spage <= alloc_pow2 spage size) by apply alloc_pow2_fits.
  remember (alloc_pow2 spage size) as p eqn:Ep.
  destruct (N.leb_spec p lpage) as [Hp2|]; cbn [negb]; [|discriminate].
  rewrite (class_idx_ok _ p) by (cbn [add_allocated a_spage_pow2 a_lpage_pow2]; auto).
  cbn [add_allocated a_free a_dir]. remember (N.to_nat (p - spage)) as i eqn:Ei.
  destruct (alloc_from _ _) as [[n l]| |] eqn:Ha; try discriminate.
  intros H. inversion H; subst a' off; clear H.
  destruct (alloc_from_fit _ _ _ _ Ha) as (j & b & m & Hj & Hpk & Hlt & Hn).
  rewrite lookup_drop in Hj.
  set (w := spage + N.of_nat (i + j)).
  exists (base + m * 2 ^ w, w). cbn [fst snd]. split; [|split; [|split; [|split]]].
  - exists (i + j)%nat, b, m. cbn [fst snd]. rewrite Hsp, Hbase.
    split; [done|]. split; [now apply pick_some in Hpk|]. auto.
  - unfold w. slia.
  - intros r (k & c & x & Hk & Hx & Hs & Hf) Hr. rewrite Hsp in Hs.
    destruct (le_lt_dec (i + j) k) as [?|Hkj]; [unfold w; slia|].
    rewrite (Hlt (k - i)%nat c) in Hx; [set_solver|slia|].
    rewrite lookup_drop, <- Hk. f_equal. slia.
  - intros r (k & c & x & Hk & Hx & Hs & Hf) Hr. rewrite Hsp in Hs. rewrite Hbase in Hf.
    assert (k = (i + j)%nat) by (unfold w in Hr; slia). subst k.
    assert (c = b) by congruence. subst c. rewrite Hf, Hr.
    assert (Hcmp : match dir with DirLeft => m <= x | DirRight => x <= m end).
    { rewrite <- Hdir. destruct (a_dir a); cbn [pick] in Hpk.
      - apply bitmap_min_some in Hpk as [_ Hpk]. now apply Hpk.
      - apply bitmap_max_some in Hpk as [_ Hpk]. now apply Hpk. }
    destruct dir; apply N.add_le_mono_l, N.mul_le_mono_r; exact Hcmp.
  - unfold to_page_dev_offset. cbn [a_base add_allocated]. rewrite Hbase, mul_pow2_spec, Hn, Hdir.
    assert (Hw : 2 ^ w = 2 ^ N.of_nat j * 2 ^ p) by (rewrite <- N.pow_add_r; f_equal; unfold w; slia).
    rewrite Hw. pose proof (pow2_pos (N.of_nat j)).
    destruct dir; [slia|].
    rewrite N.mul_sub_distr_r. nia.
Qed.
End steps.

(** * Reserving a list of pages *)
Lemma pairwise_cons p l : pairwise_disjoint (p :: l) ->
  (forall q, q ∈ l -> pages_disjoint p q) /\ pairwise_disjoint l.
Proof.
  intros H. split.
  - intros q Hq. apply elem_of_list_lookup in Hq as [k Hk].
    apply (H 0%nat (S k)); [discriminate|reflexivity|exact Hk].
  - intros i j p' q' Hij Hp Hq. apply (H (S i) (S j)); [congruence|exact Hp|exact Hq].
Qed.

Lemma pages_disjoint_sym p q : pages_disjoint p q -> pages_disjoint q p.
Proof. intros H b [H1 H2]. apply (H b). auto. Qed.

Lemma mark_all_ok base heap spage lpage lim dir l : forall a live f,
  Inv base heap spage lpage lim dir a live f ->
  (forall p, p ∈ l -> well_placed base heap spage lpage p) ->
  pairwise_disjoint l ->
  (forall p q, p ∈ l -> q ∈ live -> pages_disjoint p q) ->
  exists a', mark_all a l = Ok a' /\ Inv base heap spage lpage lim dir a' (reverse l ++ live) f.
Proof.
  induction l as [|[off p] l IH]; intros a live f HI Hw Hd Hl.
  - exists a. split; [reflexivity|exact HI].
  - apply pairwise_cons in Hd as [Hd1 Hd2].
    destruct (mark_ok _ _ _ _ _ _ a live f off p HI) as [a1 Ha1].
    + apply Hw. set_solver.
    + intros q Hq. apply Hl; set_solver.
    + pose proof (mark_inv _ _ _ _ _ _ _ _ _ _ _ _ HI Ha1) as HI1.
      destruct (IH a1 ((off, p) :: live) f HI1) as (a' & Ha' & HI').
      * intros q Hq. apply Hw. set_solver.
      * exact Hd2.
      * intros q r Hq Hr. apply elem_of_cons in Hr as [->|Hr].
        -- apply pages_disjoint_sym. now apply Hd1.
        -- apply Hl; set_solver.
      * exists a'. cbn [mark_all]. rewrite Ha1. split; [exact Ha'|].
        rewrite reverse_cons, <- app_assoc. exact HI'.
Qed.

Lemma total_bytes_perm l1 l2 : l1 ≡ₚ l2 -> total_bytes l1 = total_bytes l2.
Proof. induction 1; cbn [total_bytes]; lia. Qed.

Lemma inv_eq base heap spage lpage lim dir a1 l1 f a2 l2 :
  Inv base heap spage lpage lim dir a1 l1 f -> Inv base heap spage lpage lim dir a2 l2 f ->
  l1 ≡ₚ l2 -> a1 = a2.
Proof.
  intros H1 H2 Hp.
  assert (Hf : a_free a1 = a_free a2).
  { eapply inv_canonical; [exact H1|exact H2|]. intros u. now apply cnt_perm. }
  assert (Hm : a_allocated_bytes a1 = a_allocated_bytes a2).
  { rewrite (inv_metric H1), (inv_metric H2). now rewrite (total_bytes_perm _ _ Hp). }
  pose proof (inv_base H1). pose proof (inv_base H2). pose proof (inv_dir H1). pose proof (inv_dir H2).
  pose proof (inv_sp H1). pose proof (inv_sp H2). pose proof (inv_lp H1). pose proof (inv_lp H2).
  pose proof (inv_lim H1). pose proof (inv_lim H2).
  destruct a1, a2. cbn in *. congruence.
Qed.

Lemma mark_all_reaches a0 a live f l a' :
  reaches a0 a live f -> mark_all a l = Ok a' -> reaches a0 a' (reverse l ++ live) f.
Proof.
  revert a live. induction l as [|[off p] l IH]; intros a live H; cbn [mark_all].
  - intros E. inversion E; subst. exact H.
  - destruct (mark_as_allocated a off p) as [a1| |] eqn:Hm; try discriminate.
    intros E. rewrite reverse_cons, <- app_assoc. apply (IH a1); [|exact E].
    exact (reaches_mark a0 a live f off p a1 H Hm).
Qed.
