(** Invariant of the page allocator and the proofs of its properties. *)
From stdpp Require Import gmap sets fin_sets.
From Coq Require Import ZifyBool ZifyNat ZifyN.
From Verif Require Import Util BuddyModel BuddySpec.
Open Scope N_scope.
Ltac Zify.zify_post_hook ::= Z.div_mod_to_equations.

(** * Buddy arithmetic *)

Lemma lxor1_cases n :
  (n mod 2 = 0 /\ N.lxor n 1 = n + 1) \/ (n mod 2 = 1 /\ N.lxor n 1 + 1 = n).
Proof.
  destruct n as [|p]; [left; split; reflexivity|].
  destruct p as [p|p|].
  - right. split; [rewrite <- N.bit0_mod; reflexivity|reflexivity].
  - left. split; [rewrite <- N.bit0_mod; reflexivity|reflexivity].
  - right. split; reflexivity.
Qed.

Lemma lxor1_neq n : N.lxor n 1 <> n.
Proof. destruct (lxor1_cases n) as [[_ ?]|[_ ?]]; lia. Qed.

Lemma lxor1_half n : N.lxor n 1 / 2 = n / 2.
Proof. destruct (lxor1_cases n) as [[? ?]|[? ?]]; lia. Qed.

Lemma half_eq u n : u / 2 = n / 2 <-> u = n \/ u = N.lxor n 1.
Proof. destruct (lxor1_cases n) as [[? ?]|[? ?]]; lia. Qed.

(** * Coverage *)

(** Number of free pages covering unit [u] of the first class in the list. *)
Fixpoint cov (l : list bitmap) (u : N) : nat :=
  match l with
  | [] => 0
  | b :: rest => ((if bool_decide (u ∈ b) then 1 else 0) + cov rest (u / 2))%nat
  end.

Definition one (P : Prop) `{Decision P} : nat := if bool_decide P then 1%nat else 0%nat.

Lemma one_true P `{Decision P} : P -> one P = 1%nat.
Proof. intros HP. unfold one. now rewrite bool_decide_true. Qed.
Lemma one_false P `{Decision P} : ~ P -> one P = 0%nat.
Proof. intros HP. unfold one. now rewrite bool_decide_false. Qed.
Lemma one_cases P `{Decision P} : (P /\ one P = 1%nat) \/ (~ P /\ one P = 0%nat).
Proof. unfold one. case_bool_decide; auto. Qed.
Lemma one_le P `{Decision P} : (one P <= 1)%nat.
Proof. unfold one. case_bool_decide; lia. Qed.
Lemma one_iff P Q `{Decision P, Decision Q} : (P <-> Q) -> one P = one Q.
Proof. intros HPQ. unfold one. now rewrite (bool_decide_ext P Q HPQ). Qed.

Lemma cov_cons b rest u : cov (b :: rest) u = (one (u ∈ b) + cov rest (u / 2))%nat.
Proof. reflexivity. Qed.

Ltac ones := repeat match goal with
  | |- context [one ?P] => let H := fresh "Hone" in
      destruct (one_cases P) as [[? H]|[? H]]; rewrite H in *; clear H
  | K : context [one ?P] |- _ => let H := fresh "Hone" in
      destruct (one_cases P) as [[? H]|[? H]]; rewrite H in *; clear H
  end.

(** No two free buddies below the large-page class. *)
Fixpoint nb (l : list bitmap) : Prop :=
  match l with
  | [] => True
  | b :: rest =>
      (rest <> [] -> forall n, n ∈ b -> N.lxor n 1 ∈ b -> False) /\ nb rest
  end.

(** * min / max *)
Lemma fold_min_spec xs x :
  (fold_left N.min xs x = x \/ In (fold_left N.min xs x) xs) /\
  fold_left N.min xs x <= x /\ (forall y, In y xs -> fold_left N.min xs x <= y).
Proof.
  revert x. induction xs as [|z xs IH]; intros x; cbn [fold_left In].
  - split; [auto|]. split; [lia|tauto].
  - destruct (IH (N.min x z)) as (H1 & H2 & H3).
    split; [|split].
    + destruct H1 as [H1|H1]; [|auto]. rewrite H1.
      destruct (N.min_spec x z) as [[_ ->]|[_ ->]]; auto.
    + lia.
    + intros y [->|Hy]; [lia|auto].
Qed.
Lemma fold_max_spec xs x :
  (fold_left N.max xs x = x \/ In (fold_left N.max xs x) xs) /\
  x <= fold_left N.max xs x /\ (forall y, In y xs -> y <= fold_left N.max xs x).
Proof.
  revert x. induction xs as [|z xs IH]; intros x; cbn [fold_left In].
  - split; [auto|]. split; [lia|tauto].
  - destruct (IH (N.max x z)) as (H1 & H2 & H3).
    split; [|split].
    + destruct H1 as [H1|H1]; [|auto]. rewrite H1.
      destruct (N.max_spec x z) as [[_ ->]|[_ ->]]; auto.
    + lia.
    + intros y [->|Hy]; [lia|auto].
Qed.

Lemma bitmap_min_some b n :
  bitmap_min b = Some n -> n ∈ b /\ forall m, m ∈ b -> n <= m.
Proof.
  unfold bitmap_min. destruct (elements b) as [|x xs] eqn:E; [discriminate|].
  intros H. assert (Hn : fold_left N.min xs x = n) by congruence. clear H.
  pose proof (fold_min_spec xs x) as (H1 & H2 & H3). rewrite Hn in *.
  split.
  - apply elem_of_elements. rewrite E. apply elem_of_cons.
    destruct H1 as [->|H1]; [auto|right; now apply elem_of_list_In].
  - intros m Hm. apply elem_of_elements in Hm. rewrite E in Hm.
    apply elem_of_cons in Hm as [->|Hm]; [lia|apply H3; now apply elem_of_list_In].
Qed.
Lemma bitmap_max_some b n :
  bitmap_max b = Some n -> n ∈ b /\ forall m, m ∈ b -> m <= n.
Proof.
  unfold bitmap_max. destruct (elements b) as [|x xs] eqn:E; [discriminate|].
  intros H. assert (Hn : fold_left N.max xs x = n) by congruence. clear H.
  pose proof (fold_max_spec xs x) as (H1 & H2 & H3). rewrite Hn in *.
  split.
  - apply elem_of_elements. rewrite E. apply elem_of_cons.
    destruct H1 as [->|H1]; [auto|right; now apply elem_of_list_In].
  - intros m Hm. apply elem_of_elements in Hm. rewrite E in Hm.
    apply elem_of_cons in Hm as [->|Hm]; [lia|apply H3; now apply elem_of_list_In].
Qed.
Lemma pick_some dir b n : pick dir b = Some n -> n ∈ b.
Proof.
  destruct dir; intros H; [now apply bitmap_min_some in H as [? _]|
    now apply bitmap_max_some in H as [? _]].
Qed.
Lemma pick_none dir b : pick dir b = None <-> b = ∅.
Proof.
  assert (E : elements b = [] <-> b = ∅).
  { split; intros H.
    - apply leibniz_equiv. now apply elements_empty_inv.
    - subst b. apply elements_empty. }
  destruct dir; unfold pick, bitmap_min, bitmap_max; destruct (elements b) as [|x xs];
    split; intros H; try discriminate; try apply E; try reflexivity.
  - apply E in H. discriminate.
  - apply E in H. discriminate.
Qed.

(** * The three walks change coverage by exactly one page *)

Lemma alloc_from_cov dir l n l' :
  alloc_from dir l = Ok (n, l') ->
  length l' = length l /\ forall u, cov l u = (cov l' u + one (u = n))%nat.
Proof.
  revert n l'. induction l as [|b rest IH]; intros n l'; cbn [alloc_from]; [discriminate|].
  destruct (pick dir b) as [m|] eqn:Hp.
  - intros H. inversion H; subst n l'; clear H. split; [reflexivity|].
    intros u. rewrite !cov_cons. apply pick_some in Hp.
    destruct (decide (u = m)) as [->|Hne].
    + rewrite (one_true (m ∈ b)), (one_true (m = m)), (one_false (m ∈ b ∖ {[m]})) by set_solver. lia.
    + rewrite (one_false (u = m)) by done.
      rewrite (one_iff (u ∈ b) (u ∈ b ∖ {[m]})) by set_solver. lia.
  - apply pick_none in Hp. subst b.
    destruct rest as [|b2 rest2]; [discriminate|].
    destruct (alloc_from dir (b2 :: rest2)) as [[larger rest']| |] eqn:Ha; try discriminate.
    specialize (IH _ _ eq_refl) as [Hlen IH].
    assert (Hgen : forall freed taken, freed / 2 = larger -> taken / 2 = larger -> freed <> taken ->
      length ({[freed]} ∪ ∅ :: rest') = length (∅ :: b2 :: rest2) /\
      forall u, cov (∅ :: b2 :: rest2) u = (cov ({[freed]} ∪ ∅ :: rest') u + one (u = taken))%nat).
    { intros freed taken Hf Ht Hne. split; [cbn [length] in *; lia|].
      intros u. rewrite (cov_cons ∅), (cov_cons ({[freed]} ∪ ∅)), IH.
      rewrite (one_false (u ∈ (∅ : bitmap))) by set_solver.
      rewrite (one_iff (u ∈ ({[freed]} ∪ ∅ : bitmap)) (u = freed)) by set_solver.
      ones; subst; lia. }
    destruct dir; case_bool_decide as Hcb; try discriminate; intros H; inversion H; subst n l';
      apply Hgen; lia.
Qed.

Lemma alloc_from_nb dir l n l' : alloc_from dir l = Ok (n, l') -> nb l -> nb l'.
Proof.
  revert n l'. induction l as [|b rest IH]; intros n l'; cbn [alloc_from]; [discriminate|].
  destruct (pick dir b) as [m|] eqn:Hp.
  - intros H [Hb Hr]. inversion H; subst n l'; clear H. split; [|exact Hr].
    intros Hrest k Hk1 Hk2. apply (Hb Hrest k); set_solver.
  - apply pick_none in Hp. subst b.
    destruct rest as [|b2 rest2]; [discriminate|].
    destruct (alloc_from dir (b2 :: rest2)) as [[larger rest']| |] eqn:Ha; try discriminate.
    specialize (IH _ _ eq_refl). intros H [_ Hr].
    assert (Hs : forall x : N, nb ({[x]} ∪ ∅ :: rest')).
    { intros x. split; [|now apply IH]. intros _ k Hk1 Hk2.
      assert (k = x) by set_solver. assert (N.lxor k 1 = x) by set_solver.
      pose proof (lxor1_neq k). congruence. }
    destruct dir; case_bool_decide as Hcb; try discriminate; inversion H; subst n l'; apply Hs.
Qed.

Lemma alloc_from_not_panic dir l : l <> [] -> alloc_from dir l <> Panic.
Proof.
  induction l as [|b rest IH]; intros Hl; [congruence|]. cbn [alloc_from].
  destruct (pick dir b) as [m|] eqn:Hp; [discriminate|].
  apply pick_none in Hp. subst b.
  destruct rest as [|b2 rest2]; [discriminate|].
  specialize (IH ltac:(discriminate)).
  destruct (alloc_from dir (b2 :: rest2)) as [[larger rest']| |] eqn:Ha; try discriminate; [|congruence].
  destruct dir; case_bool_decide as Hc; try discriminate; set_solver.
Qed.

Lemma alloc_from_oos dir l : l <> [] ->
  (alloc_from dir l = OutOfSpace <-> forall i b, l !! i = Some b -> b = ∅).
Proof.
  induction l as [|b rest IH]; intros Hl; [congruence|]. cbn [alloc_from].
  destruct (pick dir b) as [m|] eqn:Hp.
  - split; [discriminate|]. intros H. specialize (H 0%nat b eq_refl).
    apply pick_some in Hp. set_solver.
  - apply pick_none in Hp. subst b.
    destruct rest as [|b2 rest2].
    { split; [|reflexivity]. intros _ [|i] b Hi; [now inversion Hi|discriminate]. }
    specialize (IH ltac:(discriminate)).
    destruct (alloc_from dir (b2 :: rest2)) as [[larger rest']| |] eqn:Ha.
    + split.
      * destruct dir; case_bool_decide as Hcb; discriminate.
      * intros H. destruct IH as [_ IH]. discriminate IH.
        intros i b Hi. now apply (H (S i)).
    + split; [|reflexivity]. intros _ [|i] b Hi; [now inversion Hi|].
      destruct IH as [IH _]. now apply (IH eq_refl i).
    + exfalso. apply (alloc_from_not_panic dir (b2 :: rest2)); [discriminate|exact Ha].
Qed.

(** Smallest fit, lowest / highest page. *)
Lemma alloc_from_fit dir l n l' :
  alloc_from dir l = Ok (n, l') ->
  exists j b m, l !! j = Some b /\ pick dir b = Some m /\
    (forall k c, (k < j)%nat -> l !! k = Some c -> c = ∅) /\
    n = match dir with
        | DirLeft => m * 2 ^ N.of_nat j
        | DirRight => (m + 1) * 2 ^ N.of_nat j - 1 end.
Proof.
  revert n l'. induction l as [|b rest IH]; intros n l'; cbn [alloc_from]; [discriminate|].
  destruct (pick dir b) as [m|] eqn:Hp.
  - intros H. inversion H; subst n l'; clear H. exists 0%nat, b, m.
    split; [reflexivity|]. split; [exact Hp|]. split; [intros; lia|].
    destruct dir; cbn [N.of_nat]; rewrite N.pow_0_r; lia.
  - pose proof Hp as Hb. apply pick_none in Hb. subst b.
    destruct rest as [|b2 rest2]; [discriminate|].
    destruct (alloc_from dir (b2 :: rest2)) as [[larger rest']| |] eqn:Ha; try discriminate.
    specialize (IH _ _ eq_refl) as (j & c & m & Hj & Hpm & Hk & Hn).
    intros H. exists (S j), c, m. split; [exact Hj|]. split; [exact Hpm|]. split.
    { intros [|k] d Hlt Hd; [now inversion Hd|]. apply (Hk k); [lia|exact Hd]. }
    rewrite Nat2N.inj_succ, N.pow_succ_r'.
    pose proof (pow2_pos (N.of_nat j)).
    destruct dir; case_bool_decide as Hcb; try discriminate; inversion H; subst n l'; nia.
Qed.

Lemma mark_from_cov l n l' :
  mark_from l n = Some l' -> (forall u, cov l u <= 1)%nat ->
  length l' = length l /\ forall u, cov l u = (cov l' u + one (u = n))%nat.
Proof.
  revert n l'. induction l as [|b rest IH]; intros n l'; cbn [mark_from]; [discriminate|].
  case_bool_decide as Hn.
  - intros H _. inversion H; subst l'; clear H. split; [reflexivity|].
    intros u. rewrite !cov_cons.
    destruct (decide (u = n)) as [->|Hne].
    + rewrite (one_true (n ∈ b)), (one_true (n = n)), (one_false (n ∈ b ∖ {[n]})) by set_solver. lia.
    + rewrite (one_false (u = n)) by done.
      rewrite (one_iff (u ∈ b) (u ∈ b ∖ {[n]})) by set_solver. lia.
  - destruct (mark_from rest (n / 2)) as [rest'|] eqn:Hm; [|discriminate].
    intros H Hle. inversion H; subst l'; clear H.
    assert (Hle' : forall u, (cov rest u <= 1)%nat).
    { intros u. specialize (Hle (2 * u)). rewrite cov_cons in Hle.
      replace (2 * u / 2) with u in Hle by lia. lia. }
    specialize (IH _ _ Hm Hle') as [Hlen IH]. split; [cbn [length]; lia|].
    assert (Hx : N.lxor n 1 ∉ b).
    { intros Hx. specialize (Hle (N.lxor n 1)). rewrite cov_cons, lxor1_half in Hle.
      rewrite one_true in Hle by done. specialize (IH (n / 2)).
      rewrite one_true in IH by done. lia. }
    intros u. rewrite !cov_cons, IH.
    rewrite (one_iff (u / 2 = n / 2) (u = n \/ u = N.lxor n 1)) by apply half_eq.
    pose proof (lxor1_neq n).
    rewrite (one_iff (u ∈ {[N.lxor n 1]} ∪ b) (u = N.lxor n 1 \/ u ∈ b)) by set_solver.
    ones; try lia; exfalso; naive_solver.
Qed.

Lemma mark_from_nb l n l' : mark_from l n = Some l' -> nb l -> nb l'.
Proof.
  revert n l'. induction l as [|b rest IH]; intros n l'; cbn [mark_from]; [discriminate|].
  case_bool_decide as Hn.
  - intros H [Hb Hr]. inversion H; subst l'; clear H. split; [|exact Hr].
    intros Hrest k Hk1 Hk2. apply (Hb Hrest k); set_solver.
  - destruct (mark_from rest (n / 2)) as [rest'|] eqn:Hm; [|discriminate].
    intros H [Hb Hr]. inversion H; subst l'; clear H.
    split; [|eapply IH; eassumption].
    intros Hrest' k Hk1 Hk2.
    assert (Hrest : rest <> []) by (intros ->; discriminate Hm).
    pose proof (N.lxor_assoc k 1 1) as Hinv. rewrite N.lxor_nilpotent, N.lxor_0_r in Hinv.
    pose proof (N.lxor_assoc n 1 1) as Hinvn. rewrite N.lxor_nilpotent, N.lxor_0_r in Hinvn.
    pose proof (lxor1_neq k). pose proof (lxor1_neq n).
    apply elem_of_union in Hk1 as [Hk1|Hk1]; apply elem_of_union in Hk2 as [Hk2|Hk2];
      try apply elem_of_singleton in Hk1; try apply elem_of_singleton in Hk2.
    + congruence.
    + rewrite Hk1, Hinvn in Hk2. contradiction.
    + assert (k = n) by congruence. subst k. set_solver.
    + exact (Hb Hrest k Hk1 Hk2).
Qed.

(** Marking succeeds exactly on a page covered by a free page. *)
Lemma mark_from_some l n : (1 <= cov l n)%nat -> exists l', mark_from l n = Some l'.
Proof.
  revert n. induction l as [|b rest IH]; intros n; [cbn; lia|].
  rewrite cov_cons. intros H. cbn [mark_from]. case_bool_decide as Hn; [eauto|].
  rewrite one_false in H by done. destruct (IH (n / 2)) as [l' ->]; [lia|eauto].
Qed.

Lemma release_from_some l n :
  l <> [] -> (forall u, cov l u <= 1)%nat -> cov l n = 0%nat ->
  exists l', release_from l n = Some l' /\ length l' = length l /\
    forall u, cov l' u = (cov l u + one (u = n))%nat.
Proof.
  revert n. induction l as [|b rest IH]; intros n Hl Hle H0; [congruence|].
  cbn [release_from].
  rewrite cov_cons in H0.
  assert (Hnb : n ∉ b) by (intros ?; rewrite one_true in H0 by done; lia).
  assert (Hins : forall u, cov ({[n]} ∪ b :: rest) u = (cov (b :: rest) u + one (u = n))%nat).
  { intros u. rewrite !cov_cons.
    rewrite (one_iff (u ∈ {[n]} ∪ b) (u = n \/ u ∈ b)) by set_solver.
    ones; try lia; exfalso; naive_solver. }
  destruct rest as [|b2 rest2].
  { rewrite bool_decide_false by done. eexists. split; [reflexivity|]. split; [reflexivity|exact Hins]. }
  case_bool_decide as Hb.
  - rewrite bool_decide_false by set_solver.
    assert (Hle' : forall u, (cov (b2 :: rest2) u <= 1)%nat).
    { intros u. specialize (Hle (2 * u)). rewrite cov_cons in Hle.
      replace (2 * u / 2) with u in Hle by lia. lia. }
    destruct (IH (n / 2)) as (l' & -> & Hlen & Hcov); [discriminate|exact Hle'| |].
    { specialize (Hle (N.lxor n 1)). rewrite cov_cons, lxor1_half in Hle.
      rewrite one_true in Hle by done. lia. }
    eexists. split; [reflexivity|]. split; [cbn [length] in *; lia|].
    intros u. rewrite (cov_cons (b ∖ _)), (cov_cons b), Hcov.
    rewrite (one_iff (u / 2 = n / 2) (u = n \/ u = N.lxor n 1)) by apply half_eq.
    rewrite (one_iff (u ∈ b ∖ {[N.lxor n 1]}) (u ∈ b /\ u <> N.lxor n 1)) by set_solver.
    pose proof (lxor1_neq n).
    ones; try lia; exfalso; naive_solver.
  - rewrite bool_decide_false by done.
    eexists. split; [reflexivity|]. split; [reflexivity|exact Hins].
Qed.

Lemma release_from_nb l n l' : release_from l n = Some l' -> nb l -> nb l'.
Proof.
  revert n l'. induction l as [|b rest IH]; intros n l'; cbn [release_from]; [discriminate|].
  intros H [Hb Hr].
  destruct rest as [|b2 rest2].
  { case_bool_decide as Hcb; [discriminate|]. inversion H; subst l'. split; [congruence|exact I]. }
  case_bool_decide as Hbd.
  - case_bool_decide as Hcb; [discriminate|].
    destruct (release_from (b2 :: rest2) (n / 2)) as [rest'|] eqn:Hrel; [|discriminate].
    inversion H; subst l'; clear H. split; [|eapply IH; eauto].
    intros _ k Hk1 Hk2. apply (Hb ltac:(discriminate) k); set_solver.
  - case_bool_decide as Hn; [discriminate|]. inversion H; subst l'; clear H.
    split; [|exact Hr]. intros _ k Hk1 Hk2.
    pose proof (N.lxor_assoc k 1 1) as Hinv. rewrite N.lxor_nilpotent, N.lxor_0_r in Hinv.
    pose proof (lxor1_neq k).
    apply elem_of_union in Hk1 as [Hk1|Hk1]; apply elem_of_union in Hk2 as [Hk2|Hk2];
      try apply elem_of_singleton in Hk1; try apply elem_of_singleton in Hk2.
    + congruence.
    + subst k. contradiction.
    + rewrite <- Hk2, Hinv in Hbd. contradiction.
    + apply (Hb ltac:(discriminate) k); assumption.
Qed.

(** * Canonicity: coverage determines the free lists *)
Lemma cov_inj l l' :
  length l = length l' -> nb l -> nb l' ->
  (forall u, cov l u <= 1)%nat -> (forall u, cov l u = cov l' u) -> l = l'.
Proof.
  revert l'. induction l as [|b rest IH]; intros [|b' rest'] Hlen Hnb Hnb' Hle Heq;
    try discriminate; [reflexivity|].
  assert (Hb : b = b').
  { apply leibniz_equiv. intros n.
    destruct rest as [|c rest]; destruct rest' as [|c' rest']; try discriminate.
    - specialize (Heq n). rewrite !cov_cons in Heq. cbn [cov] in Heq. ones; (tauto || lia).
    - assert (Hdir : forall (d d' : bitmap) (r r' : list bitmap), r <> [] ->
        (forall u, cov (d :: r) u <= 1)%nat -> (forall u, cov (d :: r) u = cov (d' :: r') u) ->
        (r <> [] -> forall n, n ∈ d -> N.lxor n 1 ∈ d -> False) -> n ∈ d -> n ∈ d').
      { intros d d' r r' Hr Hle1 Heq1 Hnb1 Hn.
        destruct (decide (n ∈ d')) as [?|Hn']; [assumption|exfalso].
        pose proof (Heq1 n) as E1. pose proof (Hle1 n) as L1.
        pose proof (Heq1 (N.lxor n 1)) as E2. pose proof (Hle1 (N.lxor n 1)) as L2.
        rewrite !cov_cons in *. rewrite lxor1_half in *.
        rewrite (one_true (n ∈ d)) in * by done. rewrite (one_false (n ∈ d')) in * by done.
        rewrite (one_false (N.lxor n 1 ∈ d)) in * by eauto. lia. }
      destruct Hnb as [Hnb1 _]. destruct Hnb' as [Hnb1' _].
      split; intros Hn.
      + eapply (Hdir b b'); try eassumption. discriminate.
      + eapply (Hdir b' b); try eassumption; [discriminate| |].
        * intros u. rewrite <- Heq. apply Hle.
        * intros u. symmetry. apply Heq. }
  subst b'. f_equal. apply IH.
  - cbn [length] in Hlen. lia.
  - apply Hnb.
  - apply Hnb'.
  - intros u. specialize (Hle (2 * u)). rewrite cov_cons in Hle.
    replace (2 * u / 2) with u in Hle by lia. lia.
  - intros u. specialize (Heq (2 * u)). rewrite !cov_cons in Heq.
    replace (2 * u / 2) with u in Heq by lia. lia.
Qed.

(** If every unit of a page is free, a free page at least as large covers it. *)
Lemma cov_drop l i n :
  nb l -> (i < length l)%nat -> (forall u, cov l u <= 1)%nat ->
  (forall u, u / 2 ^ N.of_nat i = n -> cov l u = 1%nat) ->
  cov (drop i l) n = 1%nat.
Proof.
  revert n i. induction l as [|b rest IH]; intros n i Hnb Hi Hle H; [cbn in Hi; lia|].
  destruct i as [|i].
  { cbn [drop]. apply H. cbn [N.of_nat]. rewrite N.pow_0_r. apply N.div_1_r. }
  cbn [drop]. cbn [length] in Hi. apply IH.
  - apply Hnb.
  - lia.
  - intros u. specialize (Hle (2 * u)). rewrite cov_cons in Hle.
    replace (2 * u / 2) with u in Hle by lia. lia.
  - intros v Hv. rewrite Nat2N.inj_succ, N.pow_succ_r' in H.
    pose proof (H (2 * v)) as H1. pose proof (H (2 * v + 1)) as H2.
    pose proof (pow2_nz (N.of_nat i)) as Hp.
    rewrite <- !N.div_div in H1, H2 by lia.
    replace (2 * v / 2) with v in H1 by lia.
    replace ((2 * v + 1) / 2) with v in H2 by lia.
    specialize (H1 Hv). specialize (H2 Hv). rewrite cov_cons in H1, H2.
    replace (2 * v / 2) with v in H1 by lia.
    replace ((2 * v + 1) / 2) with v in H2 by lia.
    destruct rest as [|c rest]; [cbn [length] in Hi; lia|].
    destruct Hnb as [Hnb _]. specialize (Hnb ltac:(discriminate) (2 * v)).
    assert (Hx : N.lxor (2 * v) 1 = 2 * v + 1).
    { destruct (lxor1_cases (2 * v)) as [[? ?]|[? ?]]; lia. }
    rewrite Hx in Hnb. ones; (tauto || lia).
Qed.

(** Splitting the list at a class. *)
Lemma cov_app l1 l2 u : cov (l1 ++ l2) u = (cov l1 u + cov l2 (u / 2 ^ N.of_nat (length l1)))%nat.
Proof.
  revert u. induction l1 as [|b l1 IH]; intros u.
  - cbn [app cov length N.of_nat]. rewrite N.pow_0_r, N.div_1_r. reflexivity.
  - cbn [app length]. rewrite !cov_cons, IH, Nat2N.inj_succ, N.pow_succ_r'.
    pose proof (pow2_nz (N.of_nat (length l1))).
    rewrite <- N.div_div by lia. lia.
Qed.

Lemma nb_app l1 l2 l2' : l2 <> [] -> nb (l1 ++ l2) -> nb l2' -> nb (l1 ++ l2').
Proof.
  intros Hl2. induction l1 as [|b l1 IH]; cbn [app nb]; [auto|].
  intros [Hb Hr] H2'. split; [|now apply IH].
  intros _. apply Hb. destruct l1; [exact Hl2|discriminate].
Qed.

Lemma nb_drop l i : nb l -> nb (drop i l).
Proof.
  revert i. induction l as [|b l IH]; intros [|i] H; cbn [drop]; try exact H.
  apply IH. apply H.
Qed.
