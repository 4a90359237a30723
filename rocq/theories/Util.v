(** Arithmetic helpers of the three libraries.

    Model of libblobd-lite/src/util.rs:19-58 (identical text in
    libblobd-direct/src/util.rs and libblobd-kv/src/util.rs).
    Simplification: u64 is modelled by the unbounded [N]; the only operation
    here that could leave 64 bits is the final [<<] of [ceil_pow2], for values
    within one page of 2^64, i.e. not for device offsets. *)
From stdpp Require Import base numbers list.
From Coq Require Import ZifyBool ZifyNat ZifyN.
Open Scope N_scope.

(** util.rs:23-25 [div_mod_pow2]: [(val >> pow2, val & ((1 << pow2) - 1))]. *)
Definition div_mod_pow2 (val pow2 : N) : N * N :=
  (N.shiftr val pow2, N.land val (N.shiftl 1 pow2 - 1)).

(** util.rs:27-30 [div_pow2]. *)
Definition div_pow2 (val pow2 : N) : N := fst (div_mod_pow2 val pow2).

(** util.rs:32-35 [mod_pow2]. *)
Definition mod_pow2 (val pow2 : N) : N := snd (div_mod_pow2 val pow2).

(** util.rs:37-39 [mul_pow2]: [val << pow2]. *)
Definition mul_pow2 (val pow2 : N) : N := N.shiftl val pow2.

(** util.rs:42-48 [ceil_pow2]. *)
Definition ceil_pow2 (val pow2 : N) : N :=
  let '(div, mod_) := div_mod_pow2 val pow2 in
  let div := if mod_ =? 0 then div else div + 1 in
  N.shiftl div pow2.

(** util.rs:51-54 [floor_pow2]. *)
Definition floor_pow2 (val pow2 : N) : N :=
  let '(div, _) := div_mod_pow2 val pow2 in N.shiftl div pow2.

(** util.rs:56-59 [is_multiple_of_pow2]. *)
Definition is_multiple_of_pow2 (val pow2 : N) : bool :=
  let '(_, mod_) := div_mod_pow2 val pow2 in mod_ =? 0.

(** util.rs:19-21 [div_ceil]: [(n / d) + ((n % d != 0) as u64)]. *)
Definition div_ceil (n d : N) : N :=
  n / d + (if n mod d =? 0 then 0 else 1).

(** Characterising lemmas. *)

Lemma div_mod_pow2_spec v p : div_mod_pow2 v p = (v / 2 ^ p, v mod 2 ^ p).
Proof.
  unfold div_mod_pow2. f_equal.
  - apply N.shiftr_div_pow2.
  - rewrite N.shiftl_1_l, <- N.pred_sub, <- N.ones_equiv.
    apply N.land_ones.
Qed.

Lemma div_pow2_spec v p : div_pow2 v p = v / 2 ^ p.
Proof. unfold div_pow2. now rewrite div_mod_pow2_spec. Qed.

Lemma mod_pow2_spec v p : mod_pow2 v p = v mod 2 ^ p.
Proof. unfold mod_pow2. now rewrite div_mod_pow2_spec. Qed.

Lemma mul_pow2_spec v p : mul_pow2 v p = v * 2 ^ p.
Proof. unfold mul_pow2. apply N.shiftl_mul_pow2. Qed.

Lemma floor_pow2_spec v p : floor_pow2 v p = v / 2 ^ p * 2 ^ p.
Proof.
  unfold floor_pow2. rewrite div_mod_pow2_spec. apply N.shiftl_mul_pow2.
Qed.

Lemma ceil_pow2_spec v p :
  ceil_pow2 v p = (v / 2 ^ p + (if v mod 2 ^ p =? 0 then 0 else 1)) * 2 ^ p.
Proof.
  unfold ceil_pow2. rewrite div_mod_pow2_spec, N.shiftl_mul_pow2.
  destruct (v mod 2 ^ p =? 0); lia.
Qed.

Lemma is_multiple_of_pow2_spec v p :
  is_multiple_of_pow2 v p = (v mod 2 ^ p =? 0).
Proof. unfold is_multiple_of_pow2. now rewrite div_mod_pow2_spec. Qed.

Lemma pow2_pos p : 0 < 2 ^ p.
Proof. apply N.neq_0_lt_0, N.pow_nonzero. lia. Qed.

Lemma pow2_nz p : 2 ^ p <> 0.
Proof. apply N.pow_nonzero. lia. Qed.

Lemma ceil_pow2_ge v p : v <= ceil_pow2 v p.
Proof.
  rewrite ceil_pow2_spec. pose proof (pow2_nz p) as Hp.
  pose proof (N.div_mod v (2^p) Hp) as Hdm.
  pose proof (N.mod_lt v (2^p) Hp) as Hlt.
  destruct (N.eqb_spec (v mod 2 ^ p) 0); nia.
Qed.

Lemma ceil_pow2_lt v p : ceil_pow2 v p < v + 2 ^ p.
Proof.
  rewrite ceil_pow2_spec. pose proof (pow2_nz p) as Hp.
  pose proof (N.div_mod v (2^p) Hp) as Hdm.
  pose proof (N.mod_lt v (2^p) Hp) as Hlt.
  destruct (N.eqb_spec (v mod 2 ^ p) 0); nia.
Qed.

Lemma ceil_pow2_mult v p : ceil_pow2 v p mod 2 ^ p = 0.
Proof.
  rewrite ceil_pow2_spec. apply N.mod_mul, pow2_nz.
Qed.

Lemma floor_pow2_le v p : floor_pow2 v p <= v.
Proof.
  rewrite floor_pow2_spec. pose proof (pow2_nz p) as Hp.
  pose proof (N.div_mod v (2^p) Hp). nia.
Qed.

Lemma floor_pow2_gt v p : v < floor_pow2 v p + 2 ^ p.
Proof.
  rewrite floor_pow2_spec. pose proof (pow2_nz p) as Hp.
  pose proof (N.div_mod v (2^p) Hp).
  pose proof (N.mod_lt v (2^p) Hp). nia.
Qed.

Lemma floor_pow2_mult v p : floor_pow2 v p mod 2 ^ p = 0.
Proof. rewrite floor_pow2_spec. apply N.mod_mul, pow2_nz. Qed.

Lemma div_ceil_spec n d : d <> 0 -> d * div_ceil n d >= n /\ d * div_ceil n d < n + d.
Proof.
  intros Hd. unfold div_ceil.
  pose proof (N.div_mod n d Hd). pose proof (N.mod_lt n d Hd).
  destruct (N.eqb_spec (n mod d) 0); nia.
Qed.

Lemma div_lt_mul u p q : p <> 0 -> (u / p < q <-> u < q * p).
Proof.
  intros Hp. split; intros H.
  - pose proof (N.div_mod u p Hp) as Hd. pose proof (N.mod_lt u p Hp) as Hl.
    remember (u / p) as d. remember (u mod p) as r. clear Heqd Heqr. nia.
  - apply N.div_lt_upper_bound; [done|]. now rewrite N.mul_comm.
Qed.

Lemma le_div_mul u p q : p <> 0 -> (q <= u / p <-> q * p <= u).
Proof.
  intros Hp. pose proof (div_lt_mul u p q Hp). split; intros H'.
  - destruct (N.le_gt_cases (q * p) u); [done|]. apply H in H0. lia.
  - destruct (N.le_gt_cases q (u / p)); [done|]. apply H in H0. lia.
Qed.

Lemma mod_sub_0 x y P : P <> 0 -> x mod P = 0 -> y mod P = 0 -> (x - y) mod P = 0.
Proof.
  intros HP Hx Hy. apply N.mod_divide in Hx as [k ->]; [|done].
  apply N.mod_divide in Hy as [j ->]; [|done].
  rewrite <- N.mul_sub_distr_r. now apply N.mod_mul.
Qed.

Lemma mod_add_0 x y P : P <> 0 -> x mod P = 0 -> y mod P = 0 -> (x + y) mod P = 0.
Proof.
  intros HP Hx Hy. apply N.mod_divide in Hx as [k ->]; [|done].
  apply N.mod_divide in Hy as [j ->]; [|done].
  rewrite <- N.mul_add_distr_r. now apply N.mod_mul.
Qed.

(** [lia] after dropping hypotheses with division, remainder or powers. *)
Ltac slia := repeat match goal with
  | H : context [N.div _ _] |- _ => clear H
  | H : context [N.modulo _ _] |- _ => clear H
  | H : context [N.pow _ _] |- _ => clear H
  end; lia.

(** Replace powers of two by variables (after keeping only the named hypotheses). *)
Ltac gpow := repeat match goal with
  | H : context [2 ^ ?x] |- _ => let P := fresh "P" in let E := fresh "E" in
      remember (2 ^ x) as P eqn:E; clear E
  | |- context [2 ^ ?x] => let P := fresh "P" in let E := fresh "E" in
      remember (2 ^ x) as P eqn:E; clear E
  end.
Tactic Notation "clia" ne_hyp_list(hs) := clear - hs; gpow; lia.
