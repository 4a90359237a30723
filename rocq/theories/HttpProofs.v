(** Facts about the HTTP front end. *)
From Coq Require Import ZifyBool ZifyNat ZifyN.
From stdpp Require Import base numbers list_numbers option list.
From Verif Require Import Util Bytes PageIOModel TokenModel TokenProofs HttpModel.
Open Scope N_scope.
Ltac Zify.zify_post_hook ::= idtac.

(** * Decimal numbers *)
Definition is_digit (c : N) : Prop := 48 <= c <= 57.
Lemma dec_aux_digits fuel n : n < 10 ^ N.of_nat (S fuel) -> Forall is_digit (dec_aux fuel n).
Proof.
  revert n. induction fuel as [|fuel IH]; intros n H; cbn [dec_aux].
  - constructor; [|constructor]. change (10 ^ N.of_nat 1) with 10 in H. unfold is_digit. clear -H; lia.
  - destruct (N.ltb_spec n 10) as [E|E].
    + constructor; [|constructor]. unfold is_digit. clear -E; lia.
    + apply Forall_app_2.
      * apply IH. apply N.div_lt_upper_bound; [discriminate|].
        rewrite <- N.pow_succ_r'. rewrite <- Nat2N.inj_succ. exact H.
      * constructor; [|constructor]. pose proof (N.mod_lt n 10 ltac:(discriminate)) as Hm. unfold is_digit. clear -Hm; lia.
Qed.
Lemma digits_app acc s t : digits acc (s ++ t) = (v ← digits acc s; digits v t).
Proof.
  revert acc. induction s as [|c s IH]; intros acc; [reflexivity|]. cbn [app digits].
  destruct (digit c); [|reflexivity]. cbn [mbind option_bind]. apply IH.
Qed.
Lemma digit_ok d : d < 10 -> digit (48 + d) = Some d.
Proof. intros H. unfold digit. replace ((48 <=? 48 + d) && (48 + d <=? 57)) with true by (clear -H; lia). f_equal. clear; lia. Qed.
Lemma dec_aux_value fuel n : n < 10 ^ N.of_nat (S fuel) -> digits 0 (dec_aux fuel n) = Some n.
Proof.
  revert n. induction fuel as [|fuel IH]; intros n H; cbn [dec_aux].
  - change (10 ^ N.of_nat 1) with 10 in H. cbn [digits]. rewrite digit_ok by exact H. reflexivity.
  - destruct (N.ltb_spec n 10) as [E|E].
    + cbn [digits]. rewrite digit_ok by exact E. reflexivity.
    + rewrite digits_app, IH.
      2: { apply N.div_lt_upper_bound; [discriminate|]. rewrite <- N.pow_succ_r'. rewrite <- Nat2N.inj_succ. exact H. }
      cbn [mbind option_bind digits]. pose proof (N.mod_lt n 10 ltac:(discriminate)) as Hm.
      rewrite digit_ok by exact Hm. cbn [mbind option_bind]. f_equal.
      pose proof (N.div_mod n 10 ltac:(discriminate)) as Hd. rewrite Hd at 3. clear. lia.
Qed.
Lemma size_bound n : n < 10 ^ N.of_nat (S (N.size_nat n)).
Proof.
  assert (H : n < 2 ^ N.of_nat (N.size_nat n)).
  { rewrite <- (Nnat.N2Nat.id (N.of_nat (N.size_nat n))), Nnat.Nat2N.id.
    replace (N.of_nat (N.size_nat n)) with (N.size n) by (destruct n as [|p]; [reflexivity|cbn; induction p; cbn in *; lia]).
    apply N.size_gt. }
  eapply N.lt_le_trans; [exact H|]. transitivity (10 ^ N.of_nat (N.size_nat n)).
  - apply N.pow_le_mono_l. discriminate.
  - apply N.pow_le_mono_r; [discriminate|]. clear. lia.
Qed.
Lemma dec_digits n : Forall is_digit (dec n).
Proof. apply dec_aux_digits, size_bound. Qed.
Lemma dec_value n : digits 0 (dec n) = Some n.
Proof. apply dec_aux_value, size_bound. Qed.
Lemma dec_ne n : dec n <> [].
Proof. unfold dec. destruct (N.size_nat n); cbn [dec_aux]; [discriminate|]. case_match; [discriminate|]. intros E. apply app_eq_nil in E as [_ E]. discriminate E. Qed.
Lemma dec_inj m n : dec m = dec n -> m = n.
Proof. intros E. pose proof (dec_value m) as H. rewrite E, dec_value in H. congruence. Qed.
Lemma parse_dec n : n < 2 ^ 64 -> parse_u64 (dec n) = Some n.
Proof.
  intros H. pose proof (dec_ne n) as Hne. pose proof (dec_digits n) as Hd. pose proof (dec_value n) as Hv.
  unfold parse_u64. destruct (dec n) as [|c t]; [congruence|].
  apply Forall_cons_1 in Hd as [Hc _]. unfold is_digit in Hc.
  assert (E : match c :: t with 43 :: t' => t' | _ => c :: t end = c :: t).
  { destruct c as [|p]; [reflexivity|]. assert (N.pos p <> 43) by (clear -Hc; lia).
    repeat (destruct p as [p|p|]; try reflexivity; try congruence). }
  rewrite E. rewrite Hv. cbn [mbind option_bind]. replace (n <? 2 ^ 64) with true by (symmetry; apply N.ltb_lt, H). reflexivity.
Qed.

(** * Range headers *)
Lemma split_hyphen_spec a b : 45 ∉ a -> split_hyphen (a ++ 45 :: b) = Some (a, b).
Proof.
  induction a as [|c a IH]; intros H; cbn [app split_hyphen].
  - reflexivity.
  - apply not_elem_of_cons in H as [H1 H2]. replace (c =? 45) with false by (symmetry; apply N.eqb_neq; congruence).
    rewrite IH by exact H2. reflexivity.
Qed.
Lemma digits_no c n : c < 48 \/ 57 < c -> c ∉ dec n.
Proof. intros H Hc. pose proof (dec_digits n) as D. rewrite Forall_forall in D. apply D in Hc. unfold is_digit in Hc. clear -H Hc; lia. Qed.

Definition not_space (c : N) : Prop := c <> 32 /\ c <> 9.
Lemma trim_start_id s : match s with [] => True | c :: _ => not_space c end -> trim_start s = s.
Proof.
  destruct s as [|c s]; [reflexivity|]. intros [H1 H2]. cbn [trim_start].
  replace ((c =? 32) || (c =? 9)) with false by (clear -H1 H2; lia). reflexivity.
Qed.
Lemma trim_id s : Forall not_space s -> trim s = s.
Proof.
  intros H. unfold trim.
  rewrite (trim_start_id s) by (destruct H; [exact I|assumption]).
  rewrite trim_start_id; [apply reverse_involutive|].
  apply Forall_reverse in H. destruct H; [exact I|assumption].
Qed.

(** What follows "bytes=" in a single range: digits and hyphens. *)
Lemma single_spec s : Forall (fun c => 45 <= c <= 57) s ->
  range_specs (bytes_eq ++ s) = Some (match parse_spec s with Some r => [r] | None => [] end).
Proof.
  intros H. unfold range_specs. rewrite take_app_alt, drop_app_alt by reflexivity.
  rewrite bool_decide_eq_true_2 by reflexivity. f_equal.
  unfold split_commas. rewrite split_aux_nocomma.
  - cbn [omap list_omap]. rewrite reverse_nil. cbn [app]. reflexivity.
  - intros Hc. rewrite Forall_forall in H. apply H in Hc. clear -Hc; lia.
Qed.
Lemma dec_chars n : Forall (fun c => 45 <= c <= 57) (dec n).
Proof. eapply Forall_impl; [apply dec_digits|]. intros c Hc. unfold is_digit in Hc. cbn. clear -Hc; lia. Qed.

Definition bound_text (b : option N) : list N := match b with Some v => dec v | None => [] end.
Definition bound_of (b : option N) : bound := match b with Some v => Included v | None => Unbounded end.
Lemma bound_text_chars b : Forall (fun c => 45 <= c <= 57) (bound_text b).
Proof. destruct b; [apply dec_chars|constructor]. Qed.
Lemma parse_bound_text b : (forall v, b = Some v -> v < 2 ^ 64) -> parse_bound (bound_text b) = Some (bound_of b).
Proof.
  intros H. destruct b as [v|]; [|reflexivity]. cbn [bound_text bound_of]. unfold parse_bound.
  rewrite parse_dec by (apply H; reflexivity). destruct (dec v) eqn:E; [destruct (dec_ne v E)|reflexivity].
Qed.
Lemma range_text a b : (forall v, a = Some v -> v < 2 ^ 64) -> (forall v, b = Some v -> v < 2 ^ 64) ->
  range_specs (bytes_eq ++ bound_text a ++ [45] ++ bound_text b) = Some [(bound_of a, bound_of b)].
Proof.
  intros Ha Hb.
  assert (Hc : Forall (fun c => 45 <= c <= 57) (bound_text a ++ [45] ++ bound_text b)).
  { apply Forall_app_2; [apply bound_text_chars|]. apply Forall_app_2; [|apply bound_text_chars]. repeat constructor; clear; lia. }
  rewrite single_spec by exact Hc. do 2 f_equal. unfold parse_spec.
  rewrite trim_id.
  2: { eapply Forall_impl; [exact Hc|]. intros c H. unfold not_space. cbn in H. clear -H; lia. }
  cbn [app]. rewrite split_hyphen_spec.
  2: { destruct a; [apply digits_no; left; clear; lia|apply not_elem_of_nil]. }
  cbn [mbind option_bind]. rewrite !parse_bound_text by assumption. reflexivity.
Qed.
