(** Proofs about the packed tail list and the page layout. *)
From stdpp Require Import base numbers list option sets.
From Coq Require Import ZifyBool ZifyNat ZifyN.
From Verif Require Import Util LayoutModel.
Open Scope N_scope.

(** * Bits *)
Lemma testbit_shiftl a n k : N.testbit (N.shiftl a n) k = (n <=? k) && N.testbit a (k - n).
Proof.
  destruct (N.leb_spec n k) as [H|H]; cbn [andb].
  - now rewrite N.shiftl_spec_high'.
  - now rewrite N.shiftl_spec_low.
Qed.
Lemma testbit_ones n k : N.testbit (N.ones n) k = (k <? n).
Proof.
  destruct (N.ltb_spec k n).
  - now rewrite N.ones_spec_low.
  - now rewrite N.ones_spec_high.
Qed.
Lemma testbit_trunc x k : N.testbit (u64_trunc x) k = (k <? 64) && N.testbit x k.
Proof.
  unfold u64_trunc. destruct (N.ltb_spec k 64); cbn [andb].
  - now rewrite N.mod_pow2_bits_low.
  - now rewrite N.mod_pow2_bits_high.
Qed.
Lemma testbit_31 k : N.testbit 31 k = (k <? 5).
Proof. exact (testbit_ones 5 k). Qed.
Lemma testbit_15 k : N.testbit 15 k = (k <? 4).
Proof. exact (testbit_ones 4 k). Qed.
Lemma testbit_lt a n k : a < 2 ^ n -> n <= k -> N.testbit a k = false.
Proof.
  intros Ha Hk. destruct (N.eq_dec a 0) as [->|Hz]; [apply N.bits_0|].
  apply N.bits_above_log2. apply N.log2_lt_pow2 in Ha; lia.
Qed.

(** * A shard represents a list of at most 12 exponents *)
Definition shard_rep (s : N) (l : list N) : Prop :=
  (length l <= 12)%nat /\ Forall (fun v => v < 32) l /\
  forall k, N.testbit s k =
    if k <? 60 then N.testbit (default 0 (l !! N.to_nat (k / 5))) (k mod 5)
    else (k <? 64) && N.testbit (N.of_nat (length l)) (k - 60).

Lemma shard_rep_nil : shard_rep 0 [].
Proof.
  split; [cbn; lia|]. split; [constructor|]. intros k. rewrite N.bits_0.
  destruct (N.ltb_spec k 60); cbn; rewrite ?N.bits_0; [reflexivity|].
  now rewrite andb_false_r.
Qed.

Lemma shard_rep_len s l : shard_rep s l -> shard_get_len s = N.of_nat (length l).
Proof.
  intros (Hlen & Hf & Hb). unfold shard_get_len. apply N.bits_inj. intros k.
  rewrite N.shiftr_spec', N.land_spec, testbit_shiftl, testbit_15, Hb.
  replace (k + 60 - 60) with k by lia.
  destruct (N.ltb_spec (k + 60) 60); [lia|].
  destruct (N.leb_spec 60 (k + 60)); [|lia]. cbn [andb].
  destruct (N.ltb_spec k 4) as [Hk|Hk].
  - destruct (N.ltb_spec (k + 60) 64); [|lia]. cbn [andb]. now rewrite andb_true_r.
  - rewrite andb_false_r. symmetry. apply (testbit_lt _ 4); [|lia].
    change (2 ^ 4) with 16. lia.
Qed.

Lemma Forall_lookup_lt l i : Forall (fun v : N => v < 32) l -> default 0 (l !! i) < 2 ^ 5.
Proof.
  intros H. destruct (l !! i) as [v|] eqn:E; cbn.
  - exact (Forall_lookup_1 _ _ _ _ H E).
  - reflexivity.
Qed.

Lemma shard_rep_get s l i v :
  shard_rep s l -> l !! N.to_nat i = Some v -> shard_get s i = Some v.
Proof.
  intros (Hlen & Hf & Hb) Hi. unfold shard_get.
  pose proof (lookup_lt_Some _ _ _ Hi) as Hlt.
  destruct (N.ltb_spec i 12) as [_|]; [|lia]. f_equal.
  apply N.bits_inj. intros k.
  rewrite N.shiftr_spec', N.land_spec, testbit_trunc, testbit_shiftl, testbit_31, Hb.
  replace (k + i * 5 - i * 5) with k by lia.
  destruct (N.leb_spec (i * 5) (k + i * 5)); [|lia]. cbn [andb].
  destruct (N.ltb_spec k 5) as [Hk|Hk].
  - rewrite !andb_true_r. destruct (N.ltb_spec (k + i * 5) 64); [|lia]. rewrite andb_true_r.
    destruct (N.ltb_spec (k + i * 5) 60); [|lia].
    rewrite N.div_add, N.mod_add by lia. rewrite (N.div_small k), (N.mod_small k) by lia.
    rewrite N.add_0_l, Hi. reflexivity.
  - rewrite !andb_false_r. symmetry.
    pose proof (Forall_lookup_lt l (N.to_nat i) Hf) as Hv. rewrite Hi in Hv. cbn in Hv.
    exact (testbit_lt _ 5 _ Hv Hk).
Qed.

Lemma shard_rep_push s l v :
  shard_rep s l -> (length l < 12)%nat -> v < 32 ->
  exists s1 s2, shard_set s (N.of_nat (length l)) v = Some s1 /\
    shard_set_len s1 (N.of_nat (length l) + 1) = Some s2 /\ shard_rep s2 (l ++ [v]).
Proof.
  intros (Hlen & Hf & Hb) Hl Hv. unfold shard_set, shard_set_len.
  destruct (N.ltb_spec v 32); [|lia].
  destruct (N.leb_spec (N.of_nat (length l) + 1) 12); [|lia].
  eexists _, _. split; [reflexivity|]. split; [reflexivity|].
  set (n := N.of_nat (length l)).
  split; [rewrite app_length; cbn; lia|].
  split; [apply Forall_app; split; [exact Hf|repeat constructor; exact Hv]|].
  intros k.
  rewrite N.lor_spec, N.ldiff_spec, N.lor_spec, N.ldiff_spec.
  rewrite !testbit_trunc, !testbit_shiftl, testbit_31, testbit_15, Hb.
  rewrite app_length. cbn [length]. replace (N.of_nat (length l + 1)) with (n + 1) by lia.
  destruct (N.ltb_spec k 60) as [Hk|Hk].
  - destruct (N.leb_spec 60 k); [lia|]. cbn [andb]. rewrite !andb_false_r, !orb_false_r. cbn [negb].
    rewrite andb_true_r.
    destruct (N.ltb_spec k 64); [|lia]. cbn [andb].
    set (i := k / 5). set (r := k mod 5).
    assert (Hk5 : k = 5 * i + r) by (apply N.div_mod; lia).
    assert (Hr : r < 5) by (apply N.mod_lt; lia).
    destruct (N.lt_trichotomy i n) as [Hin|[Hin|Hin]].
    + rewrite lookup_app_l by lia.
      destruct (N.leb_spec (n * 5) k); [lia|]. cbn [andb negb]. now rewrite andb_true_r, orb_false_r.
    + rewrite lookup_app_r by lia. replace (N.to_nat i - length l)%nat with 0%nat by lia.
      cbn [lookup list_lookup default].
      destruct (N.leb_spec (n * 5) k); [|lia]. cbn [andb].
      destruct (N.ltb_spec (k - n * 5) 5); [|lia]. cbn [negb]. rewrite andb_false_r, orb_false_l.
      cbn [id]. f_equal. lia.
    + rewrite !lookup_ge_None_2 by (rewrite ?app_length; cbn [length]; lia).
      destruct (N.leb_spec (n * 5) k); [|lia]. cbn [andb].
      destruct (N.ltb_spec (k - n * 5) 5); [lia|]. cbn [negb default].
      rewrite N.bits_0. cbn [andb orb].
      apply (testbit_lt v 5); [exact Hv|lia].
  - destruct (N.leb_spec 60 k); [|lia]. cbn [andb].
    destruct (N.ltb_spec k 64) as [Hk64|Hk64]; cbn [andb].
    + destruct (N.ltb_spec (k - 60) 4); [|lia]. cbn [negb]. now rewrite andb_false_r.
    + destruct (N.ltb_spec (k - 60) 4); [lia|]. cbn [negb andb orb]. reflexivity.
Qed.

(** * The pair of shards represents the whole list *)
Definition tps_rep (t : TailPageSizes) (l : list N) : Prop :=
  shard_rep (fst t) (take 12 l) /\ shard_rep (snd t) (drop 12 l).

Lemma tps_rep_nil : tps_rep tps_new [].
Proof. split; apply shard_rep_nil. Qed.

Lemma tps_rep_bound t l : tps_rep t l -> (length l <= 24)%nat /\ Forall (fun v => v < 32) l.
Proof.
  intros [(H1 & H2 & _) (H3 & H4 & _)]. split.
  - rewrite drop_length in H3. lia.
  - rewrite <- (take_drop 12 l). apply Forall_app. auto.
Qed.

Lemma tps_rep_len t l : tps_rep t l -> tps_len t = N.of_nat (length l).
Proof.
  intros [H1 H2]. unfold tps_len. rewrite (shard_rep_len _ _ H1), (shard_rep_len _ _ H2).
  rewrite take_length, drop_length. lia.
Qed.

Lemma tps_rep_get t l idx : tps_rep t l -> tps_get t idx = Some (l !! N.to_nat idx).
Proof.
  intros H. pose proof H as [H1 H2]. unfold tps_get. rewrite (tps_rep_len _ _ H).
  destruct (N.leb_spec (N.of_nat (length l)) idx) as [Hi|Hi].
  { rewrite lookup_ge_None_2 by lia. reflexivity. }
  destruct (lookup_lt_is_Some_2 l (N.to_nat idx)) as [v Hv]; [lia|]. rewrite Hv.
  destruct (N.ltb_spec idx 12) as [H12|H12].
  - rewrite (shard_rep_get _ _ _ v H1); [reflexivity|]. rewrite lookup_take by lia. exact Hv.
  - rewrite (shard_rep_get _ _ _ v H2); [reflexivity|]. rewrite lookup_drop. rewrite <- Hv. f_equal. lia.
Qed.

Lemma tps_rep_push t l v :
  tps_rep t l -> (length l < 24)%nat -> v < 32 ->
  exists t', tps_push t v = Some t' /\ tps_rep t' (l ++ [v]).
Proof.
  intros H Hl Hv. pose proof H as [H1 H2]. unfold tps_push. rewrite (tps_rep_len _ _ H).
  destruct (N.ltb_spec (N.of_nat (length l)) 12) as [H12|H12].
  - rewrite take_ge in H1 by lia. rewrite drop_ge in H2 by lia.
    destruct (shard_rep_push _ _ v H1) as (s1 & s2 & E1 & E2 & H'); [lia|exact Hv|].
    rewrite E1. cbn [mbind option_bind]. rewrite E2. cbn [mbind option_bind].
    eexists. split; [reflexivity|]. split; cbn [fst snd].
    + rewrite take_ge by (rewrite app_length; cbn; lia). exact H'.
    + rewrite drop_ge by (rewrite app_length; cbn; lia). exact H2.
  - destruct (shard_rep_push _ _ v H2) as (s1 & s2 & E1 & E2 & H'); [rewrite drop_length; lia|exact Hv|].
    rewrite drop_length in E1, E2.
    replace (N.of_nat (length l - 12)) with (N.of_nat (length l) - 12) in E1, E2 by lia.
    rewrite E1. cbn [mbind option_bind]. rewrite E2. cbn [mbind option_bind].
    eexists. split; [reflexivity|]. split; cbn [fst snd].
    + rewrite take_app_le by lia. exact H1.
    + rewrite drop_app_le by lia. exact H'.
Qed.

Lemma tps_push_too_big t l v : tps_rep t l -> 32 <= v -> tps_push t v = None.
Proof.
  intros H Hv. unfold tps_push, shard_set.
  destruct (N.ltb_spec v 32); [lia|]. destruct (_ <? 12); reflexivity.
Qed.

Lemma tps_push_full t l v : tps_rep t l -> length l = 24%nat -> tps_push t v = None.
Proof.
  intros H Hl. unfold tps_push. rewrite (tps_rep_len _ _ H), Hl.
  change (N.of_nat 24 <? 12) with false. cbn iota.
  unfold shard_set. destruct (v <? 32); cbn [mbind option_bind]; [|reflexivity].
  reflexivity.
Qed.

(** Iteration. *)
Definition enumerate (l : list N) : list (N * N) :=
  zip (map N.of_nat (seq 0 (length l))) l.

Lemma tps_rep_iter t l idx fuel :
  tps_rep t l -> (idx <= length l)%nat -> (length l - idx < fuel)%nat ->
  tps_iter t (N.of_nat idx) fuel =
    Some (zip (map N.of_nat (seq idx (length l - idx))) (drop idx l)).
Proof.
  revert idx. induction fuel as [|fuel IH]; intros idx H Hi Hf; [lia|].
  cbn [tps_iter]. rewrite (tps_rep_get _ _ _ H), Nat2N.id.
  destruct (l !! idx) as [v|] eqn:E.
  - pose proof (lookup_lt_Some _ _ _ E) as Hlt. replace (N.of_nat idx + 1) with (N.of_nat (S idx)) by lia.
    rewrite IH by (auto; lia). cbn [fmap option_fmap option_map].
    rewrite (drop_S _ _ _ E).
    replace (length l - idx)%nat with (S (length l - S idx)) by lia.
    cbn [seq map zip zip_with]. reflexivity.
  - apply lookup_ge_None in E. rewrite drop_ge by lia.
    replace (length l - idx)%nat with 0%nat by lia. reflexivity.
Qed.

Lemma tps_rep_collect t l : tps_rep t l -> tps_collect t = Some (enumerate l).
Proof.
  intros H. unfold tps_collect, enumerate.
  pose proof (proj1 (tps_rep_bound _ _ H)).
  change 0 with (N.of_nat 0). rewrite (tps_rep_iter t l 0 26 H) by lia.
  rewrite Nat.sub_0_r. reflexivity.
Qed.

(** Pushing a whole list. *)
Fixpoint tps_push_all (t : TailPageSizes) (l : list N) : option TailPageSizes :=
  match l with
  | [] => Some t
  | v :: l => t' ← tps_push t v; tps_push_all t' l
  end.

Lemma tps_push_all_rep t l0 l :
  tps_rep t l0 -> (length l0 + length l <= 24)%nat -> Forall (fun v => v < 32) l ->
  exists t', tps_push_all t l = Some t' /\ tps_rep t' (l0 ++ l).
Proof.
  revert t l0. induction l as [|v l IH]; intros t l0 H Hl Hf.
  - exists t. rewrite app_nil_r. auto.
  - inversion Hf as [|? ? Hv Hf']; subst. cbn [length] in Hl.
    destruct (tps_rep_push t l0 v H) as (t1 & E1 & H1); [lia|exact Hv|].
    destruct (IH t1 (l0 ++ [v]) H1) as (t' & E' & H'); [rewrite app_length; cbn; lia|exact Hf'|].
    exists t'. cbn [tps_push_all]. rewrite E1. cbn [mbind option_bind].
    rewrite <- app_assoc in H'. auto.
Qed.

(** * The layout loop *)

Lemma ldiff_high rem : rem <> 0 ->
  N.ldiff rem (N.shiftl 1 (N.log2 rem)) = rem - 2 ^ N.log2 rem /\
  2 ^ N.log2 rem <= rem < 2 * 2 ^ N.log2 rem.
Proof.
  intros Hz. pose proof (N.log2_spec rem ltac:(lia)) as [H1 H2].
  rewrite N.pow_succ_r' in H2. split; [|split; assumption].
  remember (N.log2 rem) as k eqn:Ek. clear Ek.
  assert (Hr : rem - 2 ^ k < 2 ^ k) by lia.
  apply N.bits_inj. intros j. rewrite N.ldiff_spec, testbit_shiftl.
  replace rem with ((rem - 2 ^ k) + 1 * 2 ^ k) at 1 by lia.
  assert (Hbits : N.testbit (rem - 2 ^ k + 1 * 2 ^ k) j =
     (N.testbit (rem - 2 ^ k) j || (j =? k))%bool).
  { rewrite N.mul_1_l, N.add_nocarry_lxor.
    - rewrite N.lxor_spec. rewrite N.pow2_bits_eqb, (N.eqb_sym k j).
      destruct (N.eqb_spec j k) as [->|]; [rewrite (testbit_lt _ k k) by lia|]; 
        repeat match goal with |- context [N.testbit ?a ?b] => destruct (N.testbit a b) end; reflexivity.
    - apply N.bits_inj. intros i. rewrite N.land_spec, N.pow2_bits_eqb, N.bits_0.
      destruct (N.eqb_spec k i) as [<-|]; [rewrite (testbit_lt _ k k) by lia|]; 
        repeat match goal with |- context [N.testbit ?a ?b] => destruct (N.testbit a b) end; reflexivity. }
  rewrite Hbits.
  destruct (N.eqb_spec j k) as [Hjk|Hne]; [subst j|].
  - destruct (N.leb_spec k k); [|lia]. rewrite N.sub_diag. cbn [andb N.testbit negb].
    rewrite andb_false_r. symmetry. now apply (testbit_lt _ k k).
  - rewrite orb_false_r.
    assert (E : ((k <=? j) && N.testbit 1 (j - k))%bool = false).
    { destruct (N.leb_spec k j); [|reflexivity]. cbn [andb].
      change 1 with (2 ^ 0). rewrite N.pow2_bits_eqb. apply N.eqb_neq. lia. }
    rewrite E. cbn [negb]. now rewrite andb_true_r.
Qed.

(** The exponents of the binary expansion, highest first. *)
Fixpoint bits_desc (rem : N) (fuel : nat) : list N :=
  match fuel with
  | O => []
  | S fuel => if rem =? 0 then [] else N.log2 rem :: bits_desc (rem - 2 ^ N.log2 rem) fuel
  end.

Lemma bits_desc_S rem fuel : bits_desc rem (S fuel) =
  if rem =? 0 then [] else N.log2 rem :: bits_desc (rem - 2 ^ N.log2 rem) fuel.
Proof. reflexivity. Qed.
Lemma bits_desc_0 fuel : bits_desc 0 fuel = [].
Proof. destruct fuel; reflexivity. Qed.

Definition sum_pow2 (l : list N) : N := foldr (fun p s => 2 ^ p + s) 0 l.

Lemma bits_desc_sum rem fuel : rem < 2 ^ N.of_nat fuel -> sum_pow2 (bits_desc rem fuel) = rem.
Proof.
  revert rem. induction fuel as [|fuel IH]; intros rem H.
  - cbn [N.of_nat] in H. rewrite N.pow_0_r in H. cbn. lia.
  - cbn [bits_desc]. destruct (N.eqb_spec rem 0) as [->|Hz]; [reflexivity|].
    destruct (ldiff_high rem Hz) as [_ [H1 H2]].
    cbn [sum_pow2 foldr]. fold (sum_pow2 (bits_desc (rem - 2 ^ N.log2 rem) fuel)).
    rewrite IH; [lia|].
    rewrite Nat2N.inj_succ, N.pow_succ_r' in H.
    apply N.le_lt_trans with (2 ^ N.log2 rem - 1); [lia|].
    apply N.lt_le_trans with (2 ^ N.log2 rem); [lia|].
    apply N.pow_le_mono_r; [lia|].
    assert (N.log2 rem < N.succ (N.of_nat fuel)); [|lia].
    apply N.log2_lt_pow2; [lia|]. rewrite N.pow_succ_r'. exact H.
Qed.

(** Strictly decreasing. *)
Fixpoint desc (l : list N) : Prop :=
  match l with
  | [] => True
  | x :: rest => (forall y, y ∈ rest -> y < x) /\ desc rest
  end.

Lemma bits_desc_bound rem fuel b x : rem < 2 ^ b -> x ∈ bits_desc rem fuel -> x < b.
Proof.
  revert rem. induction fuel as [|fuel IH]; intros rem H; cbn [bits_desc]; [set_solver|].
  destruct (N.eqb_spec rem 0) as [->|Hz]; [set_solver|].
  destruct (ldiff_high rem Hz) as [_ [H1 H2]].
  intros Hx. apply elem_of_cons in Hx as [->|Hx].
  - apply N.log2_lt_pow2; [lia|exact H].
  - apply (IH (rem - 2 ^ N.log2 rem)); [lia|exact Hx].
Qed.

Lemma bits_desc_desc rem fuel : desc (bits_desc rem fuel).
Proof.
  revert rem. induction fuel as [|fuel IH]; intros rem; cbn [bits_desc]; [exact I|].
  destruct (N.eqb_spec rem 0) as [->|Hz]; [exact I|].
  destruct (ldiff_high rem Hz) as [_ [H1 H2]].
  split; [|apply IH]. intros y Hy. eapply bits_desc_bound; [|exact Hy]. lia.
Qed.

Lemma bits_desc_low rem fuel s x : rem mod 2 ^ s = 0 -> x ∈ bits_desc rem fuel -> s <= x.
Proof.
  revert rem. induction fuel as [|fuel IH]; intros rem H; cbn [bits_desc]; [set_solver|].
  destruct (N.eqb_spec rem 0) as [->|Hz]; [set_solver|].
  destruct (ldiff_high rem Hz) as [_ [H1 H2]].
  assert (Hs : s <= N.log2 rem).
  { destruct (N.le_gt_cases s (N.log2 rem)) as [?|Hlt]; [done|exfalso].
    apply N.mod_divide in H as [q Hq]; [|apply pow2_nz].
    assert (2 * 2 ^ N.log2 rem <= 2 ^ s).
    { rewrite <- N.pow_succ_r'. apply N.pow_le_mono_r; lia. }
    destruct q as [|q]; [lia|]. assert (2 ^ s <= N.pos q * 2 ^ s) by (clear; nia). lia. }
  intros Hx. apply elem_of_cons in Hx as [->|Hx]; [exact Hs|].
  apply (IH (rem - 2 ^ N.log2 rem)); [|exact Hx].
  apply mod_sub_0; [apply pow2_nz|exact H|].
  replace (N.log2 rem) with (N.log2 rem - s + s) by lia. rewrite N.pow_add_r.
  apply N.mod_mul, pow2_nz.
Qed.

Lemma desc_length_gen l lo hi : desc l -> (forall x, x ∈ l -> lo <= x < hi) -> lo <= hi ->
  N.of_nat (length l) <= hi - lo.
Proof.
  revert hi. induction l as [|x l IH]; intros hi Hd Hb Hle; cbn [length]; [lia|].
  destruct Hd as [Hx Hd]. pose proof (Hb x ltac:(set_solver)) as Hbx.
  specialize (IH x Hd). rewrite Nat2N.inj_succ.
  assert (N.of_nat (length l) <= x - lo); [|lia].
  apply IH; [|lia]. intros y Hy. split; [apply Hb; set_solver|now apply Hx].
Qed.

Lemma layout_loop_rep rem t l fuel :
  tps_rep t l -> rem < 2 ^ N.of_nat fuel ->
  (length l + length (bits_desc rem fuel) <= 24)%nat ->
  Forall (fun v => v < 32) (bits_desc rem fuel) ->
  exists t', layout_loop rem t (S fuel) = Some t' /\ tps_rep t' (l ++ bits_desc rem fuel).
Proof.
  revert rem t l. induction fuel as [|fuel IH]; intros rem t l H Hr Hl Hf.
  - cbn [N.of_nat] in Hr. rewrite N.pow_0_r in Hr. assert (rem = 0) as -> by lia.
    exists t. cbn. rewrite app_nil_r. auto.
  - cbn [layout_loop]. cbn [bits_desc] in *.
    destruct (N.eqb_spec rem 0) as [->|Hz].
    { exists t. rewrite app_nil_r. auto. }
    destruct (ldiff_high rem Hz) as [E [H1 H2]]. rewrite E.
    cbn [length] in Hl. inversion Hf as [|? ? Hv Hf']; subst.
    destruct (tps_rep_push t l (N.log2 rem) H) as (t1 & E1 & Ht1); [lia|exact Hv|].
    rewrite E1. cbn [mbind option_bind].
    destruct (IH (rem - 2 ^ N.log2 rem) t1 (l ++ [N.log2 rem]) Ht1) as (t' & E' & H').
    + rewrite Nat2N.inj_succ, N.pow_succ_r' in Hr.
      apply N.lt_le_trans with (2 ^ N.log2 rem); [lia|].
      apply N.pow_le_mono_r; [lia|].
      assert (N.log2 rem < N.succ (N.of_nat fuel)); [|lia].
      apply N.log2_lt_pow2; [lia|]. rewrite N.pow_succ_r'. exact Hr.
    + rewrite app_length. cbn [length]. lia.
    + exact Hf'.
    + exists t'. rewrite <- app_assoc in H'. auto.
Qed.

(** The layout for every accepted configuration with large pages below 2^32. *)
Lemma calc_layout_spec spage lpage limit size :
  spage <= lpage -> lpage < 32 -> lpage <= spage + 24 -> size / 2 ^ lpage < limit ->
  exists t tails,
    calc_object_layout spage lpage limit size = Some (size / 2 ^ lpage, t) /\
    tps_rep t tails /\ tails = bits_desc (ceil_pow2 (size mod 2 ^ lpage) spage) 64 /\
    (size / 2 ^ lpage) * 2 ^ lpage + sum_pow2 tails = size / 2 ^ lpage * 2 ^ lpage + ceil_pow2 (size mod 2 ^ lpage) spage /\
    desc tails /\ (forall x, x ∈ tails -> spage <= x <= lpage) /\
    (lpage ∈ tails -> tails = [lpage]) /\ (length tails <= 24)%nat.
Proof.
  intros Hsl Hl Hsl24 Hlim. unfold calc_object_layout. rewrite div_mod_pow2_spec.
  destruct (N.ltb_spec (size / 2 ^ lpage) limit); [|lia].
  set (tail := size mod 2 ^ lpage). set (rem := ceil_pow2 tail spage).
  assert (Htail : tail < 2 ^ lpage) by (apply N.mod_lt, pow2_nz).
  assert (Hrem : rem <= 2 ^ lpage).
  { unfold rem. pose proof (ceil_pow2_lt tail spage) as Hlt. pose proof (ceil_pow2_mult tail spage) as Hm.
    apply N.mod_divide in Hm as [q Hq]; [|apply pow2_nz]. rewrite Hq in *.
    replace (2 ^ lpage) with (2 ^ (lpage - spage) * 2 ^ spage) in *
      by (rewrite <- N.pow_add_r; f_equal; lia).
    apply N.mul_le_mono_r. 
    assert (q * 2 ^ spage < (2 ^ (lpage - spage) + 1) * 2 ^ spage) by lia.
    pose proof (pow2_pos spage). apply N.mul_lt_mono_pos_r in H0; lia. }
  assert (Hrem64 : rem < 2 ^ N.of_nat 64).
  { apply N.le_lt_trans with (2 ^ lpage); [exact Hrem|]. apply N.pow_lt_mono_r; lia. }
  pose proof (bits_desc_desc rem 64) as Hdesc.
  assert (Hlow : forall x, x ∈ bits_desc rem 64 -> spage <= x).
  { intros x. apply bits_desc_low. apply ceil_pow2_mult. }
  assert (Hhigh : forall x, x ∈ bits_desc rem 64 -> x < lpage + 1).
  { intros x. apply bits_desc_bound. rewrite N.add_1_r, N.pow_succ_r'. pose proof (pow2_pos lpage). lia. }
  assert (Htop : lpage ∈ bits_desc rem 64 -> bits_desc rem 64 = [lpage]).
  { intros Hin. destruct (N.lt_ge_cases rem (2 ^ lpage)) as [Hlt|Hge].
    - apply (bits_desc_bound _ _ lpage) in Hin; [lia|exact Hlt].
    - assert (E : rem = 2 ^ lpage) by lia. rewrite E.
      change 64%nat with (S 63). rewrite bits_desc_S.
      destruct (N.eqb_spec (2 ^ lpage) 0) as [Hc|_]; [now apply pow2_nz in Hc|].
      rewrite N.log2_pow2 by lia. rewrite N.sub_diag, bits_desc_0. reflexivity. }
  assert (Hlen : (length (bits_desc rem 64) <= 24)%nat).
  { destruct (decide (lpage ∈ bits_desc rem 64)) as [Hin|Hnin].
    - rewrite (Htop Hin). cbn. lia.
    - pose proof (desc_length_gen (bits_desc rem 64) spage lpage Hdesc) as H'.
      assert (Hb : forall x, x ∈ bits_desc rem 64 -> spage <= x < lpage).
      { intros x Hx. split; [now apply Hlow|]. pose proof (Hhigh x Hx).
        assert (x <> lpage) by (intros ->; contradiction). lia. }
      specialize (H' Hb Hsl). lia. }
  destruct (layout_loop_rep rem tps_new [] 64 tps_rep_nil Hrem64) as (t & Et & Ht).
  - cbn [length]. lia.
  - apply Forall_forall. intros x Hx. pose proof (Hhigh x Hx). lia.
  - change (S 64) with 65%nat in Et. rewrite app_nil_l in Ht.
    pose proof (bits_desc_sum rem 64 Hrem64) as Hsum.
    remember (bits_desc rem 64) as tails eqn:Etails. exists t, tails. rewrite Et.
    split; [reflexivity|]. split; [exact Ht|]. split; [first [exact Etails|reflexivity]|].
    split; [rewrite Hsum; reflexivity|]. split; [exact Hdesc|].
    split; [intros x Hx; pose proof (Hhigh x Hx); split; [now apply Hlow|lia]|].
    split; [exact Htop|exact Hlen].
Qed.
