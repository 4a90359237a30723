(** Byte buffers and fixed-width integers, as the [off64] crate provides them. *)
From stdpp Require Import base numbers list list_numbers option.
From Coq Require Import ZifyBool ZifyNat ZifyN.
From Verif Require Import Util.
Open Scope N_scope.
Ltac Zify.zify_post_hook ::= idtac.

(** [create_uN_le(v)]: the low [n] bytes of [v], least significant first
    (off64 takes a prefix of [to_le_bytes], so a larger [v] is truncated). *)
Fixpoint le_bytes (n : nat) (v : N) : list N :=
  match n with O => [] | S n => v mod 256 :: le_bytes n (v / 256) end.
(** [create_uN_be(v)]. *)
Definition be_bytes (n : nat) (v : N) : list N := reverse (le_bytes n v).
(** [read_uN_le], [read_uN_be] of exactly the bytes of the integer. *)
Fixpoint le_val (l : list N) : N :=
  match l with [] => 0 | b :: l => b + 256 * le_val l end.
Definition be_val (l : list N) : N := le_val (reverse l).

(** [slice.read_at(off, len)]: [None] is the panic of an index out of range. *)
Definition buf_read (b : list N) (off len : N) : option (list N) :=
  if off + len <=? N.of_nat (length b)
  then Some (take (N.to_nat len) (drop (N.to_nat off) b)) else None.
(** [slice.write_at(off, data)]. *)
Definition buf_write (b : list N) (off : N) (data : list N) : option (list N) :=
  if off + N.of_nat (length data) <=? N.of_nat (length b)
  then Some (take (N.to_nat off) b ++ data ++ drop (N.to_nat off + length data) b) else None.

Definition is_byte (b : N) : Prop := b < 256.

Lemma le_bytes_length n v : length (le_bytes n v) = n.
Proof. revert v. induction n; intros v; cbn; [reflexivity|]. rewrite IHn. reflexivity. Qed.
Lemma be_bytes_length n v : length (be_bytes n v) = n.
Proof. unfold be_bytes. rewrite reverse_length. apply le_bytes_length. Qed.
Lemma le_bytes_byte n v : Forall is_byte (le_bytes n v).
Proof.
  revert v. induction n; intros v; cbn; constructor; [|apply IHn]. unfold is_byte. apply N.mod_lt. discriminate.
Qed.
Lemma be_bytes_byte n v : Forall is_byte (be_bytes n v).
Proof. apply Forall_reverse, le_bytes_byte. Qed.

Lemma le_val_bytes n v : v < 256 ^ N.of_nat n -> le_val (le_bytes n v) = v.
Proof.
  revert v. induction n as [|n IH]; intros v H.
  - cbn in *. lia.
  - cbn [le_bytes le_val]. rewrite IH.
    + pose proof (N.div_mod v 256 ltac:(discriminate)). lia.
    + apply N.div_lt_upper_bound; [discriminate|].
      replace (N.of_nat (S n)) with (N.succ (N.of_nat n)) in H by lia. rewrite N.pow_succ_r' in H. exact H.
Qed.
Lemma be_val_bytes n v : v < 256 ^ N.of_nat n -> be_val (be_bytes n v) = v.
Proof. intros H. unfold be_val, be_bytes. rewrite reverse_involutive. apply le_val_bytes, H. Qed.
Lemma le_val_bytes_mod n v : le_val (le_bytes n v) = v mod 256 ^ N.of_nat n.
Proof.
  revert v. induction n as [|n IH]; intros v.
  - cbn. rewrite N.mod_1_r. reflexivity.
  - cbn [le_bytes le_val]. rewrite IH.
    replace (N.of_nat (S n)) with (N.succ (N.of_nat n)) by lia. rewrite N.pow_succ_r'.
    rewrite N.mod_mul_r; [reflexivity|discriminate|]. apply N.pow_nonzero. discriminate.
Qed.
Lemma be_val_bytes_mod n v : be_val (be_bytes n v) = v mod 256 ^ N.of_nat n.
Proof. unfold be_val, be_bytes. rewrite reverse_involutive. apply le_val_bytes_mod. Qed.
Lemma le_val_lt l : Forall is_byte l -> le_val l < 256 ^ N.of_nat (length l).
Proof.
  induction 1 as [|b l Hb _ IH]; [cbn; lia|]. cbn [le_val length].
  replace (N.of_nat (S (length l))) with (N.succ (N.of_nat (length l))) by lia. rewrite N.pow_succ_r'.
  unfold is_byte in Hb. remember (256 ^ N.of_nat (length l)) as P. lia.
Qed.
Lemma be_val_lt l : Forall is_byte l -> be_val l < 256 ^ N.of_nat (length l).
Proof. intros H. unfold be_val. rewrite <- (reverse_length l). apply le_val_lt, Forall_reverse, H. Qed.
Lemma le_bytes_val l : Forall is_byte l -> le_bytes (length l) (le_val l) = l.
Proof.
  induction 1 as [|b l Hb _ IH]; [reflexivity|]. cbn [length le_bytes le_val].
  unfold is_byte in Hb.
  assert (E1 : (b + 256 * le_val l) mod 256 = b).
  { rewrite N.add_comm, N.mul_comm, N.add_mod, N.mod_mul, N.add_0_l, N.mod_mod by discriminate. apply N.mod_small, Hb. }
  assert (E2 : (b + 256 * le_val l) / 256 = le_val l).
  { rewrite N.add_comm, N.mul_comm, N.div_add_l by discriminate. rewrite N.div_small by exact Hb. lia. }
  rewrite E1, E2, IH. reflexivity.
Qed.
Lemma be_bytes_val l : Forall is_byte l -> be_bytes (length l) (be_val l) = l.
Proof.
  intros H. unfold be_bytes, be_val. rewrite <- (reverse_length l).
  rewrite le_bytes_val by (apply Forall_reverse, H). apply reverse_involutive.
Qed.

(** ** Reading and writing buffers *)
Lemma buf_write_Some b off data : off + N.of_nat (length data) <= N.of_nat (length b) ->
  exists b', buf_write b off data = Some b' /\ length b' = length b.
Proof.
  intros H. unfold buf_write. destruct (N.leb_spec (off + N.of_nat (length data)) (N.of_nat (length b))); [|lia].
  eexists. split; [reflexivity|]. rewrite !app_length, take_length, drop_length. lia.
Qed.
Lemma buf_write_length b off data b' : buf_write b off data = Some b' -> length b' = length b.
Proof.
  unfold buf_write. destruct (N.leb_spec (off + N.of_nat (length data)) (N.of_nat (length b))); [|discriminate].
  intros E. apply (inj Some) in E. subst. rewrite !app_length, take_length, drop_length. lia.
Qed.
Lemma buf_write_lookup b off data b' i : buf_write b off data = Some b' ->
  b' !! i = if (off <=? N.of_nat i) && (N.of_nat i <? off + N.of_nat (length data))
            then data !! (i - N.to_nat off)%nat else b !! i.
Proof.
  unfold buf_write. destruct (N.leb_spec (off + N.of_nat (length data)) (N.of_nat (length b))) as [H|]; [|discriminate].
  intros E. apply (inj Some) in E. subst b'.
  assert (Ht : length (take (N.to_nat off) b) = N.to_nat off) by (rewrite take_length; lia).
  destruct (N.leb_spec off (N.of_nat i)); cbn [andb].
  - rewrite lookup_app_r by lia. rewrite Ht. destruct (N.ltb_spec (N.of_nat i) (off + N.of_nat (length data))).
    + apply lookup_app_l. lia.
    + rewrite lookup_app_r by lia. rewrite lookup_drop. f_equal. lia.
  - rewrite lookup_app_l by lia. apply lookup_take. lia.
Qed.
Lemma buf_read_lookup b off len r i : buf_read b off len = Some r -> N.of_nat i < len ->
  r !! i = b !! (N.to_nat off + i)%nat.
Proof.
  unfold buf_read. destruct (N.leb_spec (off + len) (N.of_nat (length b))) as [H|]; [|discriminate].
  intros E Hi. apply (inj Some) in E. subst r. rewrite lookup_take by lia. apply lookup_drop.
Qed.
Lemma buf_read_length b off len r : buf_read b off len = Some r -> N.of_nat (length r) = len.
Proof.
  unfold buf_read. destruct (N.leb_spec (off + len) (N.of_nat (length b))) as [H|]; [|discriminate].
  intros E. apply (inj Some) in E. subst r. rewrite take_length, drop_length. lia.
Qed.
Lemma buf_read_ext b1 b2 off len : length b1 = length b2 ->
  (forall i, off <= N.of_nat i < off + len -> b1 !! i = b2 !! i) -> buf_read b1 off len = buf_read b2 off len.
Proof.
  intros Hl H. unfold buf_read. rewrite Hl.
  destruct (N.leb_spec (off + len) (N.of_nat (length b2))) as [Hle|]; [|reflexivity]. f_equal.
  apply list_eq. intros i. destruct (decide (N.of_nat i < len)) as [Hi|Hi].
  - rewrite !lookup_take, !lookup_drop by lia. apply H. lia.
  - rewrite !lookup_ge_None_2; [reflexivity| |]; rewrite take_length, drop_length; lia.
Qed.
(** Reading back what was written, and reading elsewhere. *)
Lemma buf_read_same b off data b' : buf_write b off data = Some b' ->
  buf_read b' off (N.of_nat (length data)) = Some data.
Proof.
  intros E. pose proof (buf_write_length _ _ _ _ E) as Hl.
  assert (Hle : off + N.of_nat (length data) <= N.of_nat (length b)).
  { unfold buf_write in E. destruct (N.leb_spec (off + N.of_nat (length data)) (N.of_nat (length b))); [assumption|discriminate]. }
  unfold buf_read. rewrite Hl. destruct (N.leb_spec (off + N.of_nat (length data)) (N.of_nat (length b))); [|lia].
  f_equal. apply list_eq. intros i. destruct (decide (i < length data)%nat) as [Hi|Hi].
  - rewrite lookup_take, lookup_drop by lia. rewrite (buf_write_lookup _ _ _ _ _ E).
    destruct (N.leb_spec off (N.of_nat (N.to_nat off + i))); [|lia].
    destruct (N.ltb_spec (N.of_nat (N.to_nat off + i)) (off + N.of_nat (length data))); [|lia]. cbn [andb]. f_equal. lia.
  - rewrite !lookup_ge_None_2; [reflexivity|lia|]. rewrite take_length. lia.
Qed.
Lemma buf_read_same' b off data b' n : buf_write b off data = Some b' -> n = N.of_nat (length data) ->
  buf_read b' off n = Some data.
Proof. intros E ->. eapply buf_read_same, E. Qed.
Lemma buf_read_other b off data b' off2 len2 : buf_write b off data = Some b' ->
  off2 + len2 <= off \/ off + N.of_nat (length data) <= off2 ->
  buf_read b' off2 len2 = buf_read b off2 len2.
Proof.
  intros E H. apply buf_read_ext; [eapply buf_write_length, E|]. intros i Hi.
  rewrite (buf_write_lookup _ _ _ _ _ E).
  destruct (N.leb_spec off (N.of_nat i)); [|reflexivity].
  destruct (N.ltb_spec (N.of_nat i) (off + N.of_nat (length data))); [lia|reflexivity].
Qed.
Lemma buf_read_Some b off len : off + len <= N.of_nat (length b) -> is_Some (buf_read b off len).
Proof. intros H. unfold buf_read. destruct (N.leb_spec (off + len) (N.of_nat (length b))); [eauto|lia]. Qed.
Lemma buf_read_None b off len : N.of_nat (length b) < off + len -> buf_read b off len = None.
Proof. intros H. unfold buf_read. destruct (N.leb_spec (off + len) (N.of_nat (length b))); [lia|reflexivity]. Qed.
(** Reading in a concatenation. *)
Lemma buf_read_app a m b : buf_read (a ++ m ++ b) (N.of_nat (length a)) (N.of_nat (length m)) = Some m.
Proof.
  unfold buf_read. rewrite !app_length. destruct (N.leb_spec (N.of_nat (length a) + N.of_nat (length m)) (N.of_nat (length a + (length m + length b)))); [|lia].
  rewrite !Nat2N.id, drop_app, take_app. reflexivity.
Qed.
Lemma buf_read_app' a m b off len : off = N.of_nat (length a) -> len = N.of_nat (length m) ->
  buf_read (a ++ m ++ b) off len = Some m.
Proof. intros -> ->. apply buf_read_app. Qed.
