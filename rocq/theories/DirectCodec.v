(** A metadata record decodes to what was encoded, whatever follows it. *)
From Coq Require Import ZifyBool ZifyNat ZifyN.
From stdpp Require Import base numbers list_numbers option gmap sets list.
From Verif Require Import Util Bytes BuddyModel TokenModel PageIOModel DirectModel DirectLoadModel.
Open Scope N_scope.
Ltac Zify.zify_post_hook ::= idtac.

Lemma mp_be_ok n v r : v < 256 ^ N.of_nat n -> mp_be n (be_bytes n v ++ r) = Some (v, r).
Proof.
  intros H. unfold mp_be. rewrite app_length, be_bytes_length.
  destruct (Nat.leb_spec n (n + length r)) as [_|Hl]; [|lia].
  rewrite take_app_alt by (now rewrite be_bytes_length). rewrite drop_app_alt by (now rewrite be_bytes_length).
  now rewrite be_val_bytes.
Qed.

Lemma mp_get_uint_ok v r : v < 2 ^ 64 -> mp_get_uint (mp_uint v ++ r) = Some (v, r).
Proof.
  intros H. unfold mp_uint.
  destruct (N.ltb_spec v 128) as [H1|H1].
  { cbn [app mp_get_uint]. destruct (N.ltb_spec v 128); [reflexivity|lia]. }
  destruct (N.ltb_spec v (2 ^ 8)) as [H2|H2]; [change (204 :: be_bytes 1 v) with ([204] ++ be_bytes 1 v); rewrite <- app_assoc;
    change (mp_get_uint ([204] ++ be_bytes 1 v ++ r)) with (mp_be 1 (be_bytes 1 v ++ r)); apply mp_be_ok; exact H2|].
  destruct (N.ltb_spec v (2 ^ 16)) as [H3|H3]; [change (205 :: be_bytes 2 v) with ([205] ++ be_bytes 2 v); rewrite <- app_assoc;
    change (mp_get_uint ([205] ++ be_bytes 2 v ++ r)) with (mp_be 2 (be_bytes 2 v ++ r)); apply mp_be_ok; exact H3|].
  destruct (N.ltb_spec v (2 ^ 32)) as [H4|H4]; [change (206 :: be_bytes 4 v) with ([206] ++ be_bytes 4 v); rewrite <- app_assoc;
    change (mp_get_uint ([206] ++ be_bytes 4 v ++ r)) with (mp_be 4 (be_bytes 4 v ++ r)); apply mp_be_ok; exact H4|].
  change (207 :: be_bytes 8 v) with ([207] ++ be_bytes 8 v). rewrite <- app_assoc.
  change (mp_get_uint ([207] ++ be_bytes 8 v ++ r)) with (mp_be 8 (be_bytes 8 v ++ r)). apply mp_be_ok. exact H.
Qed.

Lemma mp_get_array_ok n r : n < 2 ^ 32 -> mp_get_array (mp_array n ++ r) = Some (n, r).
Proof.
  intros H. unfold mp_array.
  destruct (N.ltb_spec n 16) as [H1|H1].
  { cbn [app mp_get_array]. destruct (N.leb_spec 144 (144 + n)); [|lia]. destruct (N.ltb_spec (144 + n) 160); [|lia]. cbn [andb].
    do 2 f_equal. lia. }
  destruct (N.ltb_spec n (2 ^ 16)) as [H3|H3]; [change (220 :: be_bytes 2 n) with ([220] ++ be_bytes 2 n); rewrite <- app_assoc;
    change (mp_get_array ([220] ++ be_bytes 2 n ++ r)) with (mp_be 2 (be_bytes 2 n ++ r)); apply mp_be_ok; exact H3|].
  change (221 :: be_bytes 4 n) with ([221] ++ be_bytes 4 n). rewrite <- app_assoc.
  change (mp_get_array ([221] ++ be_bytes 4 n ++ r)) with (mp_be 4 (be_bytes 4 n ++ r)). apply mp_be_ok. exact H.
Qed.

Lemma mp_uint_pos v : (1 <= length (mp_uint v))%nat.
Proof. unfold mp_uint. repeat case_match; cbn [length]; lia. Qed.
Lemma mp_uints_len l : (length l <= length (concat (map mp_uint l)))%nat.
Proof.
  induction l as [|x l IH]; [reflexivity|]. cbn [map concat length]. rewrite app_length. pose proof (mp_uint_pos x). lia.
Qed.
Lemma mp_get_uints_ok l r : Forall (fun x => x < 2 ^ 64) l -> mp_get_uints (length l) (concat (map mp_uint l) ++ r) = Some (l, r).
Proof.
  induction 1 as [|x l Hx Hl IH]; [reflexivity|]. cbn [length map concat mp_get_uints]. rewrite <- app_assoc.
  rewrite mp_get_uint_ok by exact Hx. cbn [mbind option_bind]. rewrite IH. reflexivity.
Qed.
Lemma mp_get_vec_ok l r : N.of_nat (length l) < 2 ^ 32 -> Forall (fun x => x < 2 ^ 64) l ->
  mp_get_vec (mp_vec_u64 l ++ r) = Some (l, r).
Proof.
  intros Hn Hl. unfold mp_get_vec, mp_vec_u64. rewrite <- app_assoc, mp_get_array_ok by exact Hn. cbn [mbind option_bind].
  rewrite app_length. pose proof (mp_uints_len l) as Hle.
  destruct (N.ltb_spec (N.of_nat (length (concat (map mp_uint l)) + length r)) (N.of_nat (length l))) as [H|_]; [clear -H Hle; lia|].
  rewrite Nat2N.id. now apply mp_get_uints_ok.
Qed.
Lemma mp_get_vec_u8_ok l r : N.of_nat (length l) < 2 ^ 32 -> Forall is_byte l ->
  mp_get_vec_u8 (mp_vec_u8 l ++ r) = Some (l, r).
Proof.
  intros Hn Hl. unfold mp_get_vec_u8. change (mp_vec_u8 l) with (mp_vec_u64 l). rewrite (mp_get_vec_ok l r Hn).
  - cbn [mbind option_bind]. replace (forallb (fun x => x <? 256) l) with true; [reflexivity|].
    symmetry. apply forallb_forall. intros x Hx. apply N.ltb_lt. rewrite Forall_forall in Hl. apply Hl, elem_of_list_In, Hx.
  - eapply Forall_impl; [exact Hl|]. unfold is_byte. intros x Hx. eapply N.lt_trans; [exact Hx|reflexivity].
Qed.

(** The fields have the widths of the code's types. *)
Record typed_meta (m : dmeta) : Prop := {
  tm_size : m_size m < 2 ^ 64;
  tm_created : m_created m < 2 ^ 64;
  tm_key : Forall is_byte (m_key m);
  tm_key_len : N.of_nat (length (m_key m)) < 2 ^ 32;
  tm_lpages : Forall (fun x => x < 2 ^ 64) (m_lpages m);
  tm_lpages_len : N.of_nat (length (m_lpages m)) < 2 ^ 32;
  tm_tails : Forall (fun x => x < 2 ^ 64) (m_tails m);
  tm_tails_len : N.of_nat (length (m_tails m)) < 2 ^ 32;
}.

Lemma meta_decode_ok m r : typed_meta m -> meta_decode (meta_encode m ++ r) = Some (m, N.of_nat (length (meta_encode m))).
Proof.
  intros []. unfold meta_decode. remember (length (meta_encode m ++ r)) as n eqn:Hn. unfold meta_encode at 1.
  rewrite <- (app_assoc (mp_array 5)). rewrite mp_get_array_ok by reflexivity. cbn [mbind option_bind].
  change (negb (5 =? 5)) with false. cbv iota.
  rewrite <- !app_assoc. rewrite mp_get_uint_ok by assumption. cbn [mbind option_bind].
  rewrite mp_get_uint_ok by assumption. cbn [mbind option_bind].
  rewrite mp_get_vec_u8_ok by assumption. cbn [mbind option_bind].
  rewrite mp_get_vec_ok by assumption. cbn [mbind option_bind].
  rewrite mp_get_vec_ok by assumption. cbn [mbind option_bind].
  do 2 f_equal; [now destruct m|]. subst n. rewrite app_length. f_equal. lia.
Qed.

(** Bounds that follow from the record fitting a page. *)
Lemma meta_encode_len m : (length (m_key m) + length (m_lpages m) + length (m_tails m) <= length (meta_encode m))%nat.
Proof.
  unfold meta_encode, mp_vec_u8, mp_vec_u64. rewrite !app_length.
  pose proof (mp_uints_len (m_key m)). pose proof (mp_uints_len (m_lpages m)). pose proof (mp_uints_len (m_tails m)). lia.
Qed.
