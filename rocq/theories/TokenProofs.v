(** Facts about the token encodings. *)
From stdpp Require Import base numbers list option.
From Coq Require Import ZifyBool ZifyNat ZifyN.
From Verif Require Import Util Bytes TokenModel.
Open Scope N_scope.
Ltac Zify.zify_post_hook ::= idtac.

Ltac dm := Z.to_euclidean_division_equations; lia.

(** * Base64 *)
Lemma b64_val_char v : v < 64 -> b64_val (b64_char v) = Some v.
Proof.
  intros H. unfold b64_char, b64_val.
  repeat (case_match; try (f_equal; lia); try lia).
Qed.
Lemma b64_char_val c v : b64_val c = Some v -> b64_char v = c /\ v < 64.
Proof.
  unfold b64_char, b64_val. intros H.
  repeat (case_match; simplify_eq; try lia).
Qed.

Lemma b64_decode_encode : forall l, Forall is_byte l -> b64_decode (b64_encode l) = Some l.
Proof.
  fix IH 1. intros l H. unfold is_byte in H.
  destruct l as [|a [|b [|c t]]].
  - reflexivity.
  - apply Forall_cons_1 in H as [Ha _]. cbn [b64_encode b64_decode].
    rewrite !b64_val_char by (zify; dm). cbn.
    replace (a mod 4 * 16 mod 16 =? 0) with true by (zify; dm). do 2 f_equal. zify; dm.
  - apply Forall_cons_1 in H as [Ha H]. apply Forall_cons_1 in H as [Hb _]. cbn [b64_encode b64_decode].
    rewrite !b64_val_char by (zify; dm). cbn.
    replace (b mod 16 * 4 mod 4 =? 0) with true by (zify; dm). f_equal. f_equal; [zify; dm|]. f_equal. zify; dm.
  - apply Forall_cons_1 in H as [Ha H]. apply Forall_cons_1 in H as [Hb H]. apply Forall_cons_1 in H as [Hc H].
    cbn [b64_encode b64_decode]. rewrite (IH t H).
    rewrite !b64_val_char by (zify; dm). cbn. f_equal. f_equal; [zify; dm|]. f_equal; [zify; dm|]. f_equal. zify; dm.
Qed.

Lemma b64_encode_decode : forall s l, b64_decode s = Some l -> Forall is_byte l /\ b64_encode l = s.
Proof.
  fix IH 1. intros s l H. unfold is_byte.
  destruct s as [|w [|x [|y [|z t]]]]; [| | | |pose proof (IH t) as IHt; clear IH]; cbn [b64_decode] in H.
  - simplify_eq. split; [constructor|reflexivity].
  - discriminate.
  - destruct (b64_val w) as [a|] eqn:Ew; [|discriminate]. destruct (b64_val x) as [b|] eqn:Ex; [|discriminate].
    cbn in H. apply b64_char_val in Ew as [<- Ha]. apply b64_char_val in Ex as [<- Hb].
    destruct (b mod 16 =? 0) eqn:E; [|discriminate]. apply (inj Some) in H. subst l.
    split; [repeat constructor; zify; dm|]. cbn [b64_encode]. f_equal; [f_equal; zify; dm|]. f_equal. f_equal. zify; dm.
  - destruct (b64_val w) as [a|] eqn:Ew; [|discriminate]. destruct (b64_val x) as [b|] eqn:Ex; [|discriminate].
    destruct (b64_val y) as [c|] eqn:Ey; [|discriminate].
    cbn in H. apply b64_char_val in Ew as [<- Ha]. apply b64_char_val in Ex as [<- Hb]. apply b64_char_val in Ey as [<- Hc].
    destruct (c mod 4 =? 0) eqn:E; [|discriminate]. apply (inj Some) in H. subst l.
    split; [repeat constructor; zify; dm|]. cbn [b64_encode].
    f_equal; [f_equal; zify; dm|]. f_equal; [f_equal; zify; dm|]. f_equal. f_equal. zify; dm.
  - destruct (b64_val w) as [a|] eqn:Ew; [|discriminate]. destruct (b64_val x) as [b|] eqn:Ex; [|discriminate].
    destruct (b64_val y) as [c|] eqn:Ey; [|discriminate]. destruct (b64_val z) as [d|] eqn:Ez; [|discriminate].
    destruct (b64_decode t) as [r|] eqn:Er; [|discriminate].
    cbn in H. apply b64_char_val in Ew as [<- Ha]. apply b64_char_val in Ex as [<- Hb].
    apply b64_char_val in Ey as [<- Hc]. apply b64_char_val in Ez as [<- Hd].
    apply (inj Some) in H. subst l. destruct (IHt r eq_refl) as [Hr1 Hr2].
    split; [repeat constructor; [zify; dm..|exact Hr1]|]. cbn [b64_encode]. rewrite Hr2.
    f_equal; [f_equal; zify; dm|]. f_equal; [f_equal; zify; dm|]. f_equal; [f_equal; zify; dm|]. f_equal. f_equal. zify; dm.
Qed.

Lemma b64_encode_inj l1 l2 : Forall is_byte l1 -> Forall is_byte l2 -> b64_encode l1 = b64_encode l2 -> l1 = l2.
Proof.
  intros H1 H2 E. apply (f_equal b64_decode) in E. rewrite !b64_decode_encode in E by assumption. congruence.
Qed.

(** * MessagePack: every encoding determines its value and its end. *)
Lemma be_bytes_inj n v w : v < 256 ^ N.of_nat n -> w < 256 ^ N.of_nat n -> be_bytes n v = be_bytes n w -> v = w.
Proof.
  intros Hv Hw E. rewrite <- (be_val_bytes n v Hv), <- (be_val_bytes n w Hw), E. reflexivity.
Qed.

Lemma take_be n v r : take n (be_bytes n v ++ r) = be_bytes n v.
Proof. rewrite take_app_alt; [reflexivity|]. rewrite be_bytes_length. reflexivity. Qed.
Lemma drop_be n v r : drop n (be_bytes n v ++ r) = r.
Proof. rewrite drop_app_alt; [reflexivity|]. rewrite be_bytes_length. reflexivity. Qed.
Lemma len_be n v (r : list N) : (length (be_bytes n v ++ r) <? n)%nat = false.
Proof. rewrite app_length, be_bytes_length. apply Nat.ltb_ge. lia. Qed.

(** The integer parser reads back what was written, and stops at its end. *)
Lemma parse_uint_mp v r : v < 2 ^ 64 -> parse_uint (mp_uint v ++ r) = Some (v, r).
Proof.
  intros Hv. unfold mp_uint.
  destruct (v <? 128) eqn:V1.
  { cbn [app parse_uint]. rewrite V1. reflexivity. }
  destruct (v <? 2 ^ 8) eqn:V2.
  { cbn [app parse_uint]. change (204 <? 128) with false. change (204 =? 204) with true. cbv iota beta.
    rewrite len_be, take_be, drop_be, be_val_bytes; [reflexivity|]. apply N.ltb_lt in V2. exact V2. }
  destruct (v <? 2 ^ 16) eqn:V3.
  { cbn [app parse_uint]. change (205 <? 128) with false. change (205 =? 204) with false. change (205 =? 205) with true.
    cbv iota beta.
    rewrite len_be, take_be, drop_be, be_val_bytes; [reflexivity|]. apply N.ltb_lt in V3. exact V3. }
  destruct (v <? 2 ^ 32) eqn:V4.
  { cbn [app parse_uint]. change (206 <? 128) with false. change (206 =? 204) with false. change (206 =? 205) with false.
    change (206 =? 206) with true. cbv iota beta.
    rewrite len_be, take_be, drop_be, be_val_bytes; [reflexivity|]. apply N.ltb_lt in V4. exact V4. }
  cbn [app parse_uint]. change (207 <? 128) with false. change (207 =? 204) with false. change (207 =? 205) with false.
  change (207 =? 206) with false. change (207 =? 207) with true. cbv iota beta.
  rewrite len_be, take_be, drop_be, be_val_bytes; [reflexivity|]. exact Hv.
Qed.
Lemma mp_uint_prefix v w r s : v < 2 ^ 64 -> w < 2 ^ 64 -> mp_uint v ++ r = mp_uint w ++ s -> v = w /\ r = s.
Proof.
  intros Hv Hw E. apply (f_equal parse_uint) in E. rewrite !parse_uint_mp in E by assumption.
  injection E as -> ->. split; reflexivity.
Qed.

(** Reading an array header. *)
Definition parse_array (l : list N) : option (N * list N) :=
  match l with
  | [] => None
  | b :: t =>
      if b =? 220 then Some (be_val (take 2 t), drop 2 t)
      else if b =? 221 then Some (be_val (take 4 t), drop 4 t)
      else Some (b - 144, t)
  end.
Lemma parse_array_mp v r : v < 2 ^ 32 -> parse_array (mp_array v ++ r) = Some (v, r).
Proof.
  intros Hv. unfold mp_array.
  destruct (v <? 16) eqn:V1.
  { cbn [app parse_array]. apply N.ltb_lt in V1.
    replace (144 + v =? 220) with false by (symmetry; apply N.eqb_neq; clear -V1; lia).
    replace (144 + v =? 221) with false by (symmetry; apply N.eqb_neq; clear -V1; lia).
    do 2 f_equal. clear; lia. }
  destruct (v <? 2 ^ 16) eqn:V3.
  { cbn [app parse_array]. change (220 =? 220) with true. cbv iota beta.
    rewrite take_be, drop_be, be_val_bytes; [reflexivity|]. apply N.ltb_lt in V3. exact V3. }
  cbn [app parse_array]. change (221 =? 220) with false. change (221 =? 221) with true. cbv iota beta.
  rewrite take_be, drop_be, be_val_bytes; [reflexivity|]. exact Hv.
Qed.
Lemma mp_array_prefix v w r s : v < 2 ^ 32 -> w < 2 ^ 32 -> mp_array v ++ r = mp_array w ++ s -> v = w /\ r = s.
Proof.
  intros Hv Hw E. apply (f_equal parse_array) in E. rewrite !parse_array_mp in E by assumption.
  injection E as -> ->. split; reflexivity.
Qed.

Lemma mp_vec_prefix l1 l2 r s : Forall is_byte l1 -> Forall is_byte l2 ->
  N.of_nat (length l1) < 2 ^ 32 -> N.of_nat (length l2) < 2 ^ 32 ->
  mp_vec_u8 l1 ++ r = mp_vec_u8 l2 ++ s -> l1 = l2 /\ r = s.
Proof.
  intros H1 H2 L1 L2 E. unfold mp_vec_u8 in E. rewrite <- !app_assoc in E.
  apply mp_array_prefix in E as [EL E]; [|assumption..]. apply N2Nat.inj_iff in EL. rewrite !Nat2N.id in EL.
  clear L1 L2. revert l2 H1 H2 EL r s E. induction l1 as [|a l1 IH]; intros l2 H1 H2 EL r s E.
  - destruct l2; [|discriminate]. split; [reflexivity|exact E].
  - destruct l2 as [|b l2]; [discriminate|]. cbn [map concat] in E. rewrite <- !app_assoc in E.
    apply Forall_cons_1 in H1 as [Ha H1]. apply Forall_cons_1 in H2 as [Hb H2]. unfold is_byte in Ha, Hb.
    apply mp_uint_prefix in E as [-> E].
    2: { clear -Ha. eapply N.lt_trans; [exact Ha|reflexivity]. }
    2: { clear -Hb. eapply N.lt_trans; [exact Hb|reflexivity]. }
    injection EL as EL. apply (IH l2 H1 H2 EL) in E as [-> ->]. split; reflexivity.
Qed.

(** What Rust's types guarantee of an action (the key is a [Vec<u8>] shorter
    than 4 GiB, the size a [u64]). *)
Definition valid_action (a : action) : Prop :=
  match a with
  | BatchCreateObjects => True
  | CreateObject k size => Forall is_byte k /\ N.of_nat (length k) < 2 ^ 32 /\ size < 2 ^ 64
  | CommitObject k | DeleteObject k | InspectObject k | ReadObject k | WriteObject k =>
      Forall is_byte k /\ N.of_nat (length k) < 2 ^ 32
  end.

Lemma mp_uint_inj v w : v < 2 ^ 64 -> w < 2 ^ 64 -> mp_uint v = mp_uint w -> v = w.
Proof.
  intros Hv Hw E. apply (f_equal (fun l => l ++ [])) in E. apply mp_uint_prefix in E as [E _]; assumption.
Qed.

Lemma auth_msg_inj a b e f : valid_action a -> valid_action b -> e < 2 ^ 64 -> f < 2 ^ 64 ->
  auth_msg a e = auth_msg b f -> a = b /\ e = f.
Proof.
  intros Va Vb He Hf E. unfold auth_msg in E. apply app_inv_head in E.
  unfold mp_action, mp_str in E. rewrite <- !app_comm_cons, <- !app_assoc in E.
  injection E as EL E.
  destruct a, b; cbn [action_name length] in EL; try discriminate EL;
  cbn [action_name app] in E; try discriminate E; clear EL;
  repeat match type of E with _ :: _ = _ :: _ => apply (inj2 cons) in E as [_ E] end;
  cbn [action_fields] in E; rewrite <- ?app_assoc in E; apply app_inv_head in E; cbn in Va, Vb;
  try (apply mp_vec_prefix in E as [-> E]; [|tauto..]);
  try (apply mp_uint_prefix in E as [-> E]; [|tauto..]);
  (apply mp_uint_inj in E; [|assumption..]; subst; split; reflexivity).
Qed.

(** * Upload tokens and receipts *)
Definition valid_itoken (it : itoken) : Prop := it_object it < 2 ^ 128 /\ it_partition it < 2 ^ 64.

Lemma pair_msg_eq it v : pair_msg it v =
  146 :: 146 :: 196 :: 16 :: be_bytes 16 (it_object it) ++ mp_uint (it_partition it) ++ mp_uint v.
Proof. unfold pair_msg, mp_u128. cbn [mp_array N.ltb]. change (mp_array 2) with [146]. cbn [app]. rewrite <- app_assoc. reflexivity. Qed.

Lemma parse_pair_msg it v r : valid_itoken it -> v < 2 ^ 64 -> parse_pair (pair_msg it v ++ r) = Some (it, v).
Proof.
  intros [H1 H2] Hv. rewrite pair_msg_eq. cbn [app parse_pair].
  rewrite <- !app_assoc. rewrite len_be, take_be, drop_be.
  rewrite parse_uint_mp by exact H2. cbn [mbind option_bind].
  rewrite parse_uint_mp by exact Hv. cbn [mbind option_bind fst].
  rewrite be_val_bytes; [|exact H1]. destruct it; reflexivity.
Qed.
Lemma pair_msg_inj it v it' w : valid_itoken it -> valid_itoken it' -> v < 2 ^ 64 -> w < 2 ^ 64 ->
  pair_msg it v = pair_msg it' w -> it = it' /\ v = w.
Proof.
  intros H1 H2 Hv Hw E. apply (f_equal (fun l => parse_pair (l ++ []))) in E.
  rewrite !parse_pair_msg in E by assumption. injection E as -> ->. split; reflexivity.
Qed.
Lemma pair_not_auth it v a e : pair_msg it v <> auth_msg a e.
Proof. rewrite pair_msg_eq. unfold auth_msg, mp_action. change (mp_array 2) with [146]. cbn [app]. intros E. discriminate E. Qed.

Lemma mp_uint_byte v : Forall is_byte (mp_uint v).
Proof.
  unfold mp_uint. unfold is_byte.
  repeat (case_match; [constructor; try (clear -H; apply N.ltb_lt in H; lia); try reflexivity; try (apply be_bytes_byte); try constructor|]).
  constructor; [reflexivity|]. apply be_bytes_byte.
Qed.
Lemma pair_msg_byte it v : Forall is_byte (pair_msg it v).
Proof.
  rewrite pair_msg_eq. repeat (constructor; [reflexivity|]).
  apply Forall_app_2; [apply be_bytes_byte|]. apply Forall_app_2; apply mp_uint_byte.
Qed.
Lemma pair_msg_nonempty it v : (0 < length (pair_msg it v))%nat.
Proof. rewrite pair_msg_eq. cbn [length]. lia. Qed.

Section Mac.
  Variable mac : list N -> list N.
  (** [blake3::Hash] is 32 bytes. *)
  Hypothesis mac_len : forall m, length (mac m) = 32%nat.
  Hypothesis mac_byte : forall m, Forall is_byte (mac m).

  Lemma auth_verify_iff now tok a :
    auth_token_verify mac now tok a = true <->
    exists e, e < 2 ^ 64 /\ now < e /\ tok = auth_token_new mac a e.
  Proof.
    unfold auth_token_verify, auth_token_new, mac_verify. split.
    - intros H. destruct (b64_decode tok) as [raw|] eqn:E; [|discriminate].
      apply b64_encode_decode in E as [Hb <-].
      destruct (N.of_nat (length raw) =? 8 + 32) eqn:EL; [|discriminate]. cbn [negb] in H.
      apply N.eqb_eq in EL. assert (EL' : length raw = 40%nat) by (clear -EL; lia). clear EL.
      exists (be_val (take 8 raw)).
      assert (Ht : length (take 8 raw) = 8%nat) by (rewrite take_length, EL'; reflexivity).
      destruct (N.of_nat (length (drop 8 raw)) =? 32); [|discriminate]. cbn [negb] in H.
      destruct (bool_decide (mac (auth_msg a (be_val (take 8 raw))) = drop 8 raw)) eqn:EM; [|discriminate].
      cbn [negb] in H. apply bool_decide_eq_true in EM.
      destruct (be_val (take 8 raw) <=? now) eqn:EN; [discriminate|]. apply N.leb_gt in EN.
      split; [|split; [exact EN|]].
      + pose proof (be_val_lt (take 8 raw) ltac:(apply Forall_take, Hb)) as HL. rewrite Ht in HL. exact HL.
      + rewrite EM. rewrite <- Ht at 1. rewrite be_bytes_val by (apply Forall_take, Hb). rewrite take_drop. reflexivity.
    - intros (e & He & Hn & ->).
      rewrite b64_decode_encode by (apply Forall_app_2; [apply be_bytes_byte|apply mac_byte]).
      rewrite app_length, be_bytes_length, mac_len. cbn [N.of_nat N.eqb Pos.eqb negb Nat.add].
      change (N.of_nat 40 =? 8 + 32) with true. cbn [negb].
      rewrite take_be, drop_be, be_val_bytes by exact He. rewrite mac_len. change (N.of_nat 32 =? 32) with true. cbn [negb].
      rewrite bool_decide_eq_true_2 by reflexivity. cbn [negb].
      replace (e <=? now) with false by (symmetry; apply N.leb_gt, Hn). reflexivity.
  Qed.

  Lemma parse_upload_iff tok it v :
    parse_upload_token mac tok = Some (it, v) <->
    exists m, Forall is_byte m /\ m <> [] /\ tok = b64_encode (mac m ++ m) /\ parse_pair m = Some (it, v).
  Proof.
    unfold parse_upload_token. split.
    - intros H. destruct (b64_decode tok) as [raw|] eqn:E; [|discriminate]. cbn [mbind option_bind] in H.
      apply b64_encode_decode in E as [Hb <-].
      destruct (N.of_nat (length raw) <=? 32) eqn:EL; [discriminate|]. apply N.leb_gt in EL.
      destruct (bool_decide _) eqn:EM; [|discriminate]. apply bool_decide_eq_true in EM.
      exists (drop 32 raw). split; [apply Forall_drop, Hb|]. split; [|split; [|exact H]].
      + intros E. apply (f_equal length) in E. rewrite drop_length in E. cbn [length] in E. clear -E EL. lia.
      + rewrite <- EM, take_drop. reflexivity.
    - intros (m & Hm & Hne & -> & Hp).
      rewrite b64_decode_encode by (apply Forall_app_2; [apply mac_byte|exact Hm]). cbn [mbind option_bind].
      rewrite app_length, mac_len.
      replace (N.of_nat (32 + length m) <=? 32) with false.
      2: { symmetry. apply N.leb_gt. destruct m; [congruence|]. cbn [length]. clear. lia. }
      rewrite take_app_alt, drop_app_alt by (rewrite mac_len; reflexivity).
      rewrite bool_decide_eq_true_2 by reflexivity. exact Hp.
  Qed.
  Lemma parse_upload_issued it size : valid_itoken it -> size < 2 ^ 64 ->
    parse_upload_token mac (upload_token mac it size) = Some (it, size).
  Proof.
    intros Hi Hs. apply parse_upload_iff. exists (pair_msg it size).
    split; [apply pair_msg_byte|]. split; [|split; [reflexivity|]].
    - intros E. pose proof (pair_msg_nonempty it size) as H. rewrite E in H. cbn in H. lia.
    - pose proof (parse_pair_msg it size [] Hi Hs) as H. rewrite app_nil_r in H. exact H.
  Qed.

  Lemma verify_parts_iff receipts it part count :
    verify_parts mac receipts it part count = true <->
    forall i, part <= i < part + N.of_nat count -> receipts !! N.to_nat i = Some (write_receipt mac it i).
  Proof.
    revert part. induction count as [|count IH]; intros part; cbn [verify_parts].
    - split; [intros _ i Hi; exfalso; clear -Hi; lia|reflexivity].
    - split.
      + intros H i Hi. destruct (receipts !! N.to_nat part) as [r|] eqn:Er; [|discriminate].
        destruct (b64_decode r) as [m|] eqn:Em; [|discriminate].
        apply b64_encode_decode in Em as [Hb <-].
        apply andb_true_iff in H as [H H2]. apply andb_true_iff in H as [_ H1].
        apply bool_decide_eq_true in H1.
        destruct (decide (i = part)) as [->|].
        * rewrite Er. unfold write_receipt. rewrite H1. reflexivity.
        * apply (proj1 (IH (part + 1)) H2). clear -Hi n. lia.
      + intros H. rewrite (H part) by (clear; lia). unfold write_receipt.
        rewrite b64_decode_encode by apply mac_byte. rewrite mac_len.
        rewrite bool_decide_eq_true_2 by reflexivity. change (N.of_nat 32 =? 32) with true. cbn [andb].
        apply IH. intros i Hi. apply H. clear -Hi. lia.
  Qed.
  Lemma verify_receipts_iff L receipts it size :
    verify_write_receipts mac L receipts it size = true <->
    forall i, i < div_ceil size L -> receipts !! N.to_nat i = Some (write_receipt mac it i).
  Proof.
    unfold verify_write_receipts. rewrite verify_parts_iff. rewrite N2Nat.id. split; intros H i Hi; apply H; clear -Hi; lia.
  Qed.
End Mac.

(** * Comma-separated receipts *)
Lemma split_aux_nocomma acc s : 44 ∉ s -> split_commas_aux acc s = [reverse acc ++ s].
Proof.
  revert acc. induction s as [|c s IH]; intros acc H; cbn [split_commas_aux].
  - rewrite app_nil_r. reflexivity.
  - apply not_elem_of_cons in H as [H1 H2]. replace (c =? 44) with false by (symmetry; apply N.eqb_neq; congruence).
    rewrite IH by exact H2. rewrite reverse_cons, <- app_assoc. reflexivity.
Qed.
Lemma split_aux_comma acc s t : 44 ∉ s -> split_commas_aux acc (s ++ 44 :: t) = (reverse acc ++ s) :: split_commas_aux [] t.
Proof.
  revert acc. induction s as [|c s IH]; intros acc H; cbn [split_commas_aux app].
  - change (44 =? 44) with true. cbv iota. rewrite app_nil_r. reflexivity.
  - apply not_elem_of_cons in H as [H1 H2]. replace (c =? 44) with false by (symmetry; apply N.eqb_neq; congruence).
    rewrite IH by exact H2. rewrite reverse_cons, <- app_assoc. reflexivity.
Qed.
(** [join(",")]: blobd-client-rs/src/lib.rs:222, blobd-client-js/src/main.ts:151. *)
Fixpoint join_commas (l : list (list N)) : list N :=
  match l with [] => [] | [s] => s | s :: l => s ++ 44 :: join_commas l end.
Lemma split_join l : l <> [] -> Forall (fun s => 44 ∉ s) l -> split_commas (join_commas l) = l.
Proof.
  unfold split_commas. induction l as [|s l IH]; intros Hne H; [congruence|].
  apply Forall_cons_1 in H as [Hs H]. destruct l as [|s' l].
  - cbn [join_commas]. rewrite split_aux_nocomma by exact Hs. reflexivity.
  - change (join_commas (s :: s' :: l)) with (s ++ 44 :: join_commas (s' :: l)).
    rewrite split_aux_comma by exact Hs. rewrite IH by (congruence || exact H). reflexivity.
Qed.
Lemma b64_char_not_comma v : b64_char v <> 44.
Proof. unfold b64_char. repeat case_match; lia. Qed.
Lemma b64_encode_no_comma : forall l, 44 ∉ b64_encode l.
Proof.
  fix IH 1. intros l. destruct l as [|a [|b [|c t]]]; [| | |pose proof (IH t) as IHt]; clear IH; cbn [b64_encode];
  rewrite ?not_elem_of_cons; repeat split; try (apply not_eq_sym, b64_char_not_comma); try apply not_elem_of_nil; assumption.
Qed.
