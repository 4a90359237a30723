From stdpp Require Import base numbers list list_numbers option.
From Coq Require Import ZifyBool ZifyNat ZifyN.
From Verif Require Import Util Bytes KvCodecModel KvCodecSpec.
Open Scope N_scope.
Ltac Zify.zify_post_hook ::= idtac.

Lemma byte_enum (P : N -> bool) : forallb P (N.of_nat <$> seq 0 256) = true -> forall b, b < 256 -> P b = true.
Proof.
  intros H b Hb. rewrite forallb_forall in H. apply H. apply elem_of_list_In, elem_of_list_fmap.
  exists (N.to_nat b). split; [lia|]. apply elem_of_seq. lia.
Qed.
Lemma land_128 b : b < 256 -> (N.land b 128 =? 0) = (b <? 128).
Proof. intros H. apply eqb_prop. apply (byte_enum (fun b => Bool.eqb (N.land b 128 =? 0) (b <? 128))); [vm_compute; reflexivity|exact H]. Qed.
Lemma lor_128 n : n < 128 -> N.lor n 128 = n + 128 /\ N.land (N.lor n 128) 127 = n.
Proof.
  intros H. assert (implb (n <? 128) ((N.lor n 128 =? n + 128) && (N.land (N.lor n 128) 127 =? n)) = true) as E.
  { apply (byte_enum (fun n => implb (n <? 128) ((N.lor n 128 =? n + 128) && (N.land (N.lor n 128) 127 =? n)))); [vm_compute; reflexivity|lia]. }
  destruct (N.ltb_spec n 128); [cbn in E|]; lia.
Qed.

Lemma consume_app a b n : n = N.of_nat (length a) -> consume (a ++ b) n = Some (a, b).
Proof.
  intros ->. unfold consume. rewrite app_length. destruct (N.leb_spec (N.of_nat (length a)) (N.of_nat (length a + length b))); [|lia].
  rewrite Nat2N.id, take_app, drop_app. reflexivity.
Qed.

Definition kenc (k : okey) : list N := match k with KHash h => 255 :: h | KLit l => N.of_nat (length l) :: l end.
Definition denc (d : odata) : list N :=
  match d with
  | DInline i => if (length i <? 127)%nat then (N.of_nat (length i) + 128) :: i else 255 :: le_bytes 4 (N.of_nat (length i)) ++ i
  | DHeap size off => be_bytes 5 (off / 512) ++ le_bytes 3 (size - 1)
  end.
Lemma key_serialise_enc k : valid_key k -> key_serialise k = Some (kenc k).
Proof.
  destruct k as [h|l]; intros [H _]; cbn; [reflexivity|]. unfold to_u8. destruct (N.ltb_spec (N.of_nat (length l)) (2 ^ 8)); [reflexivity|].
  change (2 ^ 8) with 256 in *. lia.
Qed.
Lemma key_deserialise_enc k r : valid_key k -> key_deserialise (kenc k ++ r) = Some (k, r).
Proof.
  destruct k as [h|l]; intros [H _]; cbn [kenc app key_deserialise].
  - rewrite N.eqb_refl. rewrite consume_app by lia. reflexivity.
  - destruct (N.eqb_spec (N.of_nat (length l)) 255); [lia|]. rewrite consume_app by reflexivity. reflexivity.
Qed.
Lemma kenc_size k : valid_key k -> length (kenc k) = key_size k.
Proof. destruct k as [h|l]; intros [H _]; cbn; lia. Qed.
Lemma shiftr9 x : N.shiftr x 9 = x / 512.
Proof. rewrite N.shiftr_div_pow2. reflexivity. Qed.
Lemma data_serialise_enc d : valid_data d -> data_serialise d = Some (denc d).
Proof.
  destruct d as [i|size off]; cbn [valid_data data_serialise denc].
  - intros [H _]. destruct (Nat.ltb_spec (length i) 127), (N.ltb_spec (N.of_nat (length i)) 127); try lia.
    + unfold to_u8. destruct (N.ltb_spec (N.of_nat (length i)) (2 ^ 8)); [|change (2 ^ 8) with 256 in *; lia]. cbn [mbind option_bind].
      destruct (lor_128 (N.of_nat (length i)) ltac:(lia)) as [-> _]. reflexivity.
    + unfold to_u32. destruct (N.ltb_spec (N.of_nat (length i)) (2 ^ 32)); [|lia]. reflexivity.
  - intros (Hs & Hm & Ho). rewrite shiftr9. destruct (N.ltb_spec (off / 512) (2 ^ 39)) as [_|Hl].
    + destruct (N.eqb_spec size 0); [lia|]. reflexivity.
    + exfalso. assert (off / 512 < 2 ^ 39); [|lia]. apply N.div_lt_upper_bound; [discriminate|]. exact Ho.
Qed.
Lemma be5_head v : v < 2 ^ 39 -> exists b l, be_bytes 5 v = b :: l /\ b < 128 /\ length l = 4%nat.
Proof.
  intros H. assert (be_bytes 5 v = [v / 256 / 256 / 256 / 256 mod 256; v / 256 / 256 / 256 mod 256; v / 256 / 256 mod 256; v / 256 mod 256; v mod 256]) as -> by reflexivity.
  eexists _, _. split; [reflexivity|]. split; [|reflexivity].
  rewrite !N.div_div by discriminate. change (256 * 256 * 256 * 256) with (2 ^ 32).
  assert (v / (256 * (256 * (256 * 256))) < 128) as Hlt.
  { apply N.div_lt_upper_bound; [discriminate|]. exact H. }
  change (256 * (256 * (256 * 256))) with (2 ^ 32) in Hlt.
  rewrite N.mod_small by lia. exact Hlt.
Qed.
Lemma data_deserialise_enc d r : valid_data d -> data_deserialise (denc d ++ r) = Some (d, r).
Proof.
  destruct d as [i|size off]; cbn [valid_data denc].
  - intros [H _]. destruct (Nat.ltb_spec (length i) 127) as [Hl|Hl].
    + cbn [app data_deserialise]. rewrite land_128 by lia. destruct (N.ltb_spec (N.of_nat (length i) + 128) 128); [lia|]. cbn [negb].
      destruct (lor_128 (N.of_nat (length i)) ltac:(lia)) as [E1 E2]. rewrite E1 in E2. rewrite E2.
      destruct (N.ltb_spec (N.of_nat (length i)) 127); [|lia]. cbn [mbind option_bind]. rewrite consume_app by reflexivity. reflexivity.
    + cbn [app data_deserialise]. change (N.land 255 128 =? 0) with false. change (N.land 255 127) with 127. cbn [negb].
      change (127 <? 127) with false. cbv iota. rewrite <- app_assoc. rewrite consume_app by (rewrite le_bytes_length; reflexivity). cbn [mbind option_bind].
      rewrite le_val_bytes by exact H. rewrite consume_app by reflexivity. reflexivity.
  - intros (Hs & Hm & Ho). assert (off / 512 < 2 ^ 39) as Hq by (apply N.div_lt_upper_bound; [discriminate|exact Ho]).
    rewrite <- app_assoc. destruct (be5_head _ Hq) as (b & l & Eb & Hb & Hl).
    unfold data_deserialise. rewrite Eb. cbn [app]. rewrite land_128 by lia. destruct (N.ltb_spec b 128); [|lia]. cbn [negb].
    change (b :: l ++ le_bytes 3 (size - 1) ++ r) with ((b :: l) ++ le_bytes 3 (size - 1) ++ r). rewrite <- Eb.
    rewrite consume_app by (rewrite be_bytes_length; reflexivity). cbn [mbind option_bind].
    rewrite consume_app by (rewrite le_bytes_length; reflexivity). cbn [mbind option_bind].
    rewrite be_val_bytes by (change (256 ^ N.of_nat 5) with (2 ^ 40); change (2 ^ 40) with (2 * 2 ^ 39); lia).
    rewrite le_val_bytes by (change (256 ^ N.of_nat 3) with (2 ^ 24); lia).
    rewrite N.shiftl_mul_pow2. change (2 ^ 9) with 512. f_equal. f_equal. f_equal; [lia|].
    pose proof (N.div_mod off 512 ltac:(discriminate)). lia.
Qed.
Lemma denc_size d : length (denc d) = data_size d.
Proof.
  destruct d as [i|size off]; cbn [denc data_size].
  - destruct (length i <? 127)%nat; cbn [length]; rewrite ?app_length, ?le_bytes_length; lia.
  - rewrite app_length, be_bytes_length, le_bytes_length. reflexivity.
Qed.
Lemma denc_nonempty d : (0 < length (denc d))%nat.
Proof. rewrite denc_size. destruct d as [i|]; cbn [data_size]; [destruct (length i <? 127)%nat|]; lia. Qed.

Definition eenc (e : okey * odata) : list N := kenc (fst e) ++ denc (snd e).
Lemma entries_enc ts : Forall valid_pair ts -> entries_serialise ts = Some (concat (eenc <$> ts)).
Proof.
  induction 1 as [|[k d] ts [Hk Hd] _ IH]; [reflexivity|]. cbn [entries_serialise]. cbn in Hk, Hd. rewrite key_serialise_enc by exact Hk.
  cbn [mbind option_bind]. rewrite data_serialise_enc by exact Hd. cbn [mbind option_bind]. rewrite IH. cbn [mbind option_bind].
  rewrite fmap_cons. cbn [concat]. unfold eenc at 2. cbn [fst snd]. rewrite <- app_assoc. reflexivity.
Qed.
Lemma pairs_size_enc ts : Forall valid_pair ts -> length (concat (eenc <$> ts)) = pairs_size ts.
Proof.
  induction 1 as [|[k d] ts [Hk Hd] _ IH]; [reflexivity|]. rewrite fmap_cons. cbn [concat]. rewrite app_length, IH. unfold eenc. rewrite app_length.
  cbn [fst snd] in *. rewrite kenc_size by exact Hk. rewrite denc_size. reflexivity.
Qed.
Definition nonempty_key (k : okey) : Prop := match k with KLit [] => False | _ => True end.
Lemma kenc_head k : valid_key k -> nonempty_key k -> exists b l, kenc k = b :: l /\ b <> 0.
Proof. destruct k as [h|[|x l]]; intros [H _] Hn; cbn; [|contradiction|]; eexists _, _; split; try reflexivity; lia. Qed.

Lemma bundle_deser_enc ts : Forall valid_pair ts -> Forall (fun e => nonempty_key (fst e)) ts -> forall rest fuel,
  (rest = [] \/ head rest = Some 0) -> (length ts <= fuel)%nat -> bundle_deser fuel (concat (eenc <$> ts) ++ rest) = Some ts.
Proof.
  induction 1 as [|[k d] ts [Hk Hd] _ IH]; intros Hn rest fuel Hr Hf.
  - cbn. destruct Hr as [->|Hr]; [destruct fuel; reflexivity|]. destruct rest as [|b rest]; [discriminate|]. cbn in Hr. injection Hr as ->.
    destruct fuel; reflexivity.
  - inversion Hn as [|? ? Hn1 Hn2]; subst. cbn [fst snd length] in *. destruct fuel as [|fuel]; [lia|].
    rewrite fmap_cons. cbn [concat]. unfold eenc at 1. cbn [fst snd]. rewrite <- !app_assoc.
    destruct (kenc_head k Hk Hn1) as (b & l & E & Hb).
    assert (forall r, bundle_deser (S fuel) (kenc k ++ r) = ('(k, raw) ← key_deserialise (kenc k ++ r);
          '(d, raw) ← data_deserialise raw; l ← bundle_deser fuel raw; Some ((k, d) :: l))) as Es.
    { intros r. rewrite E. cbn [app]. cbn [bundle_deser]. destruct (N.eqb_spec b 0); [contradiction|]. reflexivity. }
    rewrite Es, key_deserialise_enc by exact Hk. cbn [mbind option_bind]. rewrite data_deserialise_enc by exact Hd. cbn [mbind option_bind].
    rewrite IH by (auto; lia). reflexivity.
Qed.
Lemma len_le_size ts : (length ts <= pairs_size ts)%nat.
Proof.
  induction ts as [|[k d] ts IH]; [reflexivity|]. change (pairs_size ((k, d) :: ts)) with (pair_size (k, d) + pairs_size ts)%nat. cbn [length].
  assert (1 <= pair_size (k, d))%nat; [|lia]. unfold pair_size. destruct k; cbn [fst key_size]; lia.
Qed.
Lemma bundle_roundtrip junk ts : Forall valid_pair ts -> Forall (fun e => nonempty_key (fst e)) ts ->
  (pairs_size ts <= length junk)%nat ->
  exists page, bundle_serialise junk ts = Some page /\ length page = length junk /\ bundle_read page = Some ts.
Proof.
  intros Hv Hn Hs. unfold bundle_serialise. rewrite entries_enc by exact Hv. cbn [mbind option_bind].
  pose proof (pairs_size_enc ts Hv) as Ls. pose proof (len_le_size ts). rewrite Ls.
  destruct (N.ltb_spec (N.of_nat (length junk)) (N.of_nat (pairs_size ts))); [lia|].
  destruct (N.ltb_spec (N.of_nat (pairs_size ts)) (N.of_nat (length junk))).
  - eexists. split; [reflexivity|]. split; [rewrite !app_length, drop_length, Ls; cbn [length]; lia|].
    apply bundle_deser_enc; auto. rewrite app_length, Ls. lia.
  - eexists. split; [reflexivity|]. split; [lia|]. unfold bundle_read. rewrite <- (app_nil_r (concat _)).
    apply bundle_deser_enc; auto. rewrite app_nil_r, Ls. lia.
Qed.
Lemma bundle_overflow junk ts : Forall valid_pair ts -> (length junk < pairs_size ts)%nat -> bundle_serialise junk ts = None.
Proof.
  intros Hv Hs. unfold bundle_serialise. rewrite entries_enc by exact Hv. cbn [mbind option_bind]. rewrite pairs_size_enc by exact Hv.
  destruct (N.ltb_spec (N.of_nat (length junk)) (N.of_nat (pairs_size ts))); [reflexivity|lia].
Qed.
