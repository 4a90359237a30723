(** Writing index pages and reading them back. *)
From stdpp Require Import base numbers list list_numbers option gmap.
From Coq Require Import ZifyBool ZifyNat ZifyN.
From Verif Require Import Util Bytes TuplesModel.
Open Scope N_scope.
Ltac Zify.zify_post_hook ::= idtac.

Definition enc (t : tuple) : list N :=
  t_state t :: le_bytes 16 (t_id t) ++ le_bytes 6 (t_off t) ++ [t_pow2 t].
Lemma enc_length t : length (enc t) = 24%nat.
Proof. unfold enc. cbn [length]. rewrite !app_length, !le_bytes_length. reflexivity. Qed.

Lemma buf_write_app a m b data off : off = N.of_nat (length a) -> length data = length m ->
  buf_write (a ++ m ++ b) off data = Some (a ++ data ++ b).
Proof.
  intros -> L. unfold buf_write. rewrite !app_length.
  destruct (N.leb_spec (N.of_nat (length a) + N.of_nat (length data)) (N.of_nat (length a + (length m + length b)))); [|lia].
  rewrite Nat2N.id, take_app, L. f_equal. f_equal. f_equal.
  rewrite <- drop_drop, drop_app, drop_app. reflexivity.
Qed.

Lemma serialise_enc out t : length out = 24%nat -> tuple_serialise out t = Some (enc t).
Proof.
  intros L. unfold tuple_serialise, enc. rewrite L. cbn [N.of_nat Pos.of_succ_nat Pos.succ].
  change (negb (24 =? tup_len)) with false. cbv iota.
  assert (exists a b c d, out = [a] ++ b ++ c ++ [d] /\ length b = 16%nat /\ length c = 6%nat) as (a & b & c & d & -> & Lb & Lc).
  { destruct out as [|a out]; [discriminate|]. exists a, (take 16 out), (take 6 (drop 16 out)).
    destruct (drop 22 out) as [|d [|e r]] eqn:E.
    - apply (f_equal length) in E. rewrite drop_length in E. cbn in L, E. lia.
    - exists d. rewrite !take_length, drop_length. cbn in L. split; [|lia]. cbn [app]. f_equal.
      rewrite <- E. replace 22%nat with (16 + 6)%nat by lia. rewrite <- drop_drop, take_drop. rewrite take_drop. reflexivity.
    - apply (f_equal length) in E. rewrite drop_length in E. cbn in L, E. lia. }
  change ([a] ++ b ++ c ++ [d]) with ([] ++ [a] ++ (b ++ c ++ [d])).
  rewrite (buf_write_app [] [a]) by reflexivity. cbn [mbind option_bind app].
  change (t_state t :: b ++ c ++ [d]) with ([t_state t] ++ b ++ (c ++ [d])).
  rewrite (buf_write_app [t_state t] b) by (rewrite ?le_bytes_length; auto). cbn [mbind option_bind].
  rewrite app_assoc.
  rewrite (buf_write_app _ c [d]) by (rewrite ?app_length, ?le_bytes_length; auto). cbn [mbind option_bind].
  rewrite app_assoc, <- (app_nil_r [d]).
  rewrite (buf_write_app _ [d] []) by (rewrite ?app_length, ?le_bytes_length; auto).
  rewrite app_nil_r, <- !app_assoc. reflexivity.
Qed.

(** What an index entry may contain. *)
Definition valid_tuple (t : tuple) : Prop :=
  (t_state t = ds_incomplete \/ t_state t = ds_committed) /\
  t_id t < 2 ^ 128 /\ t_off t < 2 ^ 48 /\ t_pow2 t < 256.

Lemma enc_reads t : buf_read (enc t) tup_off_state 1 = Some [t_state t] /\
  buf_read (enc t) tup_off_id 16 = Some (le_bytes 16 (t_id t)) /\
  buf_read (enc t) tup_off_meta 6 = Some (le_bytes 6 (t_off t)) /\
  buf_read (enc t) tup_off_pow2 1 = Some [t_pow2 t].
Proof.
  unfold enc. split; [reflexivity|]. split; [|split].
  - change (t_state t :: le_bytes 16 (t_id t) ++ le_bytes 6 (t_off t) ++ [t_pow2 t])
      with ([t_state t] ++ le_bytes 16 (t_id t) ++ (le_bytes 6 (t_off t) ++ [t_pow2 t])).
    apply buf_read_app'; rewrite ?le_bytes_length; reflexivity.
  - change (t_state t :: le_bytes 16 (t_id t) ++ le_bytes 6 (t_off t) ++ [t_pow2 t])
      with ((t_state t :: le_bytes 16 (t_id t)) ++ le_bytes 6 (t_off t) ++ [t_pow2 t]).
    apply buf_read_app'; cbn [length]; rewrite ?le_bytes_length; reflexivity.
  - assert (t_state t :: le_bytes 16 (t_id t) ++ le_bytes 6 (t_off t) ++ [t_pow2 t]
      = (t_state t :: le_bytes 16 (t_id t) ++ le_bytes 6 (t_off t)) ++ [t_pow2 t] ++ []) as ->.
    { rewrite app_nil_r. cbn [app]. rewrite <- app_assoc. reflexivity. }
    apply buf_read_app'; cbn [length]; rewrite ?app_length, ?le_bytes_length; reflexivity.
Qed.
Lemma deserialise_enc t : valid_tuple t -> tuple_deserialise (enc t) = Some t.
Proof.
  intros (Hs & Hi & Ho & Hp). unfold tuple_deserialise. rewrite enc_length.
  change (negb (N.of_nat 24 =? tup_len)) with false. cbv iota.
  destruct (enc_reads t) as (-> & -> & -> & ->). cbn [fmap option_fmap option_map mbind option_bind].
  assert (be_val [t_state t] = t_state t) as -> by (cbn; lia).
  assert (state_from_u8 (t_state t) = Some (t_state t)) as -> by (destruct Hs as [-> | ->]; reflexivity).
  cbn [mbind option_bind].
  rewrite le_val_bytes by exact Hi. rewrite le_val_bytes by exact Ho.
  assert (be_val [t_pow2 t] = t_pow2 t) as -> by (cbn; lia).
  destruct t; reflexivity.
Qed.

Lemma concat_enc_length ts : length (concat (enc <$> ts)) = (24 * length ts)%nat.
Proof. induction ts; [reflexivity|]. rewrite fmap_cons. cbn [concat length]. rewrite app_length, enc_length, IHts. lia. Qed.

Lemma serialise_from_spec ts : forall pre rest i, length pre = (24 * N.to_nat i)%nat -> (24 * length ts <= length rest)%nat ->
  serialise_from (pre ++ rest) i ts = Some (pre ++ concat (enc <$> ts) ++ drop (24 * length ts) rest).
Proof.
  induction ts as [|t ts IH]; intros pre rest i Lp Lr; cbn [serialise_from].
  - cbn. rewrite drop_0. reflexivity.
  - cbn [length] in Lr.
    assert (rest = take 24 rest ++ drop 24 rest) as Er by (symmetry; apply take_drop).
    assert (length (take 24 rest) = 24%nat) as L24 by (rewrite take_length; lia).
    rewrite Er at 1. unfold tup_len, tup_off_pow2, tup_off_meta, tup_off_id, tup_off_state.
    change (0 + 1 + 16 + 6 + 1) with 24.
    rewrite buf_read_app' by (rewrite ?Lp, ?L24; lia). cbn [mbind option_bind].
    rewrite serialise_enc by exact L24. cbn [mbind option_bind].
    rewrite Er at 1. rewrite buf_write_app by (rewrite ?Lp, ?L24, ?enc_length; lia). cbn [mbind option_bind].
    rewrite app_assoc. rewrite IH.
    + rewrite fmap_cons. cbn [concat]. rewrite <- !app_assoc. rewrite drop_drop.
      replace (24 + 24 * length ts)%nat with (24 * length (t :: ts))%nat by (cbn [length]; lia). reflexivity.
    + rewrite app_length, Lp, enc_length. lia.
    + rewrite drop_length. lia.
Qed.

Lemma chunks_S fuel n l : chunks_exact (S fuel) n l = if (length l <? n)%nat then [] else take n l :: chunks_exact fuel n (drop n l).
Proof. reflexivity. Qed.
Lemma parse_cons c cs : parse_chunks (c :: cs) =
  (st ← head c ≫= state_from_u8; if st =? ds_end then Some [] else t ← tuple_deserialise c; ts ← parse_chunks cs; Some (t :: ts)).
Proof. reflexivity. Qed.

Lemma parse_spec ts : Forall valid_tuple ts -> forall rest fuel,
  (length rest < 24)%nat \/ head rest = Some ds_end ->
  (length (concat (enc <$> ts) ++ rest) <= fuel)%nat ->
  parse_chunks (chunks_exact fuel 24 (concat (enc <$> ts) ++ rest)) = Some ts.
Proof.
  induction 1 as [|t ts V _ IH]; intros rest fuel Hr Hf.
  - cbn [fmap list_fmap concat app] in *. destruct fuel as [|fuel]; [reflexivity|]. rewrite chunks_S.
    destruct (Nat.ltb_spec (length rest) 24); [reflexivity|].
    destruct Hr as [Hr|Hr]; [lia|]. rewrite parse_cons.
    destruct rest as [|x rest]; [discriminate|]. cbn in Hr. injection Hr as ->. reflexivity.
  - rewrite fmap_cons in *. cbn [concat] in *. rewrite <- app_assoc in *.
    pose proof Hf as Hf0. rewrite app_length, enc_length in Hf0.
    destruct fuel as [|fuel]; [lia|]. rewrite chunks_S.
    rewrite app_length, enc_length.
    destruct (Nat.ltb_spec (24 + length (concat (enc <$> ts) ++ rest)) 24); [lia|].
    rewrite <- (enc_length t) at 1. rewrite take_app.
    rewrite <- (enc_length t) at 2. rewrite drop_app.
    rewrite parse_cons. rewrite deserialise_enc by exact V.
    assert (head (enc t) = Some (t_state t)) as -> by reflexivity. cbn [mbind option_bind].
    assert (state_from_u8 (t_state t) = Some (t_state t)) as -> by (destruct V as [[-> | ->] _]; reflexivity).
    cbn [mbind option_bind].
    assert ((t_state t =? ds_end) = false) as -> by (destruct V as [[-> | ->] _]; reflexivity).
    rewrite (IH rest fuel Hr) by lia. reflexivity.
Qed.

Lemma bundle_roundtrip max page ts : Forall valid_tuple ts ->
  N.of_nat (length ts) <= max -> max * 24 <= N.of_nat (length page) -> N.of_nat (length page) < (max + 1) * 24 ->
  exists page', serialise_bundle max page ts = Some page' /\ length page' = length page /\ parse_bundle page' = Some ts.
Proof.
  intros V Hn Hm1 Hm2. unfold serialise_bundle.
  pose proof (serialise_from_spec ts [] page 0 eq_refl ltac:(lia)) as E. cbn [app] in E. rewrite E. cbn [mbind option_bind].
  pose proof (concat_enc_length ts) as Lc. unfold parse_bundle. change (N.to_nat tup_len) with 24%nat.
  destruct (N.ltb_spec (N.of_nat (length ts)) max) as [Hl|Hl].
  - destruct (drop (24 * length ts) page) as [|x r] eqn:Ed.
    { apply (f_equal length) in Ed. rewrite drop_length in Ed. cbn in Ed. lia. }
    change (x :: r) with ([x] ++ r).
    rewrite buf_write_app; [|rewrite Lc; change tup_len with 24; lia|reflexivity].
    eexists. split; [reflexivity|]. split.
    + apply (f_equal length) in Ed. rewrite drop_length in Ed. rewrite !app_length, Lc. cbn [length] in *. lia.
    + apply parse_spec; [exact V|right; reflexivity|reflexivity].
  - eexists. split; [reflexivity|]. split.
    + rewrite app_length, drop_length, Lc. lia.
    + apply parse_spec; [exact V|left; rewrite drop_length; lia|reflexivity].
Qed.

(** The whole index area. *)
Lemma chunks_pages n (pages : list (list N)) : (0 < n)%nat -> Forall (fun p => length p = n) pages -> forall fuel,
  (length (concat pages) <= fuel)%nat -> chunks_exact fuel n (concat pages) = pages.
Proof.
  intros Hn. induction 1 as [|p pages Lp _ IH]; intros fuel Hf.
  - destruct fuel; [reflexivity|]. rewrite chunks_S. cbn. destruct n; [lia|reflexivity].
  - cbn [concat] in *. rewrite app_length in Hf. destruct fuel as [|fuel]; [lia|]. rewrite chunks_S, app_length.
    destruct (Nat.ltb_spec (length p + length (concat pages)) n); [lia|].
    rewrite <- Lp at 1. rewrite take_app. rewrite <- Lp at 2. rewrite drop_app, IH by lia. reflexivity.
Qed.
Lemma load_area_pages spage pages : Forall (fun p => N.of_nat (length p) = 2 ^ spage) pages ->
  load_area spage (concat pages) = mapM parse_bundle pages.
Proof.
  intros H. unfold load_area. pose proof (pow2_pos spage).
  assert (N.of_nat (length (concat pages)) mod 2 ^ spage = 0) as ->.
  { induction H as [|p pages Lp _ IH]; [apply N.mod_0_l; lia|]. cbn [concat]. rewrite app_length, Nat2N.inj_add, Lp.
    rewrite <- N.add_mod_idemp_r, IH, N.add_0_r by lia. apply N.mod_same. lia. }
  cbn [negb N.eqb]. rewrite chunks_pages; [reflexivity|lia| |lia].
  eapply Forall_impl; [exact H|]. intros p Lp. cbn in Lp. lia.
Qed.
