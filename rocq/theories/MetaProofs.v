From stdpp Require Import base numbers list list_numbers option.
From Coq Require Import ZifyBool ZifyNat ZifyN.
From Verif Require Import Util Bytes LayoutModel MetaModel.
Open Scope N_scope.
Ltac Zify.zify_post_hook ::= idtac.

Ltac offs := unfold off_total, off_assoc_data, off_assoc_data_len, off_tail_page, off_tail_pages, off_lpage, off_lpages, off_key, off_key_len, off_id, off_size, off_created_ms, off_next, off_metadata_size_pow2, off_state in *.

Ltac offg := unfold off_total, off_assoc_data, off_assoc_data_len, off_tail_page, off_tail_pages, off_lpage, off_lpages, off_key, off_key_len, off_id, off_size, off_created_ms, off_next, off_metadata_size_pow2, off_state.

Lemma write_pages_spec pages : forall b base idx,
  base + 6 * (idx + N.of_nat (length pages)) <= N.of_nat (length b) ->
  exists b', write_pages b (fun i => base + 6 * i) idx pages = Some b' /\ length b' = length b /\
    (forall off len, off + len <= base + 6 * idx \/ base + 6 * (idx + N.of_nat (length pages)) <= off ->
        buf_read b' off len = buf_read b off len) /\
    (forall i p, pages !! i = Some p -> buf_read b' (base + 6 * (idx + N.of_nat i)) 6 = Some (be_bytes 6 p)).
Proof.
  induction pages as [|p pages IH]; intros b base idx H; cbn [write_pages length] in *.
  - exists b. split; [reflexivity|]. split; [reflexivity|]. split; [reflexivity|]. intros i p E. discriminate.
  - destruct (buf_write_Some b (base + 6 * idx) (be_bytes 6 p)) as (b1 & E1 & L1); [rewrite be_bytes_length; lia|].
    rewrite E1. cbn [mbind option_bind].
    destruct (IH b1 base (idx + 1)) as (b2 & E2 & L2 & R2 & P2); [lia|].
    exists b2. split; [exact E2|]. split; [congruence|]. split.
    + intros off len Hd. rewrite R2 by lia. apply (buf_read_other _ _ _ _ _ _ E1). rewrite be_bytes_length. lia.
    + intros i q Hq. destruct i as [|i]; cbn in Hq.
      * injection Hq as ->. rewrite R2 by lia. replace (base + 6 * (idx + N.of_nat 0)) with (base + 6 * idx) by lia.
        apply (buf_read_same' _ _ _ _ _ E1). rewrite be_bytes_length. reflexivity.
      * specialize (P2 i q Hq). rewrite <- P2. f_equal. lia.
Qed.

(** The raw fields of a record. *)
Record raw_fields (raw : list N) (lc tc : N) (r : create_req) (pow2 : N) : Prop := {
  rf_len : N.of_nat (length raw) = off_total (N.of_nat (length (cr_key r))) lc tc (N.of_nat (length (cr_assoc r)));
  rf_state : buf_read raw off_state 1 = Some [st_incomplete];
  rf_pow2 : buf_read raw off_metadata_size_pow2 1 = Some [pow2];
  rf_next : buf_read raw off_next 6 = Some (be_bytes 6 0);
  rf_created : buf_read raw off_created_ms 6 = Some (be_bytes 6 (cr_created_ms r));
  rf_size : buf_read raw off_size 5 = Some (be_bytes 5 (cr_size r));
  rf_id : buf_read raw off_id 16 = Some (be_bytes 16 (cr_id r));
  rf_key_len : buf_read raw off_key_len 2 = Some (be_bytes 2 (N.of_nat (length (cr_key r))));
  rf_key : buf_read raw off_key (N.of_nat (length (cr_key r))) = Some (cr_key r);
  rf_lpages : forall i p, cr_lpages r !! i = Some p ->
    buf_read raw (off_lpage (N.of_nat (length (cr_key r))) (N.of_nat i)) 6 = Some (be_bytes 6 p);
  rf_tails : forall i p, cr_tails r !! i = Some p ->
    buf_read raw (off_tail_page (N.of_nat (length (cr_key r))) lc (N.of_nat i)) 6 = Some (be_bytes 6 p);
  rf_assoc_len : buf_read raw (off_assoc_data_len (N.of_nat (length (cr_key r))) lc tc) 2
    = Some (be_bytes 2 (N.of_nat (length (cr_assoc r))));
  rf_assoc : buf_read raw (off_assoc_data (N.of_nat (length (cr_key r))) lc tc) (N.of_nat (length (cr_assoc r)))
    = Some (cr_assoc r);
}.

Ltac wr E L :=
  match goal with |- context [buf_write ?b ?o ?d] =>
    let b' := fresh "b" in
    destruct (buf_write_Some b o d) as (b' & E & L);
    [ rewrite ?be_bytes_length; cbn [length] | rewrite E; cbn [mbind option_bind] ]
  end.

Lemma create_record_fields spage lpage r lc t :
  calc_object_layout spage lpage (2 ^ 64) (cr_size r) = Some (lc, t) ->
  N.of_nat (length (cr_key r)) < 2 ^ 16 -> N.of_nat (length (cr_assoc r)) < 2 ^ 16 ->
  N.of_nat (length (cr_lpages r)) = lc -> N.of_nat (length (cr_tails r)) = tps_len t ->
  spage <= lpage ->
  off_total (N.of_nat (length (cr_key r))) lc (tps_len t) (N.of_nat (length (cr_assoc r))) <= 2 ^ lpage ->
  exists raw pow2, create_record spage lpage r = Some (CrRecord raw pow2) /\
    spage <= pow2 <= lpage /\ N.of_nat (length raw) <= 2 ^ pow2 /\
    (pow2 = spage \/ 2 ^ (pow2 - 1) < N.of_nat (length raw)) /\
    raw_fields raw lc (tps_len t) r pow2.
Proof.
  intros Hlay Hk Ha Hlp Htp Hsl Hfit. unfold create_record. rewrite Hlay. cbn [mbind option_bind].
  destruct (N.leb_spec (2 ^ 16) (N.of_nat (length (cr_key r)))); [lia|].
  destruct (N.leb_spec (2 ^ 16) (N.of_nat (length (cr_assoc r)))); [lia|].
  destruct (N.ltb_spec (2 ^ lpage) (off_total (N.of_nat (length (cr_key r))) lc (tps_len t) (N.of_nat (length (cr_assoc r))))); [lia|].
  clear Hlay. remember (tps_len t) as tc eqn:Etc. clear Etc t.
  remember (off_total (N.of_nat (length (cr_key r))) lc tc (N.of_nat (length (cr_assoc r)))) as ms eqn:Ems.
  assert (Hms : 37 <= ms) by (rewrite Ems; clear; offs; lia).
  assert (Hp : N.log2_up ms <= lpage).
  { transitivity (N.log2_up (2 ^ lpage)); [apply N.log2_up_le_mono; assumption|]. rewrite N.log2_up_pow2 by lia. lia. }
  assert (Hup : ms <= 2 ^ N.max spage (N.log2_up ms)).
  { transitivity (2 ^ N.log2_up ms); [apply N.log2_up_spec; lia|]. apply N.pow_le_mono_r; lia. }
  assert (Hlow : N.max spage (N.log2_up ms) = spage \/ 2 ^ (N.max spage (N.log2_up ms) - 1) < ms).
  { destruct (N.max_spec spage (N.log2_up ms)) as [[Hlt ->]|[Hle ->]]; [|left; reflexivity].
    right. pose proof (N.log2_up_spec ms) as [Hs _]; [lia|]. rewrite N.sub_1_r. exact Hs. }
  remember (N.max spage (N.log2_up ms)) as pw eqn:Epw.
  assert (Hpw : spage <= pw <= lpage) by lia. clear Epw Hp.
  destruct (N.ltb_spec lpage pw); [lia|].
  remember (replicate (N.to_nat ms) 0) as b0 eqn:Eb0.
  assert (L0 : N.of_nat (length b0) = ms) by (rewrite Eb0, replicate_length; lia).
  assert (R0 : buf_read b0 off_next 6 = Some (be_bytes 6 0)).
  { unfold buf_read. rewrite L0. destruct (N.leb_spec (off_next + 6) ms) as [|Hx]; [|clear - Hx Hms; offs; lia].
    rewrite Eb0, drop_replicate, take_replicate. f_equal.
    replace (Nat.min (N.to_nat 6) (N.to_nat ms - N.to_nat off_next)) with 6%nat; [reflexivity|].
    clear - Hms; offs; lia. }
  clear Eb0 Hfit H H0 H1 H2 Hk Ha.
  assert (Hgoal : exists raw, (raw ← buf_write b0 off_state [st_incomplete];
     raw0 ← buf_write raw off_metadata_size_pow2 [pw];
     raw1 ← buf_write raw0 off_id (be_bytes 16 (cr_id r));
     raw2 ← buf_write raw1 off_created_ms (be_bytes 6 (cr_created_ms r));
     raw3 ← buf_write raw2 off_size (be_bytes 5 (cr_size r));
     raw4 ← buf_write raw3 off_key_len (be_bytes 2 (N.of_nat (length (cr_key r))));
     raw5 ← buf_write raw4 off_key (cr_key r);
     raw6 ← buf_write raw5 (off_assoc_data_len (N.of_nat (length (cr_key r))) lc tc) (be_bytes 2 (N.of_nat (length (cr_assoc r))));
     raw7 ← buf_write raw6 (off_assoc_data (N.of_nat (length (cr_key r))) lc tc) (cr_assoc r);
     raw8 ← write_pages raw7 (off_lpage (N.of_nat (length (cr_key r)))) 0 (cr_lpages r);
     raw9 ← write_pages raw8 (off_tail_page (N.of_nat (length (cr_key r))) lc) 0 (cr_tails r);
     Some (CrRecord raw9 pw)) = Some (CrRecord raw pw) /\ raw_fields raw lc tc r pw).
  2: { destruct Hgoal as (raw & E & Hrf). exists raw, pw. split; [exact E|]. split; [exact Hpw|].
       pose proof (rf_len _ _ _ _ _ Hrf) as Hl. rewrite <- Ems in Hl. rewrite Hl. auto. }
  clear Hpw Hup Hlow Hsl.
  remember (N.of_nat (length (cr_key r))) as kl eqn:Ekl.
  remember (N.of_nat (length (cr_assoc r))) as al eqn:Eal.
  assert (Ems' : ms = 39 + kl + 6 * lc + 6 * tc + al) by (rewrite Ems; clear; offs; lia).
  wr E1 L1; [offg; lia|]. wr E2 L2; [offg; lia|]. wr E3 L3; [offg; lia|]. wr E4 L4; [offg; lia|].
  wr E5 L5; [offg; lia|]. wr E6 L6; [offg; lia|]. wr E7 L7; [offg; lia|]. wr E8 L8; [offg; lia|].
  wr E9 L9; [offg; lia|].
  destruct (write_pages_spec (cr_lpages r) b8 (off_lpages kl) 0) as (b10 & E10 & L10 & R10 & P10); [offg; lia|].
  change (fun i => off_lpages kl + 6 * i) with (off_lpage kl) in E10. rewrite E10. cbn [mbind option_bind].
  destruct (write_pages_spec (cr_tails r) b10 (off_tail_pages kl lc) 0) as (b11 & E11 & L11 & R11 & P11); [offg; lia|].
  change (fun i => off_tail_pages kl lc + 6 * i) with (off_tail_page kl lc) in E11. rewrite E11. cbn [mbind option_bind].
  exists b11. split; [reflexivity|]. clear Ems.
  assert (Hrd : forall off len, off + len <= 37 -> buf_read b11 off len = buf_read b5 off len).
  { intros off len Hoff. rewrite R11 by (offg; lia). rewrite R10 by (offg; lia).
    rewrite (buf_read_other _ _ _ _ _ _ E9) by (left; offg; lia).
    rewrite (buf_read_other _ _ _ _ _ _ E8) by (left; offg; lia).
    apply (buf_read_other _ _ _ _ _ _ E7). left. offg. lia. }
  split.
  - rewrite <- Ekl, <- Eal. rewrite L11, L10, L9, L8, L7, L6, L5, L4, L3, L2, L1, L0, Ems'. offg. lia.
  - rewrite Hrd by (offg; lia).
    do 5 (erewrite buf_read_other by (first [eassumption | rewrite ?be_bytes_length; cbn [length]; offg; lia])).
    apply (buf_read_same' _ _ _ _ _ E1). reflexivity.
  - rewrite Hrd by (offg; lia).
    do 4 (erewrite buf_read_other by (first [eassumption | rewrite ?be_bytes_length; cbn [length]; offg; lia])).
    apply (buf_read_same' _ _ _ _ _ E2). reflexivity.
  - rewrite Hrd by (offg; lia).
    do 6 (erewrite buf_read_other by (first [eassumption | rewrite ?be_bytes_length; cbn [length]; offg; lia])).
    exact R0.
  - rewrite Hrd by (offg; lia).
    do 2 (erewrite buf_read_other by (first [eassumption | rewrite ?be_bytes_length; cbn [length]; offg; lia])).
    apply (buf_read_same' _ _ _ _ _ E4). rewrite be_bytes_length. reflexivity.
  - rewrite Hrd by (offg; lia).
    do 1 (erewrite buf_read_other by (first [eassumption | rewrite ?be_bytes_length; cbn [length]; offg; lia])).
    apply (buf_read_same' _ _ _ _ _ E5). rewrite be_bytes_length. reflexivity.
  - rewrite Hrd by (offg; lia).
    do 3 (erewrite buf_read_other by (first [eassumption | rewrite ?be_bytes_length; cbn [length]; offg; lia])).
    apply (buf_read_same' _ _ _ _ _ E3). rewrite be_bytes_length. reflexivity.
  - rewrite <- Ekl, Hrd by (offg; lia). apply (buf_read_same' _ _ _ _ _ E6). rewrite be_bytes_length. reflexivity.
  - rewrite <- Ekl, R11, R10 by (offg; lia).
    rewrite (buf_read_other _ _ _ _ _ _ E9) by (left; offg; lia).
    rewrite (buf_read_other _ _ _ _ _ _ E8) by (left; offg; lia).
    apply (buf_read_same' _ _ _ _ _ E7). exact Ekl.
  - intros i p Hi. rewrite <- Ekl. pose proof (lookup_lt_Some _ _ _ Hi) as Hlt. rewrite R11 by (offg; lia).
    specialize (P10 i p Hi). rewrite N.add_0_l in P10. exact P10.
  - intros i p Hi. rewrite <- Ekl. specialize (P11 i p Hi). rewrite N.add_0_l in P11. exact P11.
  - rewrite <- Ekl, <- Eal, R11, R10 by (offg; lia).
    rewrite (buf_read_other _ _ _ _ _ _ E9) by (left; offg; lia).
    apply (buf_read_same' _ _ _ _ _ E8). rewrite be_bytes_length. reflexivity.
  - rewrite <- Ekl, <- Eal, R11, R10 by (offg; lia).
    apply (buf_read_same' _ _ _ _ _ E9). exact Eal.
Qed.
