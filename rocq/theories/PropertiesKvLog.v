(** C31, C32, C33: the write-ahead log of libblobd-kv. *)
From stdpp Require Import base numbers list list_numbers option gmap.
From Coq Require Import ZifyBool ZifyNat ZifyN.
From Verif Require Import Util Bytes PageIOModel PageIOProofs KvCodecModel KvCodecSpec KvLogModel KvLogSpec KvLogProofs KvLogSys KvLogInv.
Open Scope N_scope.
Ltac Zify.zify_post_hook ::= idtac.

(** A formatted log can be opened and is empty. *)
Theorem C31_formatted_log_is_empty c dev : good_conf c ->
  exists y, log_format c dev = Some y /\ log_load c (l_page y) (l_dev y) = Some (0, 0, []).
Proof.
  intros Hc. destruct (log_format_Some c dev Hc) as (y & E & Eh & Et & H). exists y. split; [exact E|].
  rewrite (linv_load c y [] Hc H).
  - rewrite Eh, Et. do 2 f_equal. assert (l_ntail y = 0%nat) as Hn.
    { unfold log_format, log_open in E. destruct (log_load _ _ _) as [[[? ?] ?]|]; [|discriminate E]. cbn [mbind option_bind] in E. apply (inj Some) in E. subst y. reflexivity. }
    unfold slice. rewrite Hn. reflexivity.
  - unfold log_format, log_open in E. destruct (log_load _ _ _) as [[[? ?] ?]|]; [|discriminate E]. cbn [mbind option_bind] in E. apply (inj Some) in E. subst y. cbn. lia.
Qed.

(** C31.  After any run of the log from its formatting (batches of any sizes,
    device writes in flight in any state, completions in any order, commits,
    crashes and re-openings), opening the device yields exactly the operations
    between the persisted head and tail, in order.  [l_nhead y] operations
    precede the head: those that preceded the tail when the last finished commit
    started; [l_ntail y] precede the tail. *)
Theorem C31_replay_yields_flushed_operations c dev y0 es y :
  good_conf c -> log_format c dev = Some y0 -> Forall (valid_levent c) es -> lrun c y0 es = Some y ->
  l_maxflush y <= lc_bufsize c ->
  log_load c (l_page y) (l_dev y) = Some (l_head y, l_tail y, slice (l_hist y) (l_nhead y) (l_ntail y)).
Proof. intros Hc H0 Hv Hr HM. destruct (lrun_linv c dev y0 es y Hc H0 Hv Hr) as [q Hq]. eapply linv_load; eassumption. Qed.

(** Without the bound on the batch size it fails: if the first marker after the
    head is a wrap-around that skips more than the replay buffer holds, opening
    panics (log_buffer.rs:207), whatever is in the log. *)
Theorem C31_wide_wrap_refuted c dev page head tail :
  good_conf c -> state_read page = Some (head, tail) -> head mod 2 ^ lc_spage c = 0 -> tail mod 2 ^ lc_spage c = 0 ->
  dev (head mod lc_len c) = 4 -> head mod lc_len c <> 0 -> lc_bufsize c < lc_len c - head mod lc_len c ->
  head + (lc_len c - head mod lc_len c) < tail ->
  log_load c page dev = None.
Proof.
  intros (HL & HLa & HB & HBa & Hsp) Hst Hh Ht Hd Hm Hsk Hlt. unfold log_load. rewrite Hst. cbn [mbind option_bind]. rewrite !mod_pow2_spec, Hh, Ht. cbn [negb N.eqb orb].
  pose proof (N.mod_lt head (lc_len c) ltac:(clear -HL; lia)) as Hml. set (m := head mod lc_len c) in *.
  destruct (N.ltb_spec tail head) as [Hx|_]; [clear -Hx Hlt; lia|].
  destruct (N.to_nat (tail - head)) as [|fuel] eqn:Ef; [clear -Ef Hlt Hml; lia|].
  rewrite replay_S. cbn [lb_base lb_drained]. cbv zeta. rewrite N.add_0_r. destruct (N.eqb_spec head tail) as [Hx|_]; [clear -Hx Hlt; lia|].
  rewrite Ef. cbn [refill lb_base lb_drained lb_buf length]. change (N.of_nat 0) with 0. change (0 <? 0) with false. cbv iota. change (0 - 0) with 0. rewrite N.add_0_r, mod_pow2_spec, Hh. cbn [negb N.eqb].
  destruct (N.ltb_spec tail head) as [Hx|_]; [clear -Hx Hlt; lia|].
  destruct (N.leb_spec (lc_bufsize c) 0) as [Hx|_]; [clear -Hx HB; lia|]. cbn [orb]. destruct (N.eqb_spec head tail) as [Hx|_]; [clear -Hx Hlt; lia|].
  fold m. assert (N.min (N.min (lc_bufsize c) (tail - head)) (lc_len c - m) = lc_bufsize c) as -> by (clear -Hsk Hlt; lia).
  cbn [N.to_nat drop app].
  assert (forall b, lb_buf b = dev_read dev m (lc_bufsize c) -> lb_drained b = 0 -> refill fuel c dev head tail b = Some b) as Hrf.
  { intros b E1 E2. destruct fuel; cbn [refill]; rewrite E1, E2, dev_read_length, N2Nat.id, N.sub_0_r, mod_pow2_spec, mod_add_0 by (apply pow2_nz || assumption); cbn [negb N.eqb].
    all: destruct (N.ltb_spec (lc_bufsize c) 0) as [Hx|_]; [clear -Hx; lia|].
    all: destruct (N.ltb_spec tail (head + lc_bufsize c)) as [Hx|_]; [clear -Hx Hsk Hlt; lia|]; rewrite N.leb_refl; reflexivity. }
  change (N.to_nat 0) with 0%nat. cbn [drop app].
  rewrite Hrf by reflexivity. cbn [mbind option_bind lb_drained lb_buf lb_base]. change (N.to_nat 0) with 0%nat. cbn [drop].
  destruct (dev_read dev m (lc_bufsize c)) as [|tag rd1] eqn:Erd.
  { reflexivity. }
  assert (tag = 4) as ->.
  { unfold dev_read in Erd. destruct (N.to_nat (lc_bufsize c)) eqn:En; [clear -En HB; lia|]. cbn in Erd. injection Erd as <- _. rewrite N.add_0_r. exact Hd. }
  assert (length (4 :: rd1) = N.to_nat (lc_bufsize c)) as Elen by (rewrite <- Erd; apply dev_read_length).
  assert (forall n, replay n c dev tail {| lb_base := head; lb_buf := 4 :: rd1; lb_drained := 0 + (lc_len c - m) |} = None) as Hnone.
  { rewrite N.add_0_l. intros n. destruct n as [|n]; cbn [replay lb_base lb_drained].
    all: destruct (N.eqb_spec (head + (lc_len c - m)) tail) as [Hx|_]; [clear -Hx Hlt; lia|].
    - reflexivity.
    - assert (forall n, refill n c dev (head + (lc_len c - m)) tail {| lb_base := head; lb_buf := 4 :: rd1; lb_drained := lc_len c - m |} = None) as ->; [|reflexivity].
      clear n. intros n. destruct n; cbn [refill lb_buf lb_drained]; rewrite Elen, N2Nat.id; destruct (N.ltb_spec (lc_bufsize c) (lc_len c - m)) as [_|Hx]; try reflexivity; clear -Hx Hsk; lia. }
  change (drop 0 (4 :: rd1)) with (4 :: rd1). cbv iota beta.
  change (4 =? 1) with false. change (4 =? 2) with false. change (4 =? 3) with false. change (4 =? 4) with true. cbv iota.
  rewrite Hnone. destruct (_ && _); reflexivity.
Qed.

(** C32.  No device write in flight touches a byte of the log between the
    persisted head and tail, or of another flush. *)
Theorem C32_flush_never_overwrites_live_log c dev y0 es y f b :
  good_conf c -> log_format c dev = Some y0 -> Forall (valid_levent c) es -> lrun c y0 es = Some y ->
  (f, b) ∈ l_flights y ->
  forall a, flight_touches f a = true ->
    (forall v, l_head y <= v < l_tail y -> v mod lc_len c <> a) /\
    (forall f' b', (f', b') ∈ l_flights y -> f' <> f -> flight_touches f' a = false) /\
    (forall n f', l_backlog y !! n = Some f' -> flight_touches f' a = false).
Proof.
  intros Hc H0 Hv Hr Hin a Ha. destruct (lrun_linv c dev y0 es y Hc H0 Hv Hr) as [q Hq]. pose proof (linv_bounds _ _ _ Hq) as (Hb1 & Hb2 & Hb3).
  destruct (i_flights _ _ _ Hq _ _ Hin) as [Hf Hno]. destruct (flight_pos _ _ _ _ Hq Hf) as (k & s & Hk & _).
  destruct (chain_lookup _ _ _ _ _ _ _ _ (i_chain _ _ _ Hq) Hk) as ((_ & Ht & _) & Hs1 & Hs2). destruct (Ht a Ha) as (w & Hw & Ew).
  assert (forall f', f' ∈ (snd <$> q) -> f' <> f -> flight_touches f' a = false) as Hother.
  { intros f' Hf' Hne. destruct (flight_touches f' a) eqn:E; [|reflexivity]. exfalso. destruct (flight_pos _ _ _ _ Hq Hf') as (k' & s' & Hk' & _).
    destruct (chain_lookup _ _ _ _ _ _ _ _ (i_chain _ _ _ Hq) Hk') as ((_ & Ht' & _) & Hs1' & Hs2'). destruct (Ht' a E) as (w' & Hw' & Ew').
    assert (w = w') as <- by (apply (ring_inj c y q); auto; [slia|slia|congruence]).
    destruct (Nat.lt_trichotomy k k') as [Hlt|[<-|Hlt]].
    - pose proof (chain_order _ _ _ _ _ _ _ _ _ _ _ (i_chain _ _ _ Hq) Hk Hk' Hlt). slia.
    - rewrite Hk in Hk'. congruence.
    - pose proof (chain_order _ _ _ _ _ _ _ _ _ _ _ (i_chain _ _ _ Hq) Hk' Hk Hlt). slia. }
  split; [|split].
  - intros v Hvr Ev. assert (v = w) as ->; [|slia]. apply (ring_inj c y q); auto; [slia|slia|congruence].
  - intros f' b' Hf' Hne. apply Hother; [|exact Hne]. apply (i_flights _ _ _ Hq _ _ Hf').
  - intros n f' Hn. destruct (i_backlog _ _ _ Hq _ _ Hn) as [Hf' Hid]. apply Hother; [exact Hf'|]. intros ->. rewrite Hid in Hno. congruence.
Qed.
(** What a flush in flight can write to. *)
Theorem C32_device_changes_only_where_flushes_write c y i v y' a :
  lstep c y (ETorn i v) = Some y' \/ lstep c y (EFinish i) = Some y' ->
  (forall f b, (f, b) ∈ l_flights y -> flight_touches f a = false) -> l_dev y' a = l_dev y a.
Proof.
  intros [E|E] Hno; cbn [lstep] in E.
  all: destruct (l_flights y !! i) as [[f fin]|] eqn:Ef; [|discriminate E]; cbn [mbind option_bind] in E; destruct fin; [discriminate E|].
  all: assert (flight_touches f a = false) as Hf by (eapply Hno, elem_of_list_lookup_2; exact Ef).
  - apply (inj Some) in E. subst y'. cbn. rewrite Hf. reflexivity.
  - destruct (flight_write c (l_dev y) f) as [d|] eqn:Ed; [|discriminate E]. cbn [mbind option_bind] in E. apply (inj Some) in E. subst y'. cbn.
    eapply flight_write_out; eassumption.
Qed.

(** C33.  When operation [n] has been acknowledged, it and every operation
    received before it are covered by the persisted tail: each was committed out
    of the log or is found, at its place, when the device is opened. *)
Theorem C33_acknowledged_in_log_order c dev y0 es y n :
  good_conf c -> log_format c dev = Some y0 -> Forall (valid_levent c) es -> lrun c y0 es = Some y ->
  l_maxflush y <= lc_bufsize c ->
  n ∈ l_acked y ->
  exists ops, log_load c (l_page y) (l_dev y) = Some (l_head y, l_tail y, ops) /\
  forall j, (j <= n)%nat ->
    exists t, l_hist y !! j = Some t /\ ((j < l_nhead y)%nat \/ ops !! (j - l_nhead y)%nat = Some t).
Proof.
  intros Hc H0 Hv Hr HM Hn. destruct (lrun_linv c dev y0 es y Hc H0 Hv Hr) as [q Hq].
  eexists. split; [apply (linv_load c y q Hc Hq HM)|]. intros j Hj.
  pose proof (proj1 (Forall_forall _ _) (i_acked _ _ _ Hq) n Hn) as Hlt. cbn in Hlt. pose proof (i_ord _ _ _ Hq) as (Ho1 & Ho2 & Ho3).
  destruct (lookup_lt_is_Some_2 (l_hist y) j ltac:(slia)) as [t Ht]. exists t. split; [exact Ht|].
  destruct (decide (j < l_nhead y)%nat) as [|Hge]; [left; assumption|right]. rewrite slice_lookup by slia. exact Ht.
Qed.
(** The same without opening: the record itself lies on the device between the
    persisted head and tail, whatever the sizes of the batches. *)
Lemma laid_find L sp M dev v ops v' i t : laid L sp M dev v ops v' -> ops !! i = Some t ->
  exists w s, task_serialise t = Some s /\ v <= w /\ w + N.of_nat (length s) <= v' /\ forall k b, s !! k = Some b -> dev ((w + N.of_nat k) mod L) = b.
Proof.
  intros H. revert i. induction H as [v|v t0 s ops v1 Hv Hs Hm Hb H IH|v ops v1 Hd Hp H IH|v ops v1 Hd Hp Hm H IH]; intros i Hi.
  - discriminate Hi.
  - pose proof (laid_le _ _ _ _ _ _ _ H) as Hle. destruct i as [|i]; cbn in Hi.
    + injection Hi as <-. exists v, s. split; [exact Hs|]. split; [lia|]. split; [exact Hle|]. exact Hb.
    + destruct (IH i Hi) as (w & s' & ? & ? & ? & ?). exists w, s'. repeat split; try assumption. lia.
  - destruct (IH i Hi) as (w & s' & ? & Hw & ? & ?). exists w, s'. split; [assumption|]. split; [|auto]. clear -Hw. lia.
  - destruct (IH i Hi) as (w & s' & ? & Hw & ? & ?). exists w, s'. split; [assumption|]. split; [|auto]. clear -Hw. lia.
Qed.
Theorem C33_acknowledged_records_on_device c dev y0 es y n :
  good_conf c -> log_format c dev = Some y0 -> Forall (valid_levent c) es -> lrun c y0 es = Some y ->
  n ∈ l_acked y ->
  state_read (l_page y) = Some (l_head y, l_tail y) /\
  forall j, (j <= n)%nat -> exists t, l_hist y !! j = Some t /\
    ((j < l_nhead y)%nat \/
     exists v s, task_serialise t = Some s /\ l_head y <= v /\ v + N.of_nat (length s) <= l_tail y /\
       forall k b, s !! k = Some b -> l_dev y ((v + N.of_nat k) mod lc_len c) = b).
Proof.
  intros Hc H0 Hv Hr Hn. destruct (lrun_linv c dev y0 es y Hc H0 Hv Hr) as [q Hq]. split; [apply Hq|]. intros j Hj.
  pose proof (proj1 (Forall_forall _ _) (i_acked _ _ _ Hq) n Hn) as Hlt. cbn in Hlt. pose proof (i_ord _ _ _ Hq) as (Ho1 & Ho2 & Ho3).
  destruct (lookup_lt_is_Some_2 (l_hist y) j ltac:(slia)) as [t Ht]. exists t. split; [exact Ht|].
  destruct (decide (j < l_nhead y)%nat) as [|Hge]; [left; assumption|right].
  eapply (laid_find _ _ _ _ _ (slice (l_hist y) (l_nhead y) (l_ntail y)) _ (j - l_nhead y)); [|rewrite slice_lookup by slia; exact Ht].
  rewrite <- (slice_app _ _ (l_ncommit y)) by (split; assumption). eapply laid_app; apply Hq.
Qed.
(** Crashing loses no acknowledged operation: the history is cut only beyond
    them. *)
Theorem C33_crash_keeps_acknowledged c dev y0 es y y' n :
  good_conf c -> log_format c dev = Some y0 -> Forall (valid_levent c) es -> lrun c y0 es = Some y ->
  lstep c y ECrash = Some y' -> n ∈ l_acked y -> l_hist y' !! n = l_hist y !! n /\ (n < l_ntail y')%nat.
Proof.
  intros Hc H0 Hv Hr E Hn. destruct (lrun_linv c dev y0 es y Hc H0 Hv Hr) as [q Hq].
  pose proof (proj1 (Forall_forall _ _) (i_acked _ _ _ Hq) n Hn) as Hlt. cbn in Hlt.
  cbn [lstep] in E. unfold log_open in E. destruct (log_load c (l_page y) (l_dev y)) as [[[h t] ops]|]; [|discriminate E]. cbn [mbind option_bind] in E. apply (inj Some) in E. subst y'.
  cbn [l_hist l_ntail]. rewrite lookup_take by slia. split; [reflexivity|slia].
Qed.

(** A run that meets the hypotheses: a log of five 512-byte pages; two batches in
    flight whose writes complete in the wrong order, a commit, a batch that wraps
    around, a torn third batch and a crash. *)
Definition ex_conf : lconf := {| lc_len := 2560; lc_spage := 9; lc_bufsize := 2048 |}.
Definition ex_up (k v n : N) : ltask := TUpsert (KLit [k]) (DInline (replicate (N.to_nat n) v)).
Definition ex_junk (n : nat) : list N := replicate n 77.
Definition ex_log_events : list levent :=
  [ERecv (ex_up 1 10 3); ERecv (TDelete (KLit [2])); EFlush (ex_junk 512) (ex_junk 512);
   ERecv (ex_up 3 30 1100); EFlush (ex_junk 1536) (ex_junk 512);
   ETorn 0 (fun _ => 99); EFinish 1; EHand 1; EFinish 0; EHand 0; EComplete (ex_junk 512); EApply; EApply; EApply;
   ECommitStart 1; ERecv (ex_up 4 40 200); ECommitEnd (ex_junk 512);
   ERecv (ex_up 5 50 500); EFlush (ex_junk 1024) (ex_junk 512); EFinish 0; EHand 0; EComplete (ex_junk 512); EApply;
   ERecv (ex_up 6 60 9); EFlush (ex_junk 512) (ex_junk 512); ETorn 0 (fun a => a); ECrash; ERecv (TDelete (KHash (replicate 32 8)))].
Theorem C31_C33_example :
  good_conf ex_conf /\ Forall (valid_levent ex_conf) ex_log_events /\
  exists y0 y, log_format ex_conf (fun _ => 4) = Some y0 /\ lrun ex_conf y0 ex_log_events = Some y /\
    l_maxflush y = 1536 /\ l_acked y = [0; 1; 2; 3]%nat /\ l_head y = 2048 /\ l_tail y = 3584 /\
    log_load ex_conf (l_page y) (l_dev y) = Some (2048, 3584, [ex_up 4 40 200; ex_up 5 50 500]).
Proof.
  split; [unfold good_conf; cbn; repeat split; try reflexivity; discriminate|].
  split.
  { repeat constructor; cbn [valid_levent valid_task ex_up valid_key valid_data]; rewrite ?replicate_length; try reflexivity; try lia; try (apply Forall_replicate; reflexivity); try (unfold is_byte; lia). }
  destruct (log_format ex_conf (fun _ => 4)) as [y0|] eqn:E0; [|vm_compute in E0; discriminate E0].
  exists y0. assert (match log_format ex_conf (fun _ => 4) ≫= fun y0 => lrun ex_conf y0 ex_log_events with
    | Some y => (l_maxflush y =? 1536) && bool_decide (l_acked y = [0; 1; 2; 3]%nat) && (l_head y =? 2048) && (l_tail y =? 3584) &&
       bool_decide (log_load ex_conf (l_page y) (l_dev y) = Some (2048, 3584, [ex_up 4 40 200; ex_up 5 50 500]))
    | None => false end = true) as H by (vm_compute; reflexivity).
  rewrite E0 in H. cbn [mbind option_bind] in H. destruct (lrun ex_conf y0 ex_log_events) as [y|] eqn:E; [|discriminate H].
  exists y. apply andb_prop in H as [H H5]. apply andb_prop in H as [H H4]. apply andb_prop in H as [H H3]. apply andb_prop in H as [H1 H2].
  apply bool_decide_eq_true in H2, H5. apply N.eqb_eq in H1, H3, H4. auto 10.
Qed.
(** A log length that is not a whole number of pages (the configuration does not
    check it, lib.rs:104-120): after the first wrap-around the tail is no page
    boundary and opening the store panics. *)
Definition ex_bad_conf : lconf := {| lc_len := 2300; lc_spage := 9; lc_bufsize := 2048 |}.
Definition ex_bad_events : list levent :=
  [ERecv (ex_up 3 30 600); EFlush (ex_junk 1024) (ex_junk 512); EFinish 0; EHand 0; EComplete (ex_junk 512); EApply;
   ERecv (ex_up 4 40 200); EFlush (ex_junk 512) (ex_junk 512); EFinish 0; EHand 0; EComplete (ex_junk 512); EApply; ECommitStart 1; ECommitEnd (ex_junk 512);
   ERecv (ex_up 5 50 600); EFlush (ex_junk 1024) (ex_junk 512); EFinish 0; EHand 0; EComplete (ex_junk 512); EApply].
Theorem C31_misaligned_log_refuted :
  exists y0 y, log_format ex_bad_conf (fun _ => 0) = Some y0 /\ Forall (valid_levent ex_bad_conf) ex_bad_events /\
    lrun ex_bad_conf y0 ex_bad_events = Some y /\ l_acked y = [0; 1; 2]%nat /\ log_load ex_bad_conf (l_page y) (l_dev y) = None.
Proof.
  destruct (log_format ex_bad_conf (fun _ => 0)) as [y0|] eqn:E0; [|vm_compute in E0; discriminate E0].
  exists y0. assert (match log_format ex_bad_conf (fun _ => 0) ≫= fun y0 => lrun ex_bad_conf y0 ex_bad_events with
    | Some y => bool_decide (l_acked y = [0; 1; 2]%nat) && bool_decide (log_load ex_bad_conf (l_page y) (l_dev y) = None)
    | None => false end = true) as H by (vm_compute; reflexivity).
  rewrite E0 in H. cbn [mbind option_bind] in H. destruct (lrun ex_bad_conf y0 ex_bad_events) as [y|] eqn:E; [|discriminate H].
  exists y. apply andb_prop in H as [H1 H2]. apply bool_decide_eq_true in H1, H2. split; [reflexivity|]. split; [|auto].
  repeat constructor; cbn [valid_levent valid_task ex_up valid_key valid_data]; rewrite ?replicate_length; try reflexivity; try lia; try (apply Forall_replicate; reflexivity); try (unfold is_byte; lia).
Qed.

Print Assumptions C31_formatted_log_is_empty.
Print Assumptions C31_replay_yields_flushed_operations.
Print Assumptions C31_wide_wrap_refuted.
Print Assumptions C31_misaligned_log_refuted.
Print Assumptions C32_flush_never_overwrites_live_log.
Print Assumptions C32_device_changes_only_where_flushes_write.
Print Assumptions C33_acknowledged_in_log_order.
Print Assumptions C33_acknowledged_records_on_device.
Print Assumptions C33_crash_keeps_acknowledged.
