(** Properties C27 and C46: the counters of a direct partition. *)
From Coq Require Import ZifyBool ZifyNat ZifyN.
From stdpp Require Import base numbers list_numbers option gmap sets functions list.
From Verif Require Import Util Bytes BuddyModel BuddySpec PageIOModel TuplesModel TuplesSpec.
From Verif Require Import DirectModel DirectBase DirectSteps DirectInv DirectTup DirectSpec DirectSeqSpec DirectSpaceSpec DirectMetricsSpec DirectSys DirectDrive DirectMetrics PropertiesDirectSpace.
Open Scope N_scope.
Ltac Zify.zify_post_hook ::= idtac.

Lemma total_weight f h : total_of f h = zsum (weight f h) (existing h).
Proof.
  unfold total_of, weight. induction (existing h) as [|r l IH]; [reflexivity|]. cbn [foldr zsum]. rewrite IH. lia.
Qed.
Lemma zsum_idle (f : pc -> Z) ps : f PDone = 0%Z -> (forall p, p ∈ ps -> p = PDone) -> zsum f ps = 0%Z.
Proof.
  intros Hf H. induction ps as [|p ps IH]; [reflexivity|]. cbn [zsum]. rewrite (H p) by constructor. rewrite Hf, IH; [reflexivity|].
  intros q Hq. apply H. now right.
Qed.

Lemma vals_size {K} `{Countable K} (m : gmap K nat) : length (vals m) = size m.
Proof. unfold vals. now rewrite fmap_length. Qed.

Lemma MInv_idle y : MInv (y_sh y) (y_procs y) -> quiescent y ->
  mt_incomplete (h_met (y_sh y)) = Z.of_nat (size (h_inc (y_sh y))) /\
  mt_committed (h_met (y_sh y)) = Z.of_nat (size (h_com (y_sh y))) /\
  mt_data_bytes (h_met (y_sh y)) = total_of (fun ob => m_size (b_meta ob)) (y_sh y) /\
  mt_meta_bytes (h_met (y_sh y)) = total_of b_msize (y_sh y).
Proof.
  intros [M1 M2 M3 M4 _] Hq. rewrite !total_weight.
  assert (E : met_owners (y_sh y) (y_procs y) = existing (y_sh y)).
  { unfold met_owners, existing, vals. assert (y_procs y ≫= met_refs = []) as ->; [|now rewrite app_nil_r].
    clear -Hq. unfold quiescent in Hq. induction (y_procs y) as [|p ps IH]; [reflexivity|]. rewrite bind_cons.
    rewrite (Hq p) by constructor. apply IH. intros q Hin. apply Hq. now right. }
  rewrite M1, M2, M3, M4, E, !zsum_idle by (reflexivity || exact Hq). rewrite !vals_size.
  split; [|split; [|auto]]; lia.
Qed.

(** ** C27 *)
(** Full property: at every moment the counters equal the numbers of objects and
    bytes.  It holds whenever no call is under way, if no call has panicked. *)
Theorem C27_counters_right_when_idle_partial : forall c pages y0 ls y,
  cfg_ok c -> fresh_partition c pages y0 -> dsteps c y0 ls y -> valid_calls (dc_lpage c) ls -> no_panics ls -> quiescent y ->
  mt_incomplete (h_met (y_sh y)) = Z.of_nat (size (h_inc (y_sh y))) /\
  mt_committed (h_met (y_sh y)) = Z.of_nat (size (h_com (y_sh y))) /\
  mt_data_bytes (h_met (y_sh y)) = total_of (fun ob => m_size (b_meta ob)) (y_sh y) /\
  mt_meta_bytes (h_met (y_sh y)) = total_of b_msize (y_sh y).
Proof.
  intros c pages y0 ls y Hc Hf Hs Hv Hn Hq. apply MInv_idle; [|exact Hq]. now destruct (M_steps _ _ _ _ _ Hc Hf Hs Hv Hn).
Qed.
Print Assumptions C27_counters_right_when_idle_partial.

(** How far they can be off: by the calls under way.  The number of uploads and
    the bytes are never reported too low. *)
Definition under_way (y : dsys) : Z :=
  Z.of_nat (length (List.filter (fun p => match p with PDone => false | _ => true end) (y_procs y))).
Lemma zsum_bound (f : pc -> Z) ps : f PDone = 0%Z -> (forall p, -1 <= f p <= 1)%Z ->
  (Z.abs (zsum f ps) <= Z.of_nat (length (List.filter (fun p => match p with PDone => false | _ => true end) ps)))%Z.
Proof.
  intros Hd Hf. induction ps as [|p ps IH]; [cbn; lia|]. cbn [zsum List.filter]. pose proof (Hf p).
  destruct p; cbn [length]; lia.
Qed.
Lemma zsum_nonneg {A} (f : A -> Z) l : (forall x, 0 <= f x)%Z -> (0 <= zsum f l)%Z.
Proof. intros H. induction l as [|x l IH]; cbn [zsum]; [lia|]. specialize (H x). lia. Qed.
Lemma MInv_bounds y : MInv (y_sh y) (y_procs y) ->
  (Z.of_nat (size (h_inc (y_sh y))) <= mt_incomplete (h_met (y_sh y)) <= Z.of_nat (size (h_inc (y_sh y))) + under_way y)%Z /\
  (Z.abs (mt_committed (h_met (y_sh y)) - Z.of_nat (size (h_com (y_sh y)))) <= under_way y)%Z /\
  (total_of (fun ob => m_size (b_meta ob)) (y_sh y) <= mt_data_bytes (h_met (y_sh y)))%Z /\
  (total_of b_msize (y_sh y) <= mt_meta_bytes (h_met (y_sh y)))%Z.
Proof.
  intros [M1 M2 M3 M4 _].
  rewrite !total_weight, M1, M2, M3, M4, !vals_size. unfold under_way.
  assert (Hi : (0 <= zsum inc_pend (y_procs y))%Z).
  { apply zsum_nonneg. intros p. destruct p; cbn; try lia; match goal with k : cont |- _ => destruct k end; cbn; lia. }
  assert (Hi2 : (forall p, -1 <= inc_pend p <= 1)%Z) by (intros p; destruct p; cbn; try lia; match goal with k : cont |- _ => destruct k end; cbn; lia).
  assert (Hc2 : (forall p, -1 <= com_pend p <= 1)%Z).
  { intros p; destruct p as [| | | | | | | | | | | | |? ? []|? ? ? []|? k|? ? ? k|? k|k| |]; cbn; try lia; destruct k as [[] []|]; cbn; lia. }
  pose proof (zsum_bound inc_pend (y_procs y) eq_refl Hi2) as B1. pose proof (zsum_bound com_pend (y_procs y) eq_refl Hc2) as B2.
  assert (Hw : forall f, (zsum (weight f (y_sh y)) (existing (y_sh y)) <= zsum (weight f (y_sh y)) (met_owners (y_sh y) (y_procs y)))%Z).
  { intros f. change (met_owners (y_sh y) (y_procs y)) with (vals (h_inc (y_sh y)) ++ vals (h_com (y_sh y)) ++ (y_procs y ≫= met_refs)).
    rewrite app_assoc. change (vals (h_inc (y_sh y)) ++ vals (h_com (y_sh y))) with (existing (y_sh y)). rewrite zsum_app.
    assert (0 <= zsum (weight f (y_sh y)) (y_procs y ≫= met_refs))%Z; [|lia].
    apply zsum_nonneg. intros r. unfold weight. destruct (h_objs (y_sh y) !! r); lia. }
  split; [lia|]. split; [lia|]. split; apply Hw.
Qed.
Theorem C27_counters_off_by_calls_under_way_partial : forall c pages y0 ls y,
  cfg_ok c -> fresh_partition c pages y0 -> dsteps c y0 ls y -> valid_calls (dc_lpage c) ls -> no_panics ls ->
  (Z.of_nat (size (h_inc (y_sh y))) <= mt_incomplete (h_met (y_sh y)) <= Z.of_nat (size (h_inc (y_sh y))) + under_way y)%Z /\
  (Z.abs (mt_committed (h_met (y_sh y)) - Z.of_nat (size (h_com (y_sh y)))) <= under_way y)%Z /\
  (total_of (fun ob => m_size (b_meta ob)) (y_sh y) <= mt_data_bytes (h_met (y_sh y)))%Z /\
  (total_of b_msize (y_sh y) <= mt_meta_bytes (h_met (y_sh y)))%Z.
Proof.
  intros c pages y0 ls y Hc Hf Hs Hv Hn. apply MInv_bounds. now destruct (M_steps _ _ _ _ _ Hc Hf Hs Hv Hn).
Qed.
Print Assumptions C27_counters_off_by_calls_under_way_partial.

(** The full property fails.  First, the count of committed objects can be
    reported as -1, i.e. 2^64 - 1: an object can be deleted as soon as it is
    visible, before its commit has added it to the count. *)
Definition c27_commit : list ev :=
  do_create 0 [97] 10 1 2 ++ [ECall (OCommit 1 false)] ++ steps 1 [2; 2; 2; 2; 3] ++ [EFlush] ++ steps 1 [3].
Definition c27_negative : list ev :=
  c27_commit ++ [ECall (ODelete [97] None)] ++ steps 2 [3; 3] ++ [EFlush] ++ steps 2 [3; 3; 3].
Definition c27_labels : list label :=
  [LCall 0 (OCreate [97] 10); LVis 0 (VRet (RCreated 1)); LCall 1 (OCommit 1 false);
   LCall 2 (ODelete [97] None); LVis 2 (VRet RDeleted)].
Theorem C27_committed_count_goes_negative_refuted : exists c pages y0 ls y,
  cfg_ok c /\ fresh_partition c pages y0 /\ dsteps c y0 ls y /\ valid_calls (dc_lpage c) ls /\ no_panics ls /\
  mt_committed (h_met (y_sh y)) = (-1)%Z.
Proof.
  destruct (ex_run_shows 10 8192 c27_negative (fun y _ => mt_committed (h_met (y_sh y))) c27_labels (-1)%Z
    ltac:(vm_compute; reflexivity)) as (y0 & y & ls & H1 & H2 & H3 & H4).
  exists (ex_cfg 10 8192), (PropertiesTuples.ex_pages 1), y0, ls, y.
  split; [constructor; cbn; lia|]. split; [exact H1|]. split; [exact H2|].
  split; [apply valid_calls_ok; rewrite H3; vm_compute; reflexivity|].
  split; [apply no_panics_b; rewrite H3; vm_compute; reflexivity|exact H4].
Qed.
Print Assumptions C27_committed_count_goes_negative_refuted.

(** Second, after a panic the counters stay wrong: a deletion between the moment
    a new object becomes visible and the moment the index knows it panics, having
    removed the object. *)
Definition c27_drift : list ev :=
  do_create 0 [97] 10 1 2 ++ [ECall (OCommit 1 false)] ++ steps 1 [2; 2; 2; 2]
  ++ [ECall (ODelete [97] None)] ++ steps 2 [3; 3]
  ++ steps 1 [3] ++ [EFlush] ++ steps 1 [3; 3].
Definition c27_drift_labels : list label :=
  [LCall 0 (OCreate [97] 10); LVis 0 (VRet (RCreated 1)); LCall 1 (OCommit 1 false);
   LCall 2 (ODelete [97] None); LVis 2 (VRet RPanicked); LVis 1 (VRet (RCommitted (Some 2)))].
Theorem C27_counters_stay_wrong_after_panic_refuted : exists c pages y0 ls y,
  cfg_ok c /\ fresh_partition c pages y0 /\ dsteps c y0 ls y /\ valid_calls (dc_lpage c) ls /\ quiescent y /\
  visible ls = c27_drift_labels /\
  h_inc (y_sh y) = ∅ /\ h_com (y_sh y) = ∅ /\ mt_committed (h_met (y_sh y)) = 1%Z /\ mt_data_bytes (h_met (y_sh y)) = 10%Z.
Proof.
  destruct (ex_run_shows 10 8192 c27_drift (fun y _ => (empty_b y, mt_committed (h_met (y_sh y)), mt_data_bytes (h_met (y_sh y)))) c27_drift_labels
    (true, 1%Z, 10%Z) ltac:(vm_compute; reflexivity)) as (y0 & y & ls & H1 & H2 & H3 & H4).
  exists (ex_cfg 10 8192), (PropertiesTuples.ex_pages 1), y0, ls, y.
  apply pair_equal_spec in H4 as [H4 H5]. apply pair_equal_spec in H4 as [H4 H6]. apply empty_b_ok in H4 as (H7 & H8 & H9).
  split; [constructor; cbn; lia|]. split; [exact H1|]. split; [exact H2|].
  split; [apply valid_calls_ok; rewrite H3; vm_compute; reflexivity|]. auto 10.
Qed.
Print Assumptions C27_counters_stay_wrong_after_panic_refuted.

(** A run that meets the hypotheses of the partial theorems, with an upload, a
    committed object and one that was replaced. *)
Theorem C27_example : exists c pages y0 ls y,
  cfg_ok c /\ fresh_partition c pages y0 /\ dsteps c y0 ls y /\ valid_calls (dc_lpage c) ls /\ no_panics ls /\ quiescent y /\
  mt_incomplete (h_met (y_sh y)) = 1%Z /\ mt_committed (h_met (y_sh y)) = 1%Z /\ mt_data_bytes (h_met (y_sh y)) = 1510%Z.
Proof.
  destruct (ex_run_shows 10 8192 c24_ok_run (fun y _ => (forallb (fun p => match p with PDone => true | _ => false end) (y_procs y),
      mt_incomplete (h_met (y_sh y)), mt_committed (h_met (y_sh y)), mt_data_bytes (h_met (y_sh y)))) c24_ok_labels
      (true, 1%Z, 1%Z, 1510%Z)
    ltac:(vm_compute; reflexivity)) as (y0 & y & ls & H1 & H2 & H3 & H4).
  apply pair_equal_spec in H4 as [H4 H5]. apply pair_equal_spec in H4 as [H4 H6]. apply pair_equal_spec in H4 as [H4 H7].
  exists (ex_cfg 10 8192), (PropertiesTuples.ex_pages 1), y0, ls, y.
  split; [constructor; cbn; lia|]. split; [exact H1|]. split; [exact H2|].
  split; [apply valid_calls_ok; rewrite H3; vm_compute; reflexivity|].
  split; [apply no_panics_b; rewrite H3; vm_compute; reflexivity|].
  split; [rewrite forallb_forall in H4; intros p Hp; apply elem_of_list_In, H4 in Hp; destruct p; try discriminate Hp; reflexivity|]. auto.
Qed.
Print Assumptions C27_example.

(** ** C46 *)
(** Full property: each operation counter is the number of calls of that
    operation that succeeded so far (metrics.rs:8: "only successful calls are
    considered").  It holds for creations, commits, deletions, inspections and reads,
    at every moment of every history, and a successful write is never missed. *)
Theorem C46_operation_counters_partial : forall c pages y0 ls y,
  fresh_partition c pages y0 -> dsteps c y0 ls y ->
  mt_create (h_met (y_sh y)) = count is_created ls /\
  mt_commit (h_met (y_sh y)) = count is_committed ls /\
  mt_delete (h_met (y_sh y)) = count is_deleted ls /\
  mt_inspect (h_met (y_sh y)) = count is_inspected ls /\
  mt_read (h_met (y_sh y)) = count is_reading ls /\
  (count is_written ls <= mt_write (h_met (y_sh y)))%Z.
Proof.
  intros c pages y0 ls y Hf Hs. destruct (ops_steps _ _ _ _ _ Hf Hs) as (H1 & H2 & H3 & H4 & H5 & H6).
  pose proof (writing_nonneg (y_procs y)). repeat (split; [assumption|]). lia.
Qed.
Print Assumptions C46_operation_counters_partial.

(** It fails for writes: one that fails because its data ends early is counted. *)
Definition c46_run : list ev :=
  do_create 0 [97] 10 1 2 ++ [ECall (OWrite 1 0 10 [])] ++ steps 1 [2; 2] ++ [ECall (OCommit 9 false)] ++ steps 2 [2].
Definition c46_labels : list label :=
  [LCall 0 (OCreate [97] 10); LVis 0 (VRet (RCreated 1)); LCall 1 (OWrite 1 0 10 []); LVis 1 (VRet (RFailed DataStreamLengthMismatch));
   LCall 2 (OCommit 9 false); LVis 2 (VRet (RFailed ObjectNotFound))].
Theorem C46_failed_writes_are_counted_refuted : exists c pages y0 ls y,
  cfg_ok c /\ fresh_partition c pages y0 /\ dsteps c y0 ls y /\ visible ls = c46_labels /\ quiescent y /\
  mt_write (h_met (y_sh y)) = 1%Z /\ count is_written ls = 0%Z /\ mt_create (h_met (y_sh y)) = 1%Z /\ mt_commit (h_met (y_sh y)) = 0%Z.
Proof.
  destruct (ex_run_shows 10 8192 c46_run (fun y ls => (forallb (fun p => match p with PDone => true | _ => false end) (y_procs y), mt_write (h_met (y_sh y)), count is_written ls,
      mt_create (h_met (y_sh y)), mt_commit (h_met (y_sh y)))) c46_labels
    (true, 1%Z, 0%Z, 1%Z, 0%Z) ltac:(vm_compute; reflexivity)) as (y0 & y & ls & H1 & H2 & H3 & H4).
  repeat (apply pair_equal_spec in H4 as [H4 ?]).
  exists (ex_cfg 10 8192), (PropertiesTuples.ex_pages 1), y0, ls, y.
  split; [constructor; cbn; lia|]. split; [exact H1|]. split; [exact H2|]. split; [exact H3|].
  split; [rewrite forallb_forall in H4; intros p Hp; apply elem_of_list_In, H4 in Hp; destruct p; try discriminate Hp; reflexivity|]. auto.
Qed.
Print Assumptions C46_failed_writes_are_counted_refuted.
