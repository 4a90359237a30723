(** C11 and C12: the write merger and the journal of libblobd-lite. *)
From stdpp Require Import base numbers list list_numbers option sets.
From Coq Require Import ZifyBool ZifyNat ZifyN.
From Verif Require Import Util PageIOModel JournalModel JournalSpec JournalProofs.
Open Scope N_scope.
Ltac Zify.zify_post_hook ::= idtac.

(** ** C11 *)
(** Whatever writes were queued and in whatever order the merged entries reach
    the device, the device ends up as if the writes had been made in turn. *)
Theorem C11_merged_writes_equal_sequential (ws order : list (N * list N)) (d : device) :
  Permutation order (merge_all ws) ->
  forall x, apply_writes d order x = apply_writes d ws x.
Proof. intros Hp x. apply merge_total. intros w. rewrite Hp. reflexivity. Qed.

(** The merged entries are non-empty, in address order, and no two of them
    share a byte. *)
Theorem C11_merged_writes_disjoint (ws : list (N * list N)) (i j : nat) (w1 w2 : N * list N) :
  merge_all ws !! i = Some w1 -> merge_all ws !! j = Some w2 -> (i < j)%nat ->
  snd w1 <> [] /\ fst w1 + N.of_nat (length (snd w1)) <= fst w2 /\ writes_disjoint w1 w2.
Proof.
  intros H1 H2 Hij. destruct (merge_all_wf ws) as (Hs & Hsep & Hne).
  assert (Hlt : fst w1 < fst w2).
  { revert i j H1 H2 Hij. generalize dependent (merge_all ws). intros m Hs _ _.
    induction m as [|[k v] m IH]; intros i j H1 H2 Hij; [discriminate|].
    destruct j as [|j]; [lia|]. destruct i as [|i]; cbn in H1, H2.
    - injection H1 as <-. apply (keys_above_in _ m); [exact Hs|]. eapply elem_of_list_lookup_2, H2.
    - apply (IH (keys_above_sorted _ _ Hs) i j H1 H2). lia. }
  apply elem_of_list_lookup_2 in H1, H2. split; [apply Hne, H1|].
  specialize (Hsep w1 w2 H1 H2 Hlt). unfold wend in Hsep. split; [exact Hsep|].
  intros x [Hx1 Hx2]. lia.
Qed.

(** Non-trivial instance: a later write in the middle of an earlier one splits
    it, and a third covers the seam. *)
Theorem C11_instance :
  merge_all [(10, [1; 2; 3; 4; 5; 6]); (12, [7; 8]); (13, [9; 9; 9]); (40, [1])]
  = [(10, [1; 2]); (12, [7]); (13, [9; 9; 9]); (40, [1])].
Proof. reflexivity. Qed.

(** ** C12 *)
(** Proved part.  [recover d] is what reopening leaves on the device.  At every
    moment of every history (any commits, any timing of the flusher, any order
    of the entry writes), exactly the first [k] transactions have been
    acknowledged, and outside the journal region every byte of the device is
    the byte left by those [k] transactions or the byte left by [k + m]
    transactions, where [m > 0] only while the flusher is writing entries.  So
    an acknowledged transaction is never lost, and a crash at any other moment
    leaves a whole prefix of the transactions applied.

    Missing: whole-or-nothing for a crash while entries are being written,
    which is false of the code (next theorem) because [recover] does nothing. *)
Theorem C12_acknowledged_applied_partial (c : jconf) (d0 : device) (es : list jevent) (s : jstate) :
  (forall l, length (jc_hash c l) = 32%nat) -> 36 <= jc_cap c ->
  (forall t, t ∈ committed es -> fits c t) ->
  jrun c (jinit d0) es = Some s ->
  exists k m, (k + m <= length (committed es))%nat /\
    js_acked s = seq 0 k /\
    (match js_flusher s with FEntries _ _ => True | _ => m = 0%nat end) /\
    forall x, outside_journal c x ->
      recover (js_dev s) x = after_txns d0 (committed es) k x \/
      recover (js_dev s) x = after_txns d0 (committed es) (k + m) x.
Proof.
  intros Hh Hc Hf Hr.
  destruct (jinv_run c d0 Hh es [] _ _ (jinv_init c d0 Hc) Hc Hf Hr) as (_ & k & m & (Hack & Hfl) & Hch).
  cbn [app] in *. apply chain_le in Hch. unfold recover.
  destruct (js_flusher s) as [|p|rest sigs|].
  - destruct Hfl as [-> Ha]. exists k, 0%nat. repeat split; [exact Hch|exact Hack|]. intros x Hx. left. apply Ha, Hx.
  - destruct Hfl as [_ Ha]. exists k, 0%nat. repeat split; [lia|exact Hack|]. intros x Hx. left. apply Ha, Hx.
  - destruct Hfl as (_ & Hl & dn & Hp & Ha). exists k, m. repeat split; [lia|exact Hack|]. intros x Hx.
    rewrite (Ha x Hx), after_slice. apply merge_partial. intros w Hw. rewrite Hp. apply elem_of_app. auto.
  - destruct Hfl as [-> Ha]. exists k, 0%nat. repeat split; [exact Hch|exact Hack|]. intros x Hx. left. apply Ha, Hx.
Qed.

(** The journal buffer never runs past the journal's region, if every single
    transaction fits it. *)
Theorem C12_journal_stays_in_its_region (c : jconf) (d0 : device) (es : list jevent) (s : jstate) (p : pending) :
  (forall l, length (jc_hash c l) = 32%nat) -> 36 <= jc_cap c ->
  (forall t, t ∈ committed es -> fits c t) ->
  jrun c (jinit d0) es = Some s -> js_flusher s = FGot p ->
  N.of_nat (length (pj_buf c p)) <= jc_cap c.
Proof.
  intros Hh Hc Hf Hr Hp.
  destruct (jinv_run c d0 Hh es [] _ _ (jinv_init c d0 Hc) Hc Hf Hr) as (_ & k & m & (_ & Hfl) & _).
  rewrite Hp in Hfl. destruct Hfl as [(_ & _ & Hl & _) _]. rewrite (pj_buf_length c Hh). exact Hl.
Qed.

(** A concrete configuration and a transaction of two writes: what create does
    (an object's record, then the bucket's head). *)
Definition ex_jc : jconf :=
  {| jc_encode := fun w => fst w :: snd w; jc_hash := fun _ => replicate 32 7; jc_off := 1000; jc_cap := 4096 |}.
Definition ex_txn : txn := [(10, [1; 2]); (20, [3; 4])].
Theorem C12_instance :
  option_map (fun s => (js_acked s, map (js_dev s) [10; 20; 21])) (jrun ex_jc (jinit (fun _ => 0))
     [JCommit ex_txn 0; JTick; JCommit [(21, [9])] 1; JRecv; JWriteJournal; JWriteEntry 1; JWriteEntry 0; JSignal; JBlank; JTick; JRecv; JWriteJournal])
  = Some ([0%nat], [1; 3; 4]).
Proof. vm_compute. reflexivity. Qed.
Theorem C12_instance_fits : fits ex_jc ex_txn /\ forall l, length (jc_hash ex_jc l) = 32%nat.
Proof. split; [vm_compute; congruence|reflexivity]. Qed.

(** Whole-or-nothing fails: the process dies after one of the two entries of
    the only transaction has been written; after reopening, address 10 has the
    new byte and address 20 the old one, so the device is neither the state
    before nor the state after the transaction. *)
Theorem C12_crash_atomicity_refuted :
  ~ (forall (c : jconf) (d0 : device) (es : list jevent) (s : jstate),
      (forall l, length (jc_hash c l) = 32%nat) -> 36 <= jc_cap c ->
      (forall t, t ∈ committed es -> fits c t) ->
      jrun c (jinit d0) es = Some s ->
      exists k, forall x, outside_journal c x ->
        recover (js_dev s) x = after_txns d0 (committed es) k x).
Proof.
  intros H.
  set (es := [JCommit ex_txn 0; JTick; JRecv; JWriteJournal; JWriteEntry 0]).
  destruct (jrun ex_jc (jinit (fun _ => 0)) es) as [s|] eqn:Er; [|vm_compute in Er; discriminate].
  assert (Hd : map (js_dev s) [10; 20] = [1; 0]).
  { assert (E : option_map (fun s => map (js_dev s) [10; 20]) (jrun ex_jc (jinit (fun _ => 0)) es) = Some [1; 0])
      by (vm_compute; reflexivity).
    rewrite Er in E. cbn [option_map] in E. apply (inj Some) in E. exact E. }
  injection Hd as H10 H20.
  destruct (H ex_jc (fun _ => 0) es s ltac:(reflexivity) ltac:(vm_compute; congruence)) as [k Hk].
  - intros t Ht. cbn in Ht. apply elem_of_list_singleton in Ht. subst t. vm_compute. congruence.
  - exact Er.
  - pose proof (Hk 10 ltac:(left; reflexivity)) as E10. pose proof (Hk 20 ltac:(left; reflexivity)) as E20.
    unfold recover in E10, E20. rewrite H10 in E10. rewrite H20 in E20.
    destruct k as [|k]; [discriminate E10|]. unfold after_txns, es in E20. cbn [committed omap list_omap take concat ex_txn] in E20.
    destruct k; discriminate E20.
Qed.

Print Assumptions C11_merged_writes_equal_sequential.
Print Assumptions C11_merged_writes_disjoint.
Print Assumptions C12_acknowledged_applied_partial.
Print Assumptions C12_journal_stays_in_its_region.
Print Assumptions C12_crash_atomicity_refuted.
