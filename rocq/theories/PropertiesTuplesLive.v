(** C68: every update of the direct object index is acknowledged. *)
From stdpp Require Import base numbers list list_numbers option gmap sets fin_sets fin_maps.
From Coq Require Import ZifyBool ZifyNat ZifyN.
From Verif Require Import Util Bytes TuplesModel TuplesSpec TuplesLiveSpec TuplesCodec TuplesProofs TuplesSys TuplesDurable TuplesLive PropertiesTuples.
Open Scope N_scope.
Ltac Zify.zify_post_hook ::= idtac.

(** At any point of any run of the index, with any calls made and any pages being
    written: if no further call comes, the flusher has a certain number of steps left.
    It never makes more, it is never stuck before, and then every call made so far has
    been acknowledged. *)
Theorem C68_every_call_is_acknowledged : forall spage pages init y0 cs y,
  opens spage pages init y0 -> Forall valid_call cs -> fresh_ids init cs -> runs y0 cs y ->
  exists w, forall n y', flusher n y y' ->
    (n <= w)%nat /\ ((n < w)%nat -> exists y'', tstep y' None y'') /\ (n = w -> forall k, (k < length cs)%nat -> k ∈ sy_acked y').
Proof.
  intros spage pages init y0 cs y Ho Hv Hf R. exists (work y). intros n y' H. pose proof (flusher_work _ _ _ H) as Hw. pose proof (flusher_runs _ _ _ _ _ R H) as R'.
  split; [lia|]. split.
  - intros Hlt. eapply flush_progress; [exact Ho|exact Hv|exact Hf|exact R'|lia].
  - intros ->. eapply flush_end; [exact Ho|exact Hv|exact Hf|exact R'|lia].
Qed.
(** So there is a run of the flusher that acknowledges them. *)
Theorem C68_acknowledged_in_the_end : forall spage pages init y0 cs y,
  opens spage pages init y0 -> Forall valid_call cs -> fresh_ids init cs -> runs y0 cs y ->
  exists n y', flusher n y y' /\ (forall k, (k < length cs)%nat -> k ∈ sy_acked y').
Proof.
  intros spage pages init y0 cs y Ho Hv Hf R. destruct (C68_every_call_is_acknowledged _ _ _ _ _ _ Ho Hv Hf R) as [w Hw].
  assert (Hg : forall m, (m <= w)%nat -> exists y', flusher m y y').
  { induction m as [|m IH]; intros Hm; [exists y; constructor|]. destruct IH as [y1 H1]; [lia|]. destruct (proj1 (proj2 (Hw _ _ H1))) as [y2 S]; [lia|]. exists y2. econstructor; eassumption. }
  destruct (Hg w (le_n w)) as [y' H]. exists w, y'. split; [exact H|]. apply (Hw _ _ H). reflexivity.
Qed.

(** A pass of the flusher that finds no changed page still empties the list of those to
    be told (tuples.rs:151-168: drained before the check): nobody is on it then. *)
Theorem C68_idle_pass_forgets_nobody : forall spage pages init y0 cs y,
  opens spage pages init y0 -> Forall valid_call cs -> fresh_ids init cs -> runs y0 cs y ->
  ts_dirty (sy_state y) = ∅ -> ts_signals (sy_state y) = [].
Proof.
  intros spage pages init y0 cs y Ho Hv Hf R E. destruct (run_gh _ _ _ _ _ _ Ho Hv Hf R) as (G & home & tb & ds & Gy).
  destruct (ts_signals (sy_state y)) as [|k l] eqn:Es; [reflexivity|]. exfalso.
  destruct (g_signals _ _ _ _ _ _ _ _ Gy k) as (b & _ & Hb); [rewrite Es; constructor|]. rewrite E in Hb. set_solver.
Qed.

(** The run of [C18_C19_example] meets the hypotheses: four calls, of which the last
    two have not been acknowledged; the flusher then acknowledges them too. *)
Example C68_example : exists y0 y n y', opens 9 (ex_pages 2) [[]; []] y0 /\ runs y0 ex_calls y /\
  length ex_calls = 4%nat /\ sy_acked y = [0; 1]%nat /\ flusher n y y' /\ 2%nat ∈ sy_acked y' /\ 3%nat ∈ sy_acked y'.
Proof.
  destruct C18_C19_example as (y0 & y & Ho & R & Hv & Hf & Ha & _). destruct (C68_acknowledged_in_the_end _ _ _ _ _ _ Ho Hv Hf R) as (n & y' & H & Hk).
  assert (Hl : length ex_calls = 4%nat) by (vm_compute; reflexivity). rewrite Hl in Hk.
  exists y0, y, n, y'. repeat (split; [assumption|]). split; apply Hk; lia.
Qed.

Print Assumptions C68_every_call_is_acknowledged.
Print Assumptions C68_acknowledged_in_the_end.
Print Assumptions C68_idle_pass_forgets_nobody.
