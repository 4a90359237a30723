(** C69: every lite update that has begun is acknowledged and comes to its end. *)
From Coq Require Import ZifyBool ZifyNat ZifyN.
From stdpp Require Import base numbers list_numbers option list.
From Verif Require Import Util BuddyModel PageIOModel JournalModel JournalSpec JournalProofs PropertiesJournal LiteModel LiteSpec LiteVerSpec LiteLiveSpec LiteLive PropertiesLite PropertiesLiteVer.
Open Scope N_scope.
Ltac Zify.zify_post_hook ::= idtac.

(** ** The journal *)
(** At any moment of any history of the journal (any transactions, any timing of the
    flusher and of the timer, any order of the entry writes): if nothing more is
    committed, its tasks have a certain number of steps left.  They never make more,
    they are never stuck before, and then every transaction has been acknowledged, in
    the order of commitment. *)
Theorem C69_every_transaction_is_acknowledged : forall c d es s, jrun c (jinit d) es = Some s ->
  exists w, forall n s', flushes c n s s' ->
    (n <= w)%nat /\ ((n < w)%nat -> exists e s'', (forall t seen, e <> JCommit t seen) /\ jstep c s' e = Some s'') /\
    (n = w -> nothing_left s' /\ js_acked s' = seq 0 (length (committed es))).
Proof.
  intros c d es s E. exists (jwork s). intros n s' H. destruct (flushes_run _ _ _ _ _ _ H E) as (es' & E' & Hc & Hw). split; [lia|]. split.
  - intros Hlt. apply jstep_progress. lia.
  - intros ->. assert (H0 : jwork s' = 0%nat) by lia. split.
    + unfold jwork in H0. split; [destruct (js_flusher s'); cbn in H0; congruence || lia|]. split.
      * destruct (js_queue s') as [|p q]; [reflexivity|]. cbn in H0. unfold cost in H0. lia.
      * unfold pcost in H0. destruct (pj_signals (js_pending s')); [reflexivity|lia].
    + rewrite (jsigs_end s'), (jrun_next _ _ _ _ E'), Hc; [reflexivity| |exact H0]. eapply jsigs_run; [apply jsigs_init|exact E'].
Qed.
(** The device then has all the transactions, if each fits the journal (as C12). *)
Theorem C69_then_the_device_has_everything : forall c d es s n s',
  (forall l, length (jc_hash c l) = 32%nat) -> 36 <= jc_cap c -> (forall t, t ∈ committed es -> fits c t) ->
  jrun c (jinit d) es = Some s -> flushes c n s s' -> nothing_left s' ->
  forall x, outside_journal c x -> js_dev s' x = after_txns d (committed es) (length (committed es)) x.
Proof.
  intros c d es s n s' Hh Hcap Hf E H (N1 & N2 & N3) x Hx. destruct (flushes_run _ _ _ _ _ _ H E) as (es' & E' & Hc & Hw).
  destruct (C12_acknowledged_applied_partial c d es' s' Hh Hcap ltac:(rewrite Hc; exact Hf) E') as (k & m & Hkm & Ha & Hm & Hdev). rewrite N1 in Hm. subst m.
  assert (Hk : k = length (committed es)).
  { pose proof (jsigs_run _ _ _ _ (jsigs_init d) E') as Hs. unfold jsigs in Hs. rewrite N1, N2, N3, Ha in Hs. cbn in Hs. rewrite app_nil_r in Hs.
    apply (f_equal length) in Hs. rewrite !seq_length, (jrun_next _ _ _ _ E'), Hc in Hs. exact Hs. }
  rewrite Hc, Hk, Nat.add_0_r in Hdev. unfold recover in Hdev. destruct (Hdev x Hx); assumption.
Qed.

(** ** The store *)
(** After any calm history (see C14) of a new store, versioning or not, with any number
    of creations, commits and deletions at any stage: if no new call is made, then
    however the steps left are scheduled, all calls that have begun return, the journal
    has nothing left and everybody has been told. *)
Theorem C69_every_call_ends_partial : forall c d a es s obs,
  conf_sizes c -> allocator_new (li_base c) (li_heap c) (li_spage c) (li_lpage c) (2 ^ 64) DirLeft = Ok a ->
  Forall (event_ok c) es -> calm c (li_init c d a) es -> lrun c (li_init c d a) es = Some (s, obs) ->
  comes_to c (fun s' => idle s' /\ nothing_left (ls_j s') /\ js_acked (ls_j s') = seq 0 (js_next (ls_j s'))) s.
Proof.
  intros c d a es s obs Hc Ha He Hq E.
  assert (Hnp : forall es s obs, Forall (event_ok c) es -> calm c (li_init c d a) es -> lrun c (li_init c d a) es = Some (s, obs) -> OPanic ∉ obs).
  { clear -Hc Ha. intros es s obs He Hq E. destruct (li_versioning c) eqn:Ev.
    - destruct (C52_versions_store_partial _ _ _ _ _ _ Hc Ev Ha He Hq E) as (vs & H). clear -H. induction H as [|v o v1 os v2 H _ IH]; intros Hin; [inversion Hin|]. apply elem_of_cons in Hin as [<-|Hin]; [inversion H|exact (IH Hin)].
    - destruct (C14_calm_histories_keep_the_store_partial c d a es s obs ltac:(split; assumption) Ha He Hq E) as (st & H). clear -H. induction H as [|v o v1 os v2 H _ IH]; intros Hin; [inversion Hin|]. apply elem_of_cons in Hin as [<-|Hin]; [inversion H|exact (IH Hin)]. }
  pose proof (settles c _ Hnp (init_live c d a) _ _ es s obs eq_refl eq_refl He Hq E) as H. clear -H.
  induction H as [s (H1 & H2 & H0)|s Hex Hall IH]; [|apply ct_steps; [exact Hex|exact IH]]. apply ct_now. split; [exact H1|]. split; [|exact H2].
  unfold jwork in H0. split; [destruct (js_flusher (ls_j s)); cbn in H0; congruence || lia|]. split.
  - destruct (js_queue (ls_j s)) as [|p q]; [reflexivity|]. cbn in H0. unfold cost in H0. lia.
  - unfold pcost in H0. destruct (pj_signals (js_pending (ls_j s))); [reflexivity|lia].
Qed.

(** In any history at all, calm or not, of any configuration: along steps that do not
    panic, all calls that have begun get to their end; there they return, or panic
    releasing their pages. *)
Theorem C69_every_call_ends_or_panics : forall c d a es s obs, lrun c (li_init c d a) es = Some (s, obs) ->
  comes_to_or_panics c (fun s' => all_end c s' /\ nothing_left (ls_j s') /\ js_acked (ls_j s') = seq 0 (js_next (ls_j s'))) s.
Proof.
  intros c d a es s obs E. pose proof (settles2 c _ _ s eq_refl eq_refl (lrun_live _ _ _ _ _ (init_live c d a) E)) as H. clear -H.
  induction H as [s (H1 & H2 & H0)|s Hex Hall IH]; [|apply cp_steps; [exact Hex|exact IH]]. apply cp_now. split; [exact H1|]. split; [|exact H2].
  unfold jwork in H0. split; [destruct (js_flusher (ls_j s)); cbn in H0; congruence || lia|]. split.
  - destruct (js_queue (ls_j s)) as [|p q]; [reflexivity|]. cbn in H0. unfold cost in H0. lia.
  - unfold pcost in H0. destruct (pj_signals (js_pending (ls_j s))); [reflexivity|lia].
Qed.

(** A history that meets the hypotheses: an object has been committed, the commit waits
    for the journal, and two creations are under way, one of them linked. *)
Definition es_live1 : list levent := create kA 20 1 0 ++ [wr kA 1 0 20 5; LCommit kA 1 10 0].
Definition es_live2 : list levent := [LCreate kB 5 [] 2 7; LCreate kC 3 [] 3 7; LCreateWrite 3; LJ JTick; LCreateLink 3 0; LJ JRecv].
Definition stage (cl : lcall) : nat := match cl with LNew _ _ _ _ => 1 | LRec _ _ _ _ => 2 | LWait _ _ _ _ => 3 | LDone => 4 end.
Lemma calm_more c es2 : forall es1 s s1 obs, calm c s es1 -> lrun c s es1 = Some (s1, obs) ->
  Forall (fun e => match e with LCommit _ _ _ _ | LDelete _ _ _ _ => False | _ => True end) es2 -> calm c s (es1 ++ es2).
Proof.
  induction es1 as [|e es1 IH]; intros s s1 obs Hc E F; cbn [app].
  - clear -F. revert s. induction F as [|e es2 He _ IH]; intros s; cbn [calm]; [exact I|]. split; [destruct e; intros []; contradiction|]. destruct (lstep c s e) as [[? ?]|]; [apply IH|exact I].
  - cbn [calm lrun] in *. destruct Hc as [H1 H2]. split; [exact H1|]. destruct (lstep c s e) as [[s2 o2]|]; [|exact I]. cbn [mbind option_bind] in E. destruct (lrun c s2 es1) as [[s3 o3]|] eqn:E3; [|discriminate]. eapply IH; eassumption.
Qed.
Lemma live_demo c es1 es2 l : (exists o b1, demo c es1 = Some (o, b1, true)) ->
  match allocator_new (li_base c) (li_heap c) (li_spage c) (li_lpage c) (2 ^ 64) DirLeft with
  | Ok a => match lrun c (li_init c d0 a) (es1 ++ es2) with Some (s, _) => stage <$> ls_calls s | None => [] end | _ => [] end = l -> l <> [] ->
  Forall (fun e => match e with LCommit _ _ _ _ | LDelete _ _ _ _ => False | _ => True end) es2 ->
  exists a s obs, allocator_new (li_base c) (li_heap c) (li_spage c) (li_lpage c) (2 ^ 64) DirLeft = Ok a /\
    calm c (li_init c d0 a) (es1 ++ es2) /\ lrun c (li_init c d0 a) (es1 ++ es2) = Some (s, obs) /\ stage <$> ls_calls s = l.
Proof.
  intros (o & b1 & H1) H2 Hl F. destruct (demo_run _ _ _ _ _ H1) as (a & s1 & Ha & Hr & _ & Ho). rewrite Ha in H2.
  destruct (lrun c (li_init c d0 a) (es1 ++ es2)) as [[s obs]|] eqn:E; [|congruence]. exists a, s, obs. split; [exact Ha|]. split; [|auto].
  eapply calm_more; [apply one_calm, Ho; reflexivity|exact Hr|exact F].
Qed.
Theorem C69_example : exists a s obs, allocator_new (li_base c0) (li_heap c0) (li_spage c0) (li_lpage c0) (2 ^ 64) DirLeft = Ok a /\
  Forall (event_ok c0) (es_live1 ++ es_live2) /\ calm c0 (li_init c0 d0 a) (es_live1 ++ es_live2) /\
  lrun c0 (li_init c0 d0 a) (es_live1 ++ es_live2) = Some (s, obs) /\ stage <$> ls_calls s = [4; 3; 1; 3]%nat /\
  comes_to c0 (fun s' => idle s' /\ nothing_left (ls_j s') /\ js_acked (ls_j s') = seq 0 (js_next (ls_j s'))) s.
Proof.
  destruct (live_demo c0 es_live1 es_live2 [4; 3; 1; 3]%nat) as (a & s & obs & Ha & Hc & Hr & Hs).
  - assert (H : match demo c0 es_live1 with Some (_, _, b) => b | None => false end = true) by (vm_compute; reflexivity).
    destruct (demo c0 es_live1) as [[[o b1] b]|]; [|discriminate]. subst b. eauto.
  - vm_compute. reflexivity.
  - discriminate.
  - repeat (apply List.Forall_cons; [exact I|]). apply List.Forall_nil.
  - exists a, s, obs. split; [exact Ha|]. assert (He : Forall (event_ok c0) (es_live1 ++ es_live2)) by events_ok.
    split; [exact He|]. split; [exact Hc|]. split; [exact Hr|]. split; [exact Hs|]. eapply C69_every_call_ends_partial; [apply c0_conf|exact Ha|exact He|exact Hc|exact Hr].
Qed.
Print Assumptions C69_every_transaction_is_acknowledged.
Print Assumptions C69_then_the_device_has_everything.
Print Assumptions C69_every_call_ends_partial.
Print Assumptions C69_every_call_ends_or_panics.
