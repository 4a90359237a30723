(** C12, C13, C14, C15, C48: histories in which a libblobd-lite store goes wrong,
    and what reopening does.  The specification is LiteSpec.v; the example
    configuration is in PropertiesLite.v. *)
From Coq Require Import ZifyBool ZifyNat ZifyN.
From stdpp Require Import base numbers list_numbers option gmap sets list.
From Verif Require Import Util Bytes BuddyModel BuddySpec BuddyProofs BuddyInv LayoutModel MetaModel PageIOModel PageIOSpec PageIOProofs DirectModel DirectBase.
From Verif Require Import JournalModel JournalSpec JournalProofs LiteModel LiteSpec LiteJournal LiteNode LiteRecord LiteInv LiteSteps LiteSteps2 LiteLin LiteSim LiteSim2 LiteSim3 PropertiesLite.
Open Scope N_scope.
Ltac Zify.zify_post_hook ::= idtac.

(** The observations cannot be those of a keyed object store. *)
Definition impossible (lpage : N) (obs : list lobs) : Prop := forall st, ~ ssteps lpage ss_empty obs st.
Ltac ss_inv :=
  intros ? ?HX;
  repeat match goal with
  | H : ssteps _ _ (_ :: _) _ |- _ => inversion H; clear H; subst
  | H : sstep _ _ _ _ |- _ => inversion H; clear H; subst
  | H : ss_incomplete _ _ _ = Some ?o |- _ => vm_compute in H; injection H as H; subst o
  | H : ss_find _ _ _ = Some ?o |- _ => vm_compute in H; injection H as H; subst o
  | H : ss_incomplete _ _ _ = Some ?o |- _ => discriminate H
  | H : ss_find _ _ _ = Some ?o |- _ => discriminate H
  | H : _ <$> ss_find _ _ _ = _ |- _ => vm_compute in H; first [discriminate H|clear H]
  | H : None = _ <$> _ |- _ => symmetry in H
  | H : Some _ = _ <$> _ |- _ => symmetry in H
  end.

(** ** C14: the object before the removed one is not flushed yet *)

(** A is stored; B is created in the same bucket; before B's creation is flushed
    A is deleted and the deletion returns; afterwards everything is flushed and
    all calls have returned.  A is still there. *)
Definition es_back : list levent :=
  create kA 5 1 0 ++ commit kA 1 1 1 ++
  [LCreate kB 10 [] 2 7; LCreateWrite 2; LCreateLink 2 0; LDelete kA None 9 0; LFinish 3; LInspect kA None 9] ++
  flush 2 ++ [LFinish 2; LInspect kA None 9].
Definition obs_back : list lobs :=
  [OCreate kA 5 1; OCommit kA 1 true; OCreate kB 10 2; ODelete kA None true; OInspect kA None (Some (1, 5)); OInspect kA None (Some (1, 5))].
Lemma demo_back : demo c0 es_back = Some (obs_back, true, false).
Proof. vm_compute. reflexivity. Qed.
Theorem C14_deleted_object_comes_back_refuted :
  exists a s, allocator_new (li_base c0) (li_heap c0) (li_spage c0) (li_lpage c0) (2 ^ 64) DirLeft = Ok a /\
    conf_ok c0 /\ Forall (event_ok c0) es_back /\
    lrun c0 (li_init c0 d0 a) es_back = Some (s, obs_back) /\ idle s /\ impossible (li_lpage c0) obs_back.
Proof.
  destruct (demo_run _ _ _ _ _ demo_back) as (a & s & Ha & Hr & Hi & _). exists a, s. split; [exact Ha|]. split; [exact c0_conf|].
  split; [events_ok|]. split; [exact Hr|]. split; [auto|]. unfold obs_back. ss_inv.
Qed.
Print Assumptions C14_deleted_object_comes_back_refuted.

(** And worse: A's pages were released.  The next object, C, takes A's place on
    the device, and is both the head of the bucket and what B points to, so that
    B and C point to each other: looking up any key other than B and C in that
    bucket never ends. *)
Definition es_loop : list levent := es_back ++ create kC 5 3 4.
(** What one node of a walk is: its key and its successor. *)
Definition node (s : lstate) (x : N) : option (list N * N) :=
  let raw := dev_read (ls_dev s) x (off_lpages (read_be (ls_dev s) (x + off_key_len) 2)) in
  next ← ov_next (ls_ov s) raw; k ← meta_key raw; Some (k, next).
Lemma walk_skip {X} (visit : overlay -> X -> found -> option (X * bool)) s key fuel n x k next prev acc :
  node s x = Some (k, next) -> x <> 0 -> k <> key ->
  li_walk visit (now s) key (S fuel) n x prev acc = li_walk visit (now s) key fuel (S n) next (Some x) acc.
Proof.
  intros Hn Hx Hk. cbn [li_walk]. destruct (N.eqb_spec x 0) as [|_]; [contradiction|]. unfold node in Hn. unfold now. cbn [fst snd].
  destruct (ov_next _ _) as [nx|]; [|discriminate]. destruct (meta_key _) as [k'|]; [|discriminate]. injection Hn as -> ->.
  rewrite bool_decide_false by exact Hk. reflexivity.
Qed.
Lemma walk_cycle {X} (visit : overlay -> X -> found -> option (X * bool)) s key x y k1 k2 acc :
  node s x = Some (k1, y) -> node s y = Some (k2, x) -> x <> 0 -> y <> 0 -> k1 <> key -> k2 <> key ->
  forall fuel n prev, li_walk visit (now s) key fuel n x prev acc = WkFuel /\ li_walk visit (now s) key fuel n y prev acc = WkFuel.
Proof.
  intros H1 H2 Hx Hy N1 N2. induction fuel as [|fuel IH]; intros n prev.
  - cbn [li_walk]. destruct (N.eqb_spec x 0) as [|_]; [contradiction|]. destruct (N.eqb_spec y 0) as [|_]; [contradiction|]. auto.
  - rewrite (walk_skip visit s key fuel n x k1 y), (walk_skip visit s key fuel n y k2 x) by assumption. split; apply IH.
Qed.
Definition loop_facts (c : liconf) (es : list levent) (y : N) : option (list lobs * bool * N * option (list N * N) * option (list N * N)) :=
  match allocator_new (li_base c) (li_heap c) (li_spage c) (li_lpage c) (2 ^ 64) DirLeft with
  | Ok a => '(s, o, _) ← drun c (li_init c d0 a) es;
            let h := get_head (now s 0) (now s 1) 0 in
            Some (o, forallb is_done (ls_calls s), h, node s h, node s y)
  | _ => None
  end.
Lemma loop_facts_run c es y o b h n1 n2 : loop_facts c es y = Some (o, b, h, n1, n2) ->
  exists a s, allocator_new (li_base c) (li_heap c) (li_spage c) (li_lpage c) (2 ^ 64) DirLeft = Ok a /\
    lrun c (li_init c d0 a) es = Some (s, o) /\ (b = true -> idle s) /\ get_head (now s 0) (now s 1) 0 = h /\ node s h = n1 /\ node s y = n2.
Proof.
  unfold loop_facts. destruct (allocator_new _ _ _ _ _ _) as [a| |]; try discriminate.
  destruct (drun c (li_init c d0 a) es) as [[[s o'] b']|] eqn:Es; [|discriminate]. cbn [mbind option_bind]. intros [= <- <- <- <- <-].
  apply drun_run in Es as [Hr _]. exists a, s. split; [reflexivity|]. split; [exact Hr|]. split; [apply idle_of|auto].
Qed.
Lemma loop_ok : loop_facts c0 es_loop 25344 = Some (obs_back ++ [OCreate kC 5 3], true, 24832, Some (kC, 25344), Some (kB, 24832)).
Proof. vm_compute. reflexivity. Qed.
Theorem C14_lookups_never_end_refuted :
  exists a s, allocator_new (li_base c0) (li_heap c0) (li_spage c0) (li_lpage c0) (2 ^ 64) DirLeft = Ok a /\
    conf_ok c0 /\ Forall (event_ok c0) es_loop /\
    lrun c0 (li_init c0 d0 a) es_loop = Some (s, obs_back ++ [OCreate kC 5 3]) /\ idle s /\
    forall key fuel, key <> kB -> key <> kC ->
      (forall oid, find_object c0 (now s) key fuel st_committed oid = WkFuel) /\
      (forall id, find_for_commit c0 (now s) key fuel id = WkFuel).
Proof.
  destruct (loop_facts_run _ _ _ _ _ _ _ _ loop_ok) as (a & s & Ha & Hr & Hi & Hh & Hn1 & Hn2). exists a, s.
  split; [exact Ha|]. split; [exact c0_conf|]. split; [events_ok|]. split; [exact Hr|]. split; [auto|].
  intros key fuel HB HC.
  assert (Hb : bucket_of c0 key = 0) by reflexivity.
  split.
  - intros oid. unfold find_object, li_iter. rewrite Hb, Hh.
    apply (walk_cycle _ s key 24832 25344 kC kB None Hn1 Hn2); congruence.
  - intros id. unfold find_for_commit, li_iter. rewrite Hb, Hh.
    apply (walk_cycle _ s key 24832 25344 kC kB (None, None) Hn1 Hn2); congruence.
Qed.
Print Assumptions C14_lookups_never_end_refuted.

(** A's commit is not flushed yet when A, which is not the first of its bucket,
    is deleted.  The deletion does not go through the journal, so it returns and
    releases A's pages while A's "committed" mark is still queued; the mark lands
    in the object C that got A's page: C is committed although nobody committed
    it. *)
Definition es_mark : list levent :=
  create kA 5 1 0 ++ create kB 5 2 1 ++ [LCommit kA 1 9 0; LDelete kA None 9 0; LFinish 3; LInspect kA None 9;
   LCreate kC 5 [] 3 7; LCreateWrite 4] ++ flush 1 ++ [LFinish 2; LCreateLink 4 0] ++ flush 2 ++ [LFinish 4; LInspect kC None 9].
Definition obs_mark : list lobs :=
  [OCreate kA 5 1; OCreate kB 5 2; OCommit kA 1 true; ODelete kA None true; OInspect kA None None; OCreate kC 5 3; OInspect kC None (Some (3, 5))].
Lemma demo_mark : demo c0 es_mark = Some (obs_mark, true, false).
Proof. vm_compute. reflexivity. Qed.
Theorem C14_late_mark_hits_next_owner_refuted :
  exists a s, allocator_new (li_base c0) (li_heap c0) (li_spage c0) (li_lpage c0) (2 ^ 64) DirLeft = Ok a /\
    conf_ok c0 /\ Forall (event_ok c0) es_mark /\
    lrun c0 (li_init c0 d0 a) es_mark = Some (s, obs_mark) /\ idle s /\ impossible (li_lpage c0) obs_mark.
Proof.
  destruct (demo_run _ _ _ _ _ demo_mark) as (a & s & Ha & Hr & Hi & _). exists a, s. split; [exact Ha|]. split; [exact c0_conf|].
  split; [events_ok|]. split; [exact Hr|]. split; [auto|]. unfold obs_mark. ss_inv.
Qed.
Print Assumptions C14_late_mark_hits_next_owner_refuted.

(** A lookup reads a record and only then asks the overlay.  If A's commit is
    flushed and its overlay entry evicted in between, the lookup sees neither,
    although lookups before and after see A as committed: answers go backwards. *)
Definition kind {X} (r : wres (option X)) : N := match r with WkDone (Some _) => 1 | WkDone None => 2 | _ => 3 end.
Lemma kind_1 {X} (r : wres (option X)) : kind r = 1 -> exists x, r = WkDone (Some x).
Proof. destruct r as [| |[x|]]; try discriminate. eauto. Qed.
Lemma kind_2 {X} (r : wres (option X)) : kind r = 2 -> r = WkDone None.
Proof. destruct r as [| |[x|]]; try discriminate. reflexivity. Qed.
Definition torn_facts (c : liconf) (es1 es2 : list levent) (key : list N) : option (list lobs * list lobs * N * N * N) :=
  match allocator_new (li_base c) (li_heap c) (li_spage c) (li_lpage c) (2 ^ 64) DirLeft with
  | Ok a =>
      '(s1, o1) ← lrun c (li_init c d0 a) es1; '(s2, o2) ← lrun c s1 es2;
      let f ys := kind (find_object c ys key 9 st_committed None) in
      Some (o1, o2, f (now s1), f (now s2), f (fun n => if (n <=? 3)%nat then now s1 n else now s2 n))
  | _ => None
  end.
Lemma torn_run c es1 es2 key o1 o2 : torn_facts c es1 es2 key = Some (o1, o2, 1, 1, 2) ->
  exists a s1 s2 f1 f2,
    allocator_new (li_base c) (li_heap c) (li_spage c) (li_lpage c) (2 ^ 64) DirLeft = Ok a /\
    lrun c (li_init c d0 a) es1 = Some (s1, o1) /\ lrun c s1 es2 = Some (s2, o2) /\
    find_object c (now s1) key 9 st_committed None = WkDone (Some f1) /\
    find_object c (now s2) key 9 st_committed None = WkDone (Some f2) /\
    find_object c (fun n => if (n <=? 3)%nat then now s1 n else now s2 n) key 9 st_committed None = WkDone None.
Proof.
  unfold torn_facts. destruct (allocator_new _ _ _ _ _ _) as [a| |]; try discriminate.
  destruct (lrun c (li_init c d0 a) es1) as [[s1 o1']|] eqn:E1; [|discriminate]. cbn [mbind option_bind].
  destruct (lrun c s1 es2) as [[s2 o2']|] eqn:E2; [|discriminate]. cbn [mbind option_bind]. intros H.
  assert (H1 : o1' = o1 /\ o2' = o2 /\ kind (find_object c (now s1) key 9 st_committed None) = 1 /\
    kind (find_object c (now s2) key 9 st_committed None) = 1 /\
    kind (find_object c (fun n => if (n <=? 3)%nat then now s1 n else now s2 n) key 9 st_committed None) = 2) by (split; [|split; [|split; [|split]]]; congruence).
  clear H. destruct H1 as (-> & -> & H1 & H2 & H3). apply kind_1 in H1 as [f1 H1], H2 as [f2 H2]. apply kind_2 in H3.
  exists a, s1, s2, f1, f2. auto 10.
Qed.
Lemma torn_ok : torn_facts c0 (create kA 5 1 0 ++ [LCommit kA 1 9 0]) (flush 1 ++ [LFinish 1]) kA = Some ([OCreate kA 5 1; OCommit kA 1 true], [], 1, 1, 2).
Proof. vm_compute. reflexivity. Qed.
Theorem C14_lookup_across_a_flush_refuted :
  conf_ok c0 /\ exists a s1 s2 f1 f2,
    allocator_new (li_base c0) (li_heap c0) (li_spage c0) (li_lpage c0) (2 ^ 64) DirLeft = Ok a /\
    lrun c0 (li_init c0 d0 a) (create kA 5 1 0 ++ [LCommit kA 1 9 0]) = Some (s1, [OCreate kA 5 1; OCommit kA 1 true]) /\
    lrun c0 s1 (flush 1 ++ [LFinish 1]) = Some (s2, []) /\
    find_object c0 (now s1) kA 9 st_committed None = WkDone (Some f1) /\
    find_object c0 (now s2) kA 9 st_committed None = WkDone (Some f2) /\
    find_object c0 (fun n => if (n <=? 3)%nat then now s1 n else now s2 n) kA 9 st_committed None = WkDone None.
Proof. split; [exact c0_conf|exact (torn_run _ _ _ _ _ _ torn_ok)]. Qed.
Print Assumptions C14_lookup_across_a_flush_refuted.

(** ** C12: replacing an object is not atomic *)

(** A (id 1) is stored and a second A (id 2) is committed.  The link around the
    old A is written to the device at once, the new A's mark only through the
    journal.  If the machine stops before the journal is written, the reopened
    store (device as it is, empty overlay) has no committed A at all. *)
Definition es_swap : list levent := create kA 5 1 0 ++ commit kA 1 1 1 ++ create kA 6 2 2 ++ [LCommit kA 2 9 0].
Definition crash_facts (c : liconf) (es : list levent) (key : list N) : option (list lobs * N) :=
  match allocator_new (li_base c) (li_heap c) (li_spage c) (li_lpage c) (2 ^ 64) DirLeft with
  | Ok a => '(s, o) ← lrun c (li_init c d0 a) es; Some (o, kind (find_object c (fun _ => (recover (ls_dev s), ov_new)) key 9 st_committed None))
  | _ => None
  end.
Lemma crash_run c es key o : crash_facts c es key = Some (o, 2) ->
  exists a s, allocator_new (li_base c) (li_heap c) (li_spage c) (li_lpage c) (2 ^ 64) DirLeft = Ok a /\
    lrun c (li_init c d0 a) es = Some (s, o) /\ find_object c (fun _ => (recover (ls_dev s), ov_new)) key 9 st_committed None = WkDone None.
Proof.
  unfold crash_facts. destruct (allocator_new _ _ _ _ _ _) as [a| |]; try discriminate.
  destruct (lrun c (li_init c d0 a) es) as [[s o1]|] eqn:E1; [|discriminate]. cbn [mbind option_bind]. intros H.
  assert (H1 : o1 = o /\ kind (find_object c (fun _ => (recover (ls_dev s), ov_new)) key 9 st_committed None) = 2) by (split; congruence).
  destruct H1 as [-> H1]. apply kind_2 in H1. exists a, s. auto.
Qed.
Lemma crash_ok : crash_facts c0 es_swap kA = Some ([OCreate kA 5 1; OCommit kA 1 true; OCreate kA 6 2; OCommit kA 2 true], 2).
Proof. vm_compute. reflexivity. Qed.
Theorem C12_replacement_loses_both_versions_refuted :
  conf_ok c0 /\ Forall (event_ok c0) es_swap /\ exists a s,
    allocator_new (li_base c0) (li_heap c0) (li_spage c0) (li_lpage c0) (2 ^ 64) DirLeft = Ok a /\
    lrun c0 (li_init c0 d0 a) es_swap = Some (s, [OCreate kA 5 1; OCommit kA 1 true; OCreate kA 6 2; OCommit kA 2 true]) /\
    find_object c0 (fun _ => (recover (ls_dev s), ov_new)) kA 9 st_committed None = WkDone None.
Proof. split; [exact c0_conf|]. split; [events_ok|]. exact (crash_run _ _ _ _ crash_ok). Qed.
Print Assumptions C12_replacement_loses_both_versions_refuted.

(** ** C48: versioning *)

(** With [versioning] on, a key's objects are looked up in order of creation: the
    object created last is found although another was committed last. *)
Definition cv : liconf := lc 24576 true.
Definition es_ver : list levent := create kA 5 1 0 ++ create kA 6 2 1 ++ commit kA 2 2 1 ++ commit kA 1 3 1 ++ [LInspect kA None 9; LInspect kA (Some 1) 9].
Definition obs_ver : list lobs :=
  [OCreate kA 5 1; OCreate kA 6 2; OCommit kA 2 true; OCommit kA 1 true; OInspect kA None (Some (2, 6)); OInspect kA (Some 1) (Some (1, 5))].
Lemma demo_ver : demo cv es_ver = Some (obs_ver, true, true).
Proof. vm_compute. reflexivity. Qed.
Theorem C48_versioning_finds_last_created_refuted :
  exists a s, allocator_new (li_base cv) (li_heap cv) (li_spage cv) (li_lpage cv) (2 ^ 64) DirLeft = Ok a /\
    Forall (event_ok cv) es_ver /\ one_by_one cv (li_init cv d0 a) es_ver /\
    lrun cv (li_init cv d0 a) es_ver = Some (s, obs_ver) /\ idle s.
Proof.
  destruct (demo_run _ _ _ _ _ demo_ver) as (a & s & Ha & Hr & Hi & Ho). exists a, s. split; [exact Ha|]. split; [events_ok|]. auto.
Qed.
Print Assumptions C48_versioning_finds_last_created_refuted.

(** ** C15: reopening *)

Lemma load_heads_nil c d : (forall b, b < 2 ^ li_bpow c -> N.shiftr (read_be d (bucket_off b) 5) 8 = 0) -> load_heads c d = [].
Proof.
  intros H. unfold load_heads. apply elem_of_nil_inv. intros x Hx. apply elem_of_list_filter in Hx as [Hn Hx].
  apply elem_of_list_fmap in Hx as (i & -> & Hi). apply elem_of_seq in Hi. apply Hn, H. lia.
Qed.
(** An empty store: reopening a formatted device gives the new store. *)
Theorem C15_empty_store_reopens :
  forall c d a fuel, conf_ok c -> allocator_new (li_base c) (li_heap c) (li_spage c) (li_lpage c) (2 ^ 64) DirLeft = Ok a ->
    li_open c (li_format c d) fuel = WkDone (li_init c d a).
Proof.
  intros c d a fuel Hc Ha. unfold li_open. rewrite Ha. unfold recover. rewrite load_heads_nil; [reflexivity|].
  intros b Hb. rewrite format_head by (assumption || apply Hc). reflexivity.
Qed.
Print Assumptions C15_empty_store_reopens.

(** Loading shifts a bucket's stored head to the right where everything else
    shifts it to the left, so it looks for an object at [offset >> 16] instead of
    [offset].  On every device of up to 64 KiB that makes every bucket look
    empty: whatever is stored, the reopened store reserves no page at all. *)
Theorem C15_small_device_reserves_nothing_refuted :
  forall c d a es s obs fuel,
    conf_ok c -> allocator_new (li_base c) (li_heap c) (li_spage c) (li_lpage c) (2 ^ 64) DirLeft = Ok a ->
    Forall (event_ok c) es -> calm c (li_init c d a) es -> lrun c (li_init c d a) es = Some (s, obs) -> idle s ->
    li_base c + li_heap c <= 2 ^ 16 ->
    li_open c (ls_dev s) fuel = WkDone (mk (jinit (ls_dev s)) a ov_new [] []).
Proof.
  intros c d a es s obs fuel Hc Ha He Hq E Hid Hsm.
  destruct (sim_from_init c d a es s obs Hc Ha He Hq E) as (A & us & objs & leak & st & HL & _ & _).
  unfold li_open. rewrite Ha. unfold recover. rewrite load_heads_nil; [reflexivity|]. intros b Hb.
  pose proof (lin_head c Hc HL b Hb) as Hh.
  assert (Hov : ov_heads (ls_ov s) !! b = None).
  { destruct (k_head _ _ _ _ _ _ _ _ _ _ (lin_core c HL) b Hb) as [_ Hl]. eapply lok_quiet in Hl; [apply Hl|].
    intros sig tks free Hx. apply elem_of_list_lookup in Hx as [i Hi]. specialize (Hid i _ Hi). discriminate Hid. }
  unfold get_head, now in Hh. cbn [fst snd] in Hh. rewrite Hov in Hh.
  assert (Hf : first_off (bchain c objs b) < 2 ^ 16).
  { destruct (bchain c objs b) as [|o l] eqn:Eb; [cbn; lia|]. cbn [first_off].
    assert (Ho : o ∈ objs) by (apply (bchain_elem c objs b); rewrite Eb; constructor).
    pose proof (core_page c Hc (lin_core c HL) (mpage o) (in_live_m c _ _ _ _ Ho)) as (_ & H2 & _). cbn [mpage fst snd] in H2.
    pose proof (pow2_nz (lo_pow2 o)). clear -H2 H Hsm. remember (2 ^ 16) as k. lia. }
  rewrite <- Hh in Hf. rewrite N.shiftl_mul_pow2 in Hf. rewrite N.shiftr_div_pow2. apply N.div_small.
  revert Hf. generalize (read_be (ls_dev s) (bucket_off b) 5). intros v. unfold MIN_PAGE_SIZE_POW2. change (2 ^ 16) with (2 ^ 8 * 2 ^ 8). change (2 ^ 8) with 256. lia.
Qed.
Print Assumptions C15_small_device_reserves_nothing_refuted.

(** So the next object takes pages that are in use: A's stored bytes change. *)
Definition es_store : list levent := create kA 5 1 0 ++ [wr kA 1 0 5 6] ++ commit kA 1 1 1.
Definition es_after : list levent := [LRead kA None 0 None 9 9] ++ create kB 0 2 0 ++ [LRead kA None 0 None 9 9].
Definition reopen_facts (c : liconf) (es es' : list levent) : option (list lobs * bool * bool * list lobs) :=
  match allocator_new (li_base c) (li_heap c) (li_spage c) (li_lpage c) (2 ^ 64) DirLeft with
  | Ok a => '(s, o, b) ← drun c (li_init c d0 a) es;
            '(s', o', _) ← drun c (mk (jinit (ls_dev s)) a ov_new [] []) es';
            Some (o, forallb is_done (ls_calls s), b, o')
  | _ => None
  end.
Lemma reopen_run c es es' o o' : conf_ok c -> Forall (event_ok c) es -> li_base c + li_heap c <= 2 ^ 16 ->
  reopen_facts c es es' = Some (o, true, true, o') ->
  exists a s s1 s2, allocator_new (li_base c) (li_heap c) (li_spage c) (li_lpage c) (2 ^ 64) DirLeft = Ok a /\
    one_by_one c (li_init c d0 a) es /\ lrun c (li_init c d0 a) es = Some (s, o) /\ idle s /\
    (forall fuel, li_open c (ls_dev s) fuel = WkDone s1) /\ lrun c s1 es' = Some (s2, o').
Proof.
  intros Hc He Hsm. unfold reopen_facts. destruct (allocator_new _ _ _ _ _ _) as [a| |] eqn:Ha; try discriminate.
  destruct (drun c (li_init c d0 a) es) as [[[s o1] b]|] eqn:E1; [|discriminate]. cbn [mbind option_bind].
  destruct (drun c (mk (jinit (ls_dev s)) a ov_new [] []) es') as [[[s2 o2] b2]|] eqn:E2; [|discriminate]. cbn [mbind option_bind].
  intros [= -> Hd -> ->]. apply drun_run in E1 as [E1 Ho], E2 as [E2 _].
  exists a, s, (mk (jinit (ls_dev s)) a ov_new [] []), s2. split; [reflexivity|]. split; [now apply Ho|]. split; [exact E1|].
  split; [now apply idle_of|]. split; [|exact E2]. intros fuel.
  eapply C15_small_device_reserves_nothing_refuted; eauto using one_calm, idle_of.
Qed.
Lemma reopen_ok : reopen_facts c0 es_store es_after =
  Some ([OCreate kA 5 1; OWrite kA 1 0 5 [Data [6; 6; 6; 6; 6]] WOk; OCommit kA 1 true], true, true,
        [ORead kA None 0 None (RBytes [6; 6; 6; 6; 6]); OCreate kB 0 2; ORead kA None 0 None (RBytes [1; 8; 0; 0; 0])]).
Proof. vm_compute. reflexivity. Qed.
Theorem C15_reopened_store_overwrites_objects_refuted :
  conf_ok c0 /\ Forall (event_ok c0) (es_store ++ es_after) /\
  exists a s s1 s2, allocator_new (li_base c0) (li_heap c0) (li_spage c0) (li_lpage c0) (2 ^ 64) DirLeft = Ok a /\
    one_by_one c0 (li_init c0 d0 a) es_store /\
    lrun c0 (li_init c0 d0 a) es_store =
      Some (s, [OCreate kA 5 1; OWrite kA 1 0 5 [Data [6; 6; 6; 6; 6]] WOk; OCommit kA 1 true]) /\ idle s /\
    (forall fuel, li_open c0 (ls_dev s) fuel = WkDone s1) /\
    lrun c0 s1 es_after = Some (s2,
      [ORead kA None 0 None (RBytes [6; 6; 6; 6; 6]); OCreate kB 0 2; ORead kA None 0 None (RBytes [1; 8; 0; 0; 0])]).
Proof.
  split; [exact c0_conf|]. split; [events_ok|]. apply reopen_run; [exact c0_conf|events_ok|vm_compute; discriminate|exact reopen_ok].
Qed.
Print Assumptions C15_reopened_store_overwrites_objects_refuted.

(** Even started at the right address, loading a bucket marks the data pages of
    its objects but not the pages of their records: the first request after it is
    given the page of A's record. *)
Definition load_facts (c : liconf) (es : list levent) (key : list N) : option (list lobs * bool * N * option (list N)) :=
  match allocator_new (li_base c) (li_heap c) (li_spage c) (li_lpage c) (2 ^ 64) DirLeft with
  | Ok a => '(s, o, b) ← drun c (li_init c d0 a) es;
            match find_object c (now s) key 9 st_committed None with
            | WkDone (Some f) =>
                match load_object_list c (ls_dev s) 9 (get_head (now s 0) (now s 1) (bucket_of c key)) a with
                | WkDone a' => Some (o, forallb is_done (ls_calls s) && b, f_off f, snd (alloc_list a' [1]))
                | _ => None
                end
            | _ => None
            end
  | _ => None
  end.
Lemma load_facts_run c es key o p offs : load_facts c es key = Some (o, true, p, offs) ->
  exists a s f a', allocator_new (li_base c) (li_heap c) (li_spage c) (li_lpage c) (2 ^ 64) DirLeft = Ok a /\
    one_by_one c (li_init c d0 a) es /\ lrun c (li_init c d0 a) es = Some (s, o) /\ idle s /\
    find_object c (now s) key 9 st_committed None = WkDone (Some f) /\ f_off f = p /\
    load_object_list c (ls_dev s) 9 (get_head (now s 0) (now s 1) (bucket_of c key)) a = WkDone a' /\ snd (alloc_list a' [1]) = offs.
Proof.
  unfold load_facts. destruct (allocator_new _ _ _ _ _ _) as [a| |] eqn:Ha; try discriminate.
  destruct (drun c (li_init c d0 a) es) as [[[s o1] b]|] eqn:E1; [|discriminate]. cbn [mbind option_bind].
  destruct (find_object c (now s) key 9 st_committed None) as [| |[f|]] eqn:Ef; try discriminate.
  destruct (load_object_list c (ls_dev s) 9 (get_head (now s 0) (now s 1) (bucket_of c key)) a) as [| |a'] eqn:El; try discriminate.
  intros [= -> Hb <- <-]. apply andb_true_iff in Hb as [Hb ->]. apply drun_run in E1 as [E1 Ho].
  exists a, s, f, a'. split; [reflexivity|]. split; [now apply Ho|]. split; [exact E1|]. split; [now apply idle_of|].
  split; [exact Ef|]. split; [reflexivity|]. split; [exact El|reflexivity].
Qed.
Lemma load_ok : load_facts c0 es_store kA = Some ([OCreate kA 5 1; OWrite kA 1 0 5 [Data [6; 6; 6; 6; 6]] WOk; OCommit kA 1 true], true, 24832, Some [24832]).
Proof. vm_compute. reflexivity. Qed.
Theorem C15_record_pages_not_reserved_refuted :
  conf_ok c0 /\ Forall (event_ok c0) es_store /\
  exists a s f a', allocator_new (li_base c0) (li_heap c0) (li_spage c0) (li_lpage c0) (2 ^ 64) DirLeft = Ok a /\
    one_by_one c0 (li_init c0 d0 a) es_store /\
    lrun c0 (li_init c0 d0 a) es_store = Some (s, [OCreate kA 5 1; OWrite kA 1 0 5 [Data [6; 6; 6; 6; 6]] WOk; OCommit kA 1 true]) /\ idle s /\
    find_object c0 (now s) kA 9 st_committed None = WkDone (Some f) /\ f_off f = 24832 /\
    load_object_list c0 (ls_dev s) 9 (get_head (now s 0) (now s 1) (bucket_of c0 kA)) a = WkDone a' /\
    snd (alloc_list a' [1]) = Some [24832].
Proof. split; [exact c0_conf|]. split; [events_ok|]. exact (load_facts_run _ _ _ _ _ _ load_ok). Qed.
Print Assumptions C15_record_pages_not_reserved_refuted.

(** On a larger device (heap from 128 KiB on) the address the loader looks at is
    inside the bucket table, where it finds no valid state: opening panics. *)
Definition c1 : liconf := lc 131072 false.
Lemma c1_conf : conf_ok c1.
Proof. apply c0_ok; [vm_compute; split; discriminate|reflexivity]. Qed.
Definition panic_facts (c : liconf) (es : list levent) : option (list lobs * bool) :=
  match allocator_new (li_base c) (li_heap c) (li_spage c) (li_lpage c) (2 ^ 64) DirLeft with
  | Ok a => '(s, o, b) ← drun c (li_init c d0 a) es;
            match li_open c (ls_dev s) 9 with WkPanic => Some (o, forallb is_done (ls_calls s) && b) | _ => None end
  | _ => None
  end.
Lemma panic_run c es o : panic_facts c es = Some (o, true) ->
  exists a s, allocator_new (li_base c) (li_heap c) (li_spage c) (li_lpage c) (2 ^ 64) DirLeft = Ok a /\
    one_by_one c (li_init c d0 a) es /\ lrun c (li_init c d0 a) es = Some (s, o) /\ idle s /\ li_open c (ls_dev s) 9 = WkPanic.
Proof.
  unfold panic_facts. destruct (allocator_new _ _ _ _ _ _) as [a| |] eqn:Ha; try discriminate.
  destruct (drun c (li_init c d0 a) es) as [[[s o1] b]|] eqn:E1; [|discriminate]. cbn [mbind option_bind].
  destruct (li_open c (ls_dev s) 9) as [| |s1] eqn:El; try discriminate.
  intros [= -> Hb]. apply andb_true_iff in Hb as [Hb ->]. apply drun_run in E1 as [E1 Ho].
  exists a, s. split; [reflexivity|]. split; [now apply Ho|]. split; [exact E1|]. split; [now apply idle_of|exact El].
Qed.
Lemma panic_ok : panic_facts c1 (create kA 5 1 0) = Some ([OCreate kA 5 1], true).
Proof. vm_compute. reflexivity. Qed.
Theorem C15_open_panics_refuted :
  conf_ok c1 /\ Forall (event_ok c1) (create kA 5 1 0) /\
  exists a s, allocator_new (li_base c1) (li_heap c1) (li_spage c1) (li_lpage c1) (2 ^ 64) DirLeft = Ok a /\
    one_by_one c1 (li_init c1 d0 a) (create kA 5 1 0) /\
    lrun c1 (li_init c1 d0 a) (create kA 5 1 0) = Some (s, [OCreate kA 5 1]) /\ idle s /\ li_open c1 (ls_dev s) 9 = WkPanic.
Proof. split; [exact c1_conf|]. split; [events_ok|]. exact (panic_run _ _ _ panic_ok). Qed.
Print Assumptions C15_open_panics_refuted.
