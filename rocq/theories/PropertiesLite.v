(** C13, C14, C15: a whole libblobd-lite store.  The specification is LiteSpec.v. *)
From Coq Require Import ZifyBool ZifyNat ZifyN.
From stdpp Require Import base numbers list_numbers option gmap sets list.
From Verif Require Import Util Bytes BuddyModel BuddySpec BuddyProofs BuddyInv LayoutModel MetaModel PageIOModel PageIOSpec PageIOProofs DirectModel DirectBase.
From Verif Require Import JournalModel JournalSpec JournalProofs LiteModel LiteSpec LiteJournal LiteNode LiteRecord LiteInv LiteSteps LiteSteps2 LiteLin LiteSim LiteSim2 LiteSim3.
Open Scope N_scope.
Ltac Zify.zify_post_hook ::= idtac.

(** ** The new store *)
Lemma format_head c d b : conf_sizes c -> b < 2 ^ li_bpow c -> read_be (li_format c d) (bucket_off b) 5 = 0.
Proof.
  intros Hc Hb. unfold read_be.
  assert (E : dev_read (li_format c d) (bucket_off b) 5 = replicate 5 0).
  { unfold li_format. rewrite (dev_read_same (dev_write d 0 (replicate (N.to_nat (bucket_off (2 ^ li_bpow c))) 0))).
    - apply list_eq. intros i. destruct (decide (i < 5)%nat) as [Hi|Hi].
      + rewrite dev_read_lookup by lia. rewrite lookup_replicate_2 by lia. f_equal.
        assert (Hx : bucket_off b + N.of_nat i < bucket_off (2 ^ li_bpow c)) by (unfold bucket_off; clear -Hb Hi; lia).
        eapply dev_write_in; [lia|]. apply lookup_replicate_2. clear -Hx. lia.
      + rewrite !lookup_ge_None_2; [reflexivity|rewrite replicate_length; lia|rewrite dev_read_length; lia].
    - intros x Hx. apply dev_write_other. unfold touches. cbn [fst snd]. pose proof (co_joff _ Hc) as Hj. unfold bucket_off in *. clear -Hx Hj Hb. lia. }
  rewrite E. reflexivity.
Qed.

Lemma init_inv c d a : conf_sizes c -> allocator_new (li_base c) (li_heap c) (li_spage c) (li_lpage c) (2 ^ 64) DirLeft = Ok a ->
  linv c (li_init c d a) (li_format c d) [] [] [].
Proof.
  intros Hc Ha. split.
  - cbn [li_init mk ls_j]. apply jview_init, (co_cap _ Hc).
  - cbn [li_init mk ls_j ls_alloc ls_ov ls_calls ls_used jinit js_acked length]. change (flushed (li_format c d) []) with (li_format c d).
    split.
    + exists 0. apply new_inv; [exact (co_pages _ Hc)|exact Ha].
    + constructor.
    + intros i Hi. inversion Hi.
    + intros o Ho. inversion Ho.
    + intros cl Hl. inversion Hl.
    + intros i e He. cbn [ov_new ov_states] in He. rewrite lookup_empty in He. discriminate.
    + intros i e He. cbn [ov_new ov_nexts] in He. rewrite lookup_empty in He. discriminate.
    + intros j t w Hj. rewrite lookup_nil in Hj. discriminate.
    + intros b Hb. split; [rewrite format_head by assumption; reflexivity|]. unfold lok. cbn [ov_new ov_heads]. rewrite lookup_empty.
      intros x Hx. intros t w Ht. inversion Ht.
    + intros b. exact I.
Qed.
Lemma init_rel c F : srel c F [] ss_empty.
Proof.
  split.
  - intros o Ho. inversion Ho.
  - intros id k so H. cbn [ss_empty ss_inc] in H. rewrite lookup_empty in H. discriminate.
  - intros o Ho. inversion Ho.
  - intros k so H. cbn [ss_empty ss_com] in H. rewrite lookup_empty in H. discriminate.
Qed.
Lemma sim_from_init c d a es s obs : conf_ok c ->
  allocator_new (li_base c) (li_heap c) (li_spage c) (li_lpage c) (2 ^ 64) DirLeft = Ok a ->
  Forall (event_ok c) es -> calm c (li_init c d a) es -> lrun c (li_init c d a) es = Some (s, obs) -> sim c s ss_empty obs.
Proof.
  intros Hc Ha He Hq E. eapply (sim_run c Hc es (co_versioning _ Hc)); [apply (init_inv c d a Hc Ha)|apply init_rel|exact He|exact Hq|exact E].
Qed.

(** C13/C14, concurrent form: whatever calls overlap, on whatever keys, however
    journal flushing and overlay eviction interleave with them, and wherever
    keys collide, every observation is one the keyed object store allows, in the
    order the calls take effect.  In particular nothing panics ([OPanic] is not a
    step of the specification), replaced and deleted objects stay away, and no
    call disturbs another key's object or bytes.
    Missing for the full claim: calls that remove an object which is not the
    first of its bucket while another call on that bucket still waits for the
    journal, where it is false (C14 refutations below). *)
Theorem C14_calm_histories_keep_the_store_partial :
  forall c d a es s obs,
    conf_ok c -> allocator_new (li_base c) (li_heap c) (li_spage c) (li_lpage c) (2 ^ 64) DirLeft = Ok a ->
    Forall (event_ok c) es -> calm c (li_init c d a) es ->
    lrun c (li_init c d a) es = Some (s, obs) ->
    exists st, ssteps (li_lpage c) ss_empty obs st.
Proof.
  intros c d a es s obs Hc Ha He Hq E. destruct (sim_from_init c d a es s obs Hc Ha He Hq E) as (A & us & objs & leak & st & _ & _ & H). eauto.
Qed.
Print Assumptions C14_calm_histories_keep_the_store_partial.

Lemma one_calm c es : forall s, one_by_one c s es -> calm c s es.
Proof.
  induction es as [|e es IH]; intros s H; [exact I|]. cbn [one_by_one calm] in *. destruct H as [Hi H]. split.
  - intros Hr. assert (Hid : idle s) by (destruct e; try contradiction; exact Hi).
    intros i b sig tks free Hl. specialize (Hid i _ Hl). discriminate Hid.
  - destruct (lstep c s e) as [[s' o]|]; [apply IH, H|exact I].
Qed.

(** C13: executed one after another, the operations are those of the keyed
    object store, for every hash function (so every pattern of collisions), with
    journal steps at any time. *)
Theorem C13_sequential_operations_refine_keyed_store :
  forall c d a es s obs,
    conf_ok c -> allocator_new (li_base c) (li_heap c) (li_spage c) (li_lpage c) (2 ^ 64) DirLeft = Ok a ->
    Forall (event_ok c) es -> one_by_one c (li_init c d a) es ->
    lrun c (li_init c d a) es = Some (s, obs) ->
    exists st, ssteps (li_lpage c) ss_empty obs st.
Proof.
  intros c d a es s obs Hc Ha He Hq E. eapply C14_calm_histories_keep_the_store_partial; eauto using one_calm.
Qed.
Print Assumptions C13_sequential_operations_refine_keyed_store.

(** Lookups end: after any such history, every operation on any key can be carried
    out (its chain walk ends, and it does not panic). *)
Theorem C13_lookups_end :
  forall c d a es s obs,
    conf_ok c -> allocator_new (li_base c) (li_heap c) (li_spage c) (li_lpage c) (2 ^ 64) DirLeft = Ok a ->
    Forall (event_ok c) es -> calm c (li_init c d a) es ->
    lrun c (li_init c d a) es = Some (s, obs) ->
    exists n, forall key fuel, (n <= fuel)%nat ->
      (forall state oid, exists r, find_object c (now s) key fuel state oid = WkDone r) /\
      (forall id, exists r, find_for_commit c (now s) key fuel id = WkDone r).
Proof.
  intros c d a es s obs Hc Ha He Hq E. destruct (sim_from_init c d a es s obs Hc Ha He Hq E) as (A & us & objs & leak & st & HL & _ & _).
  exists (length objs). intros key fuel Hf.
  assert (Hle : (length (bchain c objs (bucket_of c key)) <= length objs)%nat) by apply filter_length.
  split.
  - intros state oid. pose proof (lin_find c Hc HL key fuel state oid) as H.
    destruct (find_object c (now s) key fuel state oid) as [| |r]; [exfalso; lia|contradiction|eauto].
  - intros id. pose proof (lin_find_commit c Hc HL key fuel id) as H.
    destruct (find_for_commit c (now s) key fuel id) as [| |r]; [exfalso; lia|contradiction|eauto].
Qed.
Print Assumptions C13_lookups_end.

(** ** A configuration for examples: 2^12 buckets (the least the library accepts)
    that all keys collide in, and a 64 KiB heap. *)
Definition jc0 : jconf :=
  {| jc_encode := fun w => be_bytes 8 (fst w) ++ be_bytes 4 (N.of_nat (length (snd w))) ++ snd w;
     jc_hash := fun _ => replicate 32 0; jc_off := 20480; jc_cap := 4096 |}.
Definition lc (base : N) (v : bool) : liconf :=
  {| li_jc := jc0; li_bpow := 12; li_base := base; li_heap := 32768; li_spage := 8; li_lpage := 12;
     li_hash := fun _ => 0; li_versioning := v |}.
Definition c0 : liconf := lc 24576 false.
Definition d0 : device := fun _ => 0.

Lemma c0_sizes base v : 24576 <= base <= 2 ^ 32 -> base mod 4096 = 0 -> conf_sizes (lc base v).
Proof.
  intros Hb Hm.
  assert (Hend : base + 32768 <= 2 ^ 48).
  { assert (2 ^ 32 + 32768 <= 2 ^ 48) by (vm_compute; discriminate). remember (2 ^ 48) as k. clear Heqk. lia. }
  split; unfold lc; cbn [li_jc li_bpow li_base li_heap li_spage li_lpage li_hash li_versioning jc0 jc_hash jc_cap jc_off].
  - intros l. apply replicate_length.
  - lia.
  - intros t Ht Hw. unfold fits. cbn [jc0 jc_cap jc_encode]. destruct t as [|w1 [|w2 [|]]]; cbn [length] in Ht.
    + cbn [map concat length]. lia.
    + pose proof (Hw w1 ltac:(constructor)). cbn [map concat]. rewrite !app_length, !be_bytes_length. cbn [length]. lia.
    + pose proof (Hw w1 ltac:(constructor)). pose proof (Hw w2 ltac:(constructor; constructor)).
      cbn [map concat]. rewrite !app_length, !be_bytes_length. cbn [length]. lia.
    + lia.
  - lia.
  - intros _. reflexivity.
  - vm_compute. discriminate.
  - lia.
  - exact Hm.
  - reflexivity.
  - exact Hend.
  - vm_compute. discriminate.
  - lia.
  - lia.
  - lia.
Qed.
Lemma c0_ok base : 24576 <= base <= 2 ^ 32 -> base mod 4096 = 0 -> conf_ok (lc base false).
Proof. intros H1 H2. split; [now apply c0_sizes|reflexivity]. Qed.
(** One pass of the journal over [n] queued device writes; whole calls. *)
Definition flush (n : nat) : list levent :=
  [LJ JTick; LJ JRecv; LJ JWriteJournal] ++ replicate n (LJ (JWriteEntry 0)) ++ [LJ JSignal; LJ JBlank].
Definition create (key : list N) (size id : N) (i : nat) : list levent :=
  [LCreate key size [] id 7; LCreateWrite i; LCreateLink i 0] ++ flush 2 ++ [LFinish i].
Definition commit (key : list N) (id : N) (i n : nat) : list levent := [LCommit key id 10 0] ++ flush n ++ [LFinish i].
Definition wr (key : list N) (id offset n v : N) : levent := LWrite key id offset n [Data (replicate (N.to_nat n) v)] 10 20.
Definition kA : list N := [97]. Definition kB : list N := [98]. Definition kC : list N := [99].

Definition is_done (cl : lcall) : bool := match cl with LDone => true | _ => false end.
Lemma idle_of s : forallb is_done (ls_calls s) = true -> idle s.
Proof.
  intros H i cl Hl. rewrite forallb_forall in H. specialize (H cl). destruct cl; try reflexivity; exfalso;
    (assert (Hin : In _ (ls_calls s)) by (apply elem_of_list_In; eapply elem_of_list_lookup_2, Hl); discriminate (H Hin)).
Qed.
(** A run, together with whether each operation was started while all were
    done. *)
Fixpoint drun (c : liconf) (s : lstate) (es : list levent) : option (lstate * list lobs * bool) :=
  match es with
  | [] => Some (s, [], true)
  | e :: es =>
      '(s', o) ← lstep c s e; '(s'', o', b) ← drun c s' es;
      Some (s'', o ++ o',
        match e with
        | LCreate _ _ _ _ _ | LCommit _ _ _ _ | LDelete _ _ _ _ | LInspect _ _ _
        | LWrite _ _ _ _ _ _ _ | LRead _ _ _ _ _ _ => forallb is_done (ls_calls s)
        | _ => true
        end && b)
  end.
Lemma drun_run c es : forall s s' o b, drun c s es = Some (s', o, b) -> lrun c s es = Some (s', o) /\ (b = true -> one_by_one c s es).
Proof.
  induction es as [|e es IH]; intros s s' o b H.
  - injection H as <- <- <-. split; [reflexivity|intros _; exact I].
  - cbn [drun lrun one_by_one] in *. destruct (lstep c s e) as [[s1 o1]|]; [|discriminate]. cbn [mbind option_bind] in *.
    destruct (drun c s1 es) as [[[s2 o2] b2]|] eqn:E2; [|discriminate]. cbn [mbind option_bind] in H. injection H as <- <- <-.
    destruct (IH _ _ _ _ E2) as [-> H2]. split; [reflexivity|]. intros Hb. apply andb_true_iff in Hb as [Hb1 Hb2]. split; [|now apply H2].
    destruct e; try exact I; apply idle_of, Hb1.
Qed.

(** Runs of a new store, checked by computation. *)
Definition demo (c : liconf) (es : list levent) : option (list lobs * bool * bool) :=
  match allocator_new (li_base c) (li_heap c) (li_spage c) (li_lpage c) (2 ^ 64) DirLeft with
  | Ok a => '(s, o, b) ← drun c (li_init c d0 a) es; Some (o, forallb is_done (ls_calls s), b)
  | _ => None
  end.
Lemma demo_run c es o b1 b2 : demo c es = Some (o, b1, b2) ->
  exists a s, allocator_new (li_base c) (li_heap c) (li_spage c) (li_lpage c) (2 ^ 64) DirLeft = Ok a /\
    lrun c (li_init c d0 a) es = Some (s, o) /\ (b1 = true -> idle s) /\ (b2 = true -> one_by_one c (li_init c d0 a) es).
Proof.
  unfold demo. destruct (allocator_new _ _ _ _ _ _) as [a| |]; try discriminate.
  destruct (drun c (li_init c d0 a) es) as [[[s o'] b]|] eqn:Es; [|discriminate]. cbn [mbind option_bind]. intros [= <- <- <-].
  apply drun_run in Es as (Hs & Ho). exists a, s. split; [reflexivity|]. split; [exact Hs|]. split; [apply idle_of|exact Ho].
Qed.

(** Non-vacuity: a history of the kind C13 is about, with three keys in one
    bucket, a replacement, a deletion of an inner object, uploads and reads. *)
Definition es_ok : list levent :=
  create kA 20 1 0 ++ [wr kA 1 0 20 5] ++ commit kA 1 1 1 ++ create kB 5 2 2 ++ create kA 7 3 3 ++ [wr kA 3 0 7 6; LRead kA None 2 (Some 6) 10 20]
  ++ commit kA 3 4 1 ++ [LRead kA None 5 None 10 20; LInspect kB None 10] ++ commit kB 2 5 1
  ++ create kC 1 4 6 ++ [LDelete kA (Some 3) 10 0; LFinish 7; LInspect kA None 10; LInspect kB None 10; LDelete kA None 10 0].
Definition obs_ok : list lobs :=
  [OCreate kA 20 1; OWrite kA 1 0 20 [Data (replicate 20 5)] WOk; OCommit kA 1 true; OCreate kB 5 2; OCreate kA 7 3;
   OWrite kA 3 0 7 [Data (replicate 7 6)] WOk; ORead kA None 2 (Some 6) (RBytes [5; 5; 5; 5]); OCommit kA 3 true;
   ORead kA None 5 None (RBytes [6; 6]); OInspect kB None None; OCommit kB 2 true; OCreate kC 1 4; ODelete kA (Some 3) true;
   OInspect kA None None; OInspect kB None (Some (2, 5)); ODelete kA None false].
Lemma demo_ok : demo c0 es_ok = Some (obs_ok, true, true).
Proof. vm_compute. reflexivity. Qed.
Lemma c0_conf : conf_ok c0.
Proof. apply c0_ok; [vm_compute; split; discriminate|reflexivity]. Qed.
Ltac events_ok := repeat (apply List.Forall_cons; [vm_compute; auto 10|]); apply List.Forall_nil.
Theorem C13_example :
  exists a s, allocator_new (li_base c0) (li_heap c0) (li_spage c0) (li_lpage c0) (2 ^ 64) DirLeft = Ok a /\
    conf_ok c0 /\ Forall (event_ok c0) es_ok /\ one_by_one c0 (li_init c0 d0 a) es_ok /\
    lrun c0 (li_init c0 d0 a) es_ok = Some (s, obs_ok) /\ idle s.
Proof.
  destruct (demo_run _ _ _ _ _ demo_ok) as (a & s & Ha & Hr & Hi & Ho). exists a, s. split; [exact Ha|]. split; [exact c0_conf|].
  split; [events_ok|]. auto.
Qed.
