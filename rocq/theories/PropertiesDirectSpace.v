(** Properties C24 and, for space, C21: what the objects of a direct partition
    occupy. *)
From Coq Require Import ZifyBool ZifyNat ZifyN.
From stdpp Require Import base numbers list_numbers option gmap sets functions list.
From Verif Require Import Util Bytes BuddyModel BuddySpec BuddyProofs BuddyInv PageIOModel PageIOSpec TuplesModel TuplesSpec TuplesProofs.
From Verif Require Import DirectModel DirectBase DirectSteps DirectInv DirectTup DirectAlloc DirectSpec DirectSeqSpec DirectSpaceSpec DirectSys DirectDrive.
Open Scope N_scope.
Ltac Zify.zify_post_hook ::= idtac.

Lemma exact_record c ob : obj_ok c ob -> record_exact c ob <-> exact_meta c (b_msize ob).
Proof.
  intros (_ & _ & _ & E). unfold record_exact, exact_meta. rewrite E. split.
  - intros H. now apply fits_unique in H.
  - intros ->. apply alloc_pow2_fits.
Qed.
Lemma no_panics_in ls : no_panics ls -> ~ panicked_in ls.
Proof.
  intros H (l & Hin & Hp). destruct l as [|i v|]; try discriminate Hp. destruct v as [[]| |]; try discriminate Hp. now apply (H i).
Qed.
Lemma quiescent_held c h ps : (forall p, p ∈ ps -> p = PDone) -> held c h ps = all_space c h.
Proof.
  intros H. assert (E : forall (B : Type) (f : pc -> list B), f PDone = [] -> ps ≫= f = []).
  { intros B f Hf. clear -H Hf. induction ps as [|p ps IH]; [reflexivity|]. rewrite bind_cons.
    rewrite (H p) by constructor. rewrite Hf. apply IH. intros q Hq. apply H. now right. }
  unfold held, owners. rewrite !E by reflexivity. rewrite !app_nil_r. reflexivity.
Qed.

(** Facts about every history, used below. *)
Lemma space_facts c pages y0 ls y :
  cfg_ok c -> fresh_partition c pages y0 -> dsteps c y0 ls y -> valid_calls (dc_lpage c) ls -> quiescent y -> no_panics ls ->
  exists sp lk, SInv (y_sh y) (y_procs y) /\ TInv c (y_sh y) (y_procs y) sp false /\ AInv c (y_sh y) (y_procs y) lk /\
    (lk = [] \/ exists r ob, h_objs (y_sh y) !! r = Some ob /\ ~ record_exact c ob).
Proof.
  intros Hc Hf Hs Hv Hq Hn. pose proof (fresh_good _ _ _ (ck_pages _ Hc) Hf) as HG.
  destruct (good_steps _ _ _ _ _ Hc Hv HG Hs) as (ls' & z' & lk & zz & _ & _ & HG' & Hlk & Hzz).
  apply no_panics_in in Hn. destruct HG' as [(qs & sp & _ & _ & HS & HT & HA & _)].
  assert (zz = false) as -> by (destruct Hzz; [assumption|contradiction]).
  exists sp, lk. split; [exact HS|]. split; [exact HT|]. split; [exact HA|].
  destruct Hlk as [->|[H|[(r & ob & E & H)|(p & Hp & H)]]]; [now left|contradiction| |].
  - right. exists r, ob. split; [exact E|]. rewrite exact_record; [exact H|]. eapply a_objs; eassumption.
  - exfalso. apply Hq in Hp. subst p. exact H.
Qed.

(** ** C24 *)
(** Full property: in every history, the pages that are not free are exactly
    those of the objects that exist, i.e. what is reserved at creation is released
    when an object is reclaimed.  It holds if no call panicked and, for every
    object ever made, the exponent recorded for its metadata record is the one the
    record was allocated with. *)
Theorem C24_space_is_exactly_that_of_the_objects_partial : forall c pages y0 ls y,
  cfg_ok c -> fresh_partition c pages y0 -> dsteps c y0 ls y -> valid_calls (dc_lpage c) ls -> quiescent y -> no_panics ls ->
  (forall r ob, h_objs (y_sh y) !! r = Some ob -> record_exact c ob) ->
  pairwise_disjoint (all_space c (y_sh y)) /\
  free_bytes (h_alloc (y_sh y)) + total_bytes (all_space c (y_sh y)) = dc_heap c /\
  (forall b, in_heap (dc_base c) (dc_heap c) b ->
     (exists p, p ∈ all_space c (y_sh y) /\ page_bytes p b) \/ (exists p, free_page (h_alloc (y_sh y)) p /\ page_bytes p b)) /\
  (forall p q, p ∈ all_space c (y_sh y) -> free_page (h_alloc (y_sh y)) q -> pages_disjoint p q).
Proof.
  intros c pages y0 ls y Hc Hf Hs Hv Hq Hn Hx.
  destruct (space_facts _ _ _ _ _ Hc Hf Hs Hv Hq Hn) as (sp & lk & HS & HT & HA & Hlk).
  assert (lk = []) as -> by (destruct Hlk as [|(r & ob & E & H)]; [assumption|exfalso; exact (H (Hx _ _ E))]).
  destruct (a_alloc _ _ _ _ HA) as [f HI]. rewrite app_nil_r, quiescent_held in HI by exact Hq.
  split; [exact (live_disjoint _ _ _ _ _ _ _ _ _ HI)|]. split; [exact (inv_bytes HI)|]. split.
  - intros b Hb. exact (heap_byte_owned _ _ _ _ _ _ _ _ _ _ HI Hb).
  - intros p q Hp Hq'. exact (live_free_disjoint _ _ _ _ _ _ _ _ _ _ _ HI Hp Hq').
Qed.
Print Assumptions C24_space_is_exactly_that_of_the_objects_partial.

(** In all histories, with panics or not: no page of an existing object is ever
    free, or shared with another object. *)
Theorem C24_objects_never_overlap : forall c pages y0 ls y,
  cfg_ok c -> fresh_partition c pages y0 -> dsteps c y0 ls y -> valid_calls (dc_lpage c) ls ->
  pairwise_disjoint (all_space c (y_sh y)) /\
  (forall p q, p ∈ all_space c (y_sh y) -> free_page (h_alloc (y_sh y)) q -> pages_disjoint p q) /\
  (forall p, p ∈ all_space c (y_sh y) -> well_placed (dc_base c) (dc_heap c) (dc_spage c) (dc_lpage c) p).
Proof.
  intros c pages y0 ls y Hc Hf Hs Hv. pose proof (fresh_good _ _ _ (ck_pages _ Hc) Hf) as HG.
  destruct (good_steps _ _ _ _ _ Hc Hv HG Hs) as (ls' & z' & lk & zz & _ & _ & HG' & _).
  destruct HG' as [(qs & sp & _ & _ & HS & HT & HA & _)]. destruct (a_alloc _ _ _ _ HA) as [f HI].
  set (h := y_sh y) in *.
  assert (HI2 : exists L, BuddyInv.Inv (dc_base c) (dc_heap c) (dc_spage c) (dc_lpage c) (2 ^ 32) DirRight (h_alloc h) (all_space c h ++ L) f).
  { exists (((y_procs y ≫= pc_refs) ≫= opages c h) ++ (y_procs y ≫= pc_pages c) ++ lk).
    eapply inv_perm; [exact HI|]. unfold held, owners, all_space, existing, vals.
    change (fun r => match h_objs h !! r with Some ob => space_of c ob | None => [] end) with (opages c h).
    rewrite !bind_app_l. perm_solve. }
  destruct HI2 as [L HI2]. split; [|split].
  - intros i j p q Hne Hi Hj. eapply (live_disjoint _ _ _ _ _ _ _ _ _ HI2 i j p q Hne); now apply lookup_app_l_Some.
  - intros p q Hp Hq. eapply (live_free_disjoint _ _ _ _ _ _ _ _ _ _ _ HI2); [|exact Hq]. apply elem_of_app. now left.
  - intros p Hp. eapply (live_well_placed _ _ _ _ _ _ _ _ _ _ HI2). apply elem_of_app. now left.
Qed.
Print Assumptions C24_objects_never_overlap.

(** Which metadata lengths are recorded exactly: those that need a power of two
    of small pages. *)
Theorem C24_record_exact_iff : forall spage msize, 0 < msize ->
  fits_exactly spage msize (metadata_page_pow2 spage msize) <-> exists k, div_ceil msize (2 ^ spage) = 2 ^ k.
Proof.
  intros spage msize Hm. pose proof (pow2_pos spage) as Hp. pose proof (pow2_nz spage) as Hnz.
  set (n := div_ceil msize (2 ^ spage)).
  assert (Hn : metadata_page_size spage msize = n * 2 ^ spage /\ 0 < n /\ (forall k, msize <= k * 2 ^ spage <-> n <= k)).
  { unfold metadata_page_size, n, div_ceil. rewrite ceil_pow2_spec.
    pose proof (N.div_mod msize (2 ^ spage) Hnz) as E. pose proof (N.mod_lt msize (2 ^ spage) Hnz) as Hlt.
    set (q := msize / 2 ^ spage) in *. set (r := msize mod 2 ^ spage) in *. set (P := 2 ^ spage) in *. clearbody q r P.
    destruct (N.eqb_spec r 0) as [Hr|Hr].
    - assert (0 < q) by (destruct q; [lia|lia]). split; [rewrite N.add_0_r; nia|]. split; [lia|]. intros k. rewrite E. nia.
    - split; [nia|]. split; [lia|]. intros k. rewrite E. nia. }
  destruct Hn as (Hsz & Hn0 & Hk). clearbody n.
  assert (Hl : metadata_page_pow2 spage msize = spage + N.log2 n).
  { unfold metadata_page_pow2. rewrite Hsz, N.mul_comm, (N.mul_comm (2 ^ spage) n), N.log2_mul_pow2 by lia. lia. }
  rewrite Hl. split.
  - intros (_ & H & _). exists (N.log2 n). rewrite N.pow_add_r, N.mul_comm in H. apply Hk in H.
    pose proof (N.log2_spec n Hn0) as [H1 _]. lia.
  - intros [k ->]. rewrite N.log2_pow2 by lia. split; [lia|]. split.
    + rewrite N.pow_add_r, N.mul_comm. apply Hk. lia.
    + intros q Hq Hle. replace q with (spage + (q - spage)) in Hle by lia. rewrite N.pow_add_r, N.mul_comm in Hle. apply Hk in Hle.
      apply N.pow_le_mono_r_iff in Hle; lia.
Qed.
Print Assumptions C24_record_exact_iff.

(** The full property fails: an object whose metadata record takes three small
    pages is given four, but two are recorded (create_object.rs:74-90 takes the
    logarithm of the rounded size, which rounds down).  Creating and deleting such
    objects one after another, without any error, uses up the space: at the end no
    object exists and half of the heap is gone, and the next creation panics for lack
    of space. *)
Definition long_key : list N := replicate 1100 97.
Definition c24_round (i : nat) (tok id free : N) : list ev :=
  do_create i long_key 0 tok id
  ++ [ECall (OCommit tok false)] ++ steps (S i) [id; id; id; id; free] ++ [EFlush] ++ steps (S i) [free; free]
  ++ [ECall (ODelete long_key None)] ++ steps (S (S i)) [free; free] ++ [EFlush] ++ steps (S (S i)) [free; free; free].
Definition c24_run : list ev := c24_round 0 1 2 3 ++ c24_round 3 3 4 5.
Definition c24_labels (i : nat) (tok id : N) : list label :=
  [LCall i (OCreate long_key 0); LVis i (VRet (RCreated tok)); LCall (S i) (OCommit tok false); LVis (S i) (VRet (RCommitted (Some id)));
   LCall (S (S i)) (ODelete long_key None); LVis (S (S i)) (VRet RDeleted)].
Definition empty_b (y : dsys) : bool :=
  forallb (fun p => match p with PDone => true | _ => false end) (y_procs y) &&
  (size (h_inc (y_sh y)) =? 0)%nat && (size (h_com (y_sh y)) =? 0)%nat.
Lemma empty_b_ok y : empty_b y = true -> quiescent y /\ h_inc (y_sh y) = ∅ /\ h_com (y_sh y) = ∅.
Proof.
  unfold empty_b. rewrite !andb_true_iff, !Nat.eqb_eq, forallb_forall. intros [[H1 H2] H3]. split; [|split].
  - intros p Hp. apply elem_of_list_In, H1 in Hp. destruct p; try discriminate Hp. reflexivity.
  - now apply map_size_empty_inv.
  - now apply map_size_empty_inv.
Qed.
Lemma no_panics_b ls : forallb (fun l => negb (panic_label l)) (visible ls) = true -> no_panics ls.
Proof.
  rewrite forallb_forall. intros H i Hin.
  assert (In (LVis i (VRet RPanicked)) (visible ls)) as Hv by (unfold visible; rewrite filter_In; split; [now apply elem_of_list_In|reflexivity]).
  apply H in Hv. discriminate.
Qed.
Theorem C24_metadata_space_leaks_refuted : exists c pages y0 ls y,
  cfg_ok c /\ fresh_partition c pages y0 /\ dsteps c y0 ls y /\ valid_calls (dc_lpage c) ls /\ no_panics ls /\
  one_after_another (visible ls) /\ all_finished (visible ls) /\
  quiescent y /\ h_inc (y_sh y) = ∅ /\ h_com (y_sh y) = ∅ /\ 2 * free_bytes (h_alloc (y_sh y)) = dc_heap c.
Proof.
  destruct (ex_run_shows 11 4096 c24_run (fun y _ => (empty_b y, free_bytes (h_alloc (y_sh y)))) (c24_labels 0 1 2 ++ c24_labels 3 3 4) (true, 2048)
    ltac:(vm_compute; reflexivity)) as (y0 & y & ls & H1 & H2 & H3 & H4).
  exists (ex_cfg 11 4096), (PropertiesTuples.ex_pages 1), y0, ls, y.
  apply pair_equal_spec in H4 as [H4 H5]. apply empty_b_ok in H4 as (H6 & H7 & H8).
  split; [constructor; cbn; lia|]. split; [exact H1|]. split; [exact H2|].
  split; [apply valid_calls_ok; rewrite H3; vm_compute; reflexivity|].
  split; [apply no_panics_b; rewrite H3; vm_compute; reflexivity|].
  rewrite H3. split; [apply oaa_ok; vm_compute; reflexivity|]. split; [apply all_fin_b_ok; vm_compute; reflexivity|].
  rewrite H5. auto.
Qed.
Print Assumptions C24_metadata_space_leaks_refuted.
Theorem C24_creation_fails_in_empty_partition_refuted : exists c pages y0 ls y,
  cfg_ok c /\ fresh_partition c pages y0 /\ dsteps c y0 ls y /\
  visible ls = c24_labels 0 1 2 ++ c24_labels 3 3 4 ++ [LCall 6 (OCreate long_key 0); LVis 6 (VRet RPanicked)].
Proof.
  destruct (ex_run_shows 11 4096 (c24_run ++ [ECall (OCreate long_key 0)] ++ steps 6 [5; 5]) (fun _ _ => tt)
    (c24_labels 0 1 2 ++ c24_labels 3 3 4 ++ [LCall 6 (OCreate long_key 0); LVis 6 (VRet RPanicked)]) tt
    ltac:(vm_compute; reflexivity)) as (y0 & y & ls & H1 & H2 & H3 & _).
  exists (ex_cfg 11 4096), (PropertiesTuples.ex_pages 1), y0, ls, y. split; [constructor; cbn; lia|]. auto.
Qed.
Print Assumptions C24_creation_fails_in_empty_partition_refuted.

(** A run that meets the hypotheses of the partial theorem: an upload, a
    committed object, and another one that was replaced. *)
Definition c24_ok_run : list ev :=
  do_create 0 [97] 700 1 2
  ++ [ECall (OCommit 1 false)] ++ steps 1 [2; 2; 2; 2; 3] ++ [EFlush] ++ steps 1 [3; 3]
  ++ do_create 2 [97] 1500 3 4
  ++ [ECall (OCommit 3 false)] ++ steps 3 [4; 4; 4; 4; 5] ++ [EFlush] ++ steps 3 [5; 5] ++ [EFlush] ++ steps 3 [5; 5; 5]
  ++ do_create 4 [98] 10 5 6.
Definition c24_ok_labels : list label :=
  [LCall 0 (OCreate [97] 700); LVis 0 (VRet (RCreated 1)); LCall 1 (OCommit 1 false); LVis 1 (VRet (RCommitted (Some 2)));
   LCall 2 (OCreate [97] 1500); LVis 2 (VRet (RCreated 3)); LCall 3 (OCommit 3 false); LVis 3 (VRet (RCommitted (Some 4)));
   LCall 4 (OCreate [98] 10); LVis 4 (VRet (RCreated 5))].
Definition exact_b (c : dcfg) (ob : dobj) : bool := alloc_pow2 (dc_spage c) (b_msize ob) =? snd (b_mpage ob).
Lemma exact_b_ok c h : forallb (exact_b c) (h_objs h) = true -> forall r ob, h_objs h !! r = Some ob -> record_exact c ob.
Proof.
  rewrite forallb_forall. intros H r ob E. apply elem_of_list_lookup_2, elem_of_list_In, H in E. apply N.eqb_eq in E.
  unfold record_exact. rewrite <- E. apply alloc_pow2_fits.
Qed.
Theorem C24_example : exists c pages y0 ls y,
  cfg_ok c /\ fresh_partition c pages y0 /\ dsteps c y0 ls y /\ valid_calls (dc_lpage c) ls /\ quiescent y /\ no_panics ls /\
  (forall r ob, h_objs (y_sh y) !! r = Some ob -> record_exact c ob) /\
  all_space c (y_sh y) = [(7680, 9); (5120, 9); (6144, 10); (7168, 9); (5632, 9)].
Proof.
  destruct (ex_run_shows 10 8192 c24_ok_run (fun y _ => (forallb (fun p => match p with PDone => true | _ => false end) (y_procs y),
      forallb (exact_b (ex_cfg 10 8192)) (h_objs (y_sh y)), all_space (ex_cfg 10 8192) (y_sh y))) c24_ok_labels
      (true, true, [(7680, 9); (5120, 9); (6144, 10); (7168, 9); (5632, 9)])
    ltac:(vm_compute; reflexivity)) as (y0 & y & ls & H1 & H2 & H3 & H4).
  apply pair_equal_spec in H4 as [H4 H5]. apply pair_equal_spec in H4 as [H4 H6].
  exists (ex_cfg 10 8192), (PropertiesTuples.ex_pages 1), y0, ls, y.
  split; [constructor; cbn; lia|]. split; [exact H1|]. split; [exact H2|].
  split; [apply valid_calls_ok; rewrite H3; vm_compute; reflexivity|].
  split; [rewrite forallb_forall in H4; intros p Hp; apply elem_of_list_In, H4 in Hp; destruct p; try discriminate Hp; reflexivity|].
  split; [apply no_panics_b; rewrite H3; vm_compute; reflexivity|].
  split; [apply exact_b_ok, H6|exact H5].
Qed.
Print Assumptions C24_example.

(** ** C54: a creation that fails takes no space *)
(** It is false of the direct store: a creation panics for lack of space after it
    has taken pages, or because its metadata record does not fit a large page after
    it has taken all pages of its data, and the pages stay taken.  In both
    histories only creations fail, no object ever exists, and yet the whole heap is
    gone: an object of ten bytes cannot be created, as it can in a new partition. *)
Definition c54_run (key : list N) (sz : N) : list ev :=
  [ECall (OCreate key sz)] ++ steps 0 (if sz =? 5000 then [1] else [1; 1]) ++ [ECall (OCreate [98] 10)] ++ steps 1 [2].
Definition c54_labels (key : list N) (sz : N) : list label :=
  [LCall 0 (OCreate key sz); LVis 0 (VRet RPanicked); LCall 1 (OCreate [98] 10); LVis 1 (VRet RPanicked)].
Theorem C54_direct_failed_creation_keeps_space_refuted : forall key sz,
  (key = [97] /\ sz = 5000) \/ (key = long_key /\ sz = 4096) ->
  exists c pages y0 ls y,
    cfg_ok c /\ dc_heap c = 4096 /\ fresh_partition c pages y0 /\ dsteps c y0 ls y /\ valid_calls (dc_lpage c) ls /\
    visible ls = c54_labels key sz /\
    quiescent y /\ h_inc (y_sh y) = ∅ /\ h_com (y_sh y) = ∅ /\ free_bytes (h_alloc (y_sh y)) = 0.
Proof.
  intros key sz H.
  assert (HX : exists y0 y ls, fresh_partition (ex_cfg 10 4096) (PropertiesTuples.ex_pages 1) y0 /\ dsteps (ex_cfg 10 4096) y0 ls y /\
    visible ls = c54_labels key sz /\ (empty_b y, free_bytes (h_alloc (y_sh y))) = (true, 0)).
  { destruct H as [[-> ->]|[-> ->]].
    - exact (ex_run_shows 10 4096 (c54_run [97] 5000) (fun y _ => (empty_b y, free_bytes (h_alloc (y_sh y)))) (c54_labels [97] 5000) (true, 0) ltac:(vm_compute; reflexivity)).
    - exact (ex_run_shows 10 4096 (c54_run long_key 4096) (fun y _ => (empty_b y, free_bytes (h_alloc (y_sh y)))) (c54_labels long_key 4096) (true, 0) ltac:(vm_compute; reflexivity)). }
  destruct HX as (y0 & y & ls & H1 & H2 & H3 & H4).
  exists (ex_cfg 10 4096), (PropertiesTuples.ex_pages 1), y0, ls, y.
  apply pair_equal_spec in H4 as [H4 H5]. apply empty_b_ok in H4 as (H6 & H7 & H8).
  split; [constructor; cbn; lia|]. split; [reflexivity|]. split; [exact H1|]. split; [exact H2|].
  split; [apply valid_calls_ok; rewrite H3; destruct H as [[-> ->]|[-> ->]]; vm_compute; reflexivity|]. auto 10.
Qed.
Print Assumptions C54_direct_failed_creation_keeps_space_refuted.
Theorem C54_example : exists y0 ls y,
  fresh_partition (ex_cfg 10 4096) (PropertiesTuples.ex_pages 1) y0 /\ dsteps (ex_cfg 10 4096) y0 ls y /\
  visible ls = [LCall 0 (OCreate [98] 10); LVis 0 (VRet (RCreated 1))].
Proof.
  destruct (ex_run_shows 10 4096 (do_create 0 [98] 10 1 2) (fun _ _ => tt) [LCall 0 (OCreate [98] 10); LVis 0 (VRet (RCreated 1))] tt
    ltac:(vm_compute; reflexivity)) as (y0 & y & ls & H1 & H2 & H3 & _). exists y0, ls, y. auto.
Qed.
