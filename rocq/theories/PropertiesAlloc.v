(** C01–C04: the page allocator of libblobd-lite and libblobd-direct.
    [allocator_new] with page-number limit 2^64 is lite's, with 2^32 direct's;
    every theorem is for an arbitrary limit and direction.
    Read together with BuddySpec.v (the vocabulary of byte ranges and histories). *)
From stdpp Require Import gmap sets fin_sets.
From Verif Require Import Util BuddyModel BuddySpec BuddyProofs BuddyInv.
Open Scope N_scope.

(** ** C01 *)
Theorem C01_live_pages_disjoint_and_well_placed :
  forall base heap spage lpage lim dir a0 a live failed,
    spage <= lpage ->
    allocator_new base heap spage lpage lim dir = Ok a0 ->
    reaches a0 a live failed ->
    pairwise_disjoint live /\
    (forall p, p ∈ live -> well_placed base heap spage lpage p) /\
    (forall p q, p ∈ live -> free_page a q -> pages_disjoint p q).
Proof.
  intros base heap spage lpage lim dir a0 a live failed Hsl Hnew Hr.
  pose proof (reaches_inv _ _ _ _ _ _ _ _ _ _ (new_inv _ _ _ _ _ _ _ Hsl Hnew) Hr) as HI.
  split; [|split].
  - exact (live_disjoint _ _ _ _ _ _ _ _ _ HI).
  - intros p Hp. exact (live_well_placed _ _ _ _ _ _ _ _ _ _ HI Hp).
  - intros p q Hp Hq. exact (live_free_disjoint _ _ _ _ _ _ _ _ _ _ _ HI Hp Hq).
Qed.
Print Assumptions C01_live_pages_disjoint_and_well_placed.

(** The page returned by a single call is the rounded-up request, and is
    disjoint from everything held before. *)
Theorem C01_new_page_disjoint_from_held :
  forall base heap spage lpage lim dir a0 a live failed size p a' off,
    spage <= lpage ->
    allocator_new base heap spage lpage lim dir = Ok a0 ->
    reaches a0 a live failed ->
    fits_exactly spage size p ->
    allocate a size = (a', Ok off) ->
    well_placed base heap spage lpage (off, p) /\ size <= 2 ^ p /\
    (forall q, q ∈ live -> pages_disjoint (off, p) q).
Proof.
  intros base heap spage lpage lim dir a0 a live failed size p a' off Hsl Hnew Hr Hfit Ha.
  pose proof (reaches_inv _ _ _ _ _ _ _ _ _ _ (new_inv _ _ _ _ _ _ _ Hsl Hnew) Hr) as HI.
  pose proof (fits_unique _ _ _ Hfit) as ->.
  pose proof (allocate_inv _ _ _ _ _ _ _ _ _ _ _ _ HI Ha) as HI'.
  split; [|split].
  - apply (live_well_placed _ _ _ _ _ _ _ _ _ _ HI'). left.
  - apply Hfit.
  - exact (proj1 (pairwise_cons _ _ (live_disjoint _ _ _ _ _ _ _ _ _ HI'))).
Qed.
Print Assumptions C01_new_page_disjoint_from_held.

(** Non-vacuity: a heap of four 1 KiB large pages at 4 KiB, small pages of
    256 B; allocate 300, 100, 900 bytes, release the first. *)
Definition ex_new := allocator_new 4096 4096 8 10 (2 ^ 64) DirLeft.
Definition ex_a0 : Allocator :=
  match ex_new with Ok a => a | _ => {| a_base := 0; a_dir := DirLeft; a_spage_pow2 := 0;
    a_lpage_pow2 := 0; a_pn_limit := 0; a_free := []; a_allocated_bytes := 0 |} end.
Definition ex_a1 := fst (allocate ex_a0 300).
Definition ex_a2 := fst (allocate ex_a1 100).
Definition ex_a3 := fst (allocate ex_a2 900).
Definition ex_a4 := match release ex_a3 4096 9 with Ok a => a | _ => ex_a3 end.
Theorem C01_example :
  ex_new = Ok ex_a0 /\
  snd (allocate ex_a0 300) = Ok 4096 /\ snd (allocate ex_a1 100) = Ok 4608 /\
  snd (allocate ex_a2 900) = Ok 5120 /\ release ex_a3 4096 9 = Ok ex_a4 /\
  map elements (a_free ex_a4) = [[3]; [0]; [3; 2]] /\
  reaches ex_a0 ex_a4 [(5120, 10); (4608, 8)] 0.
Proof.
  assert (F : forall size p, 8 <= p -> size <= 2 ^ p -> (p = 8 \/ 2 ^ (p - 1) < size) ->
              fits_exactly 8 size p).
  { intros size p H1 H2 H3. split; [done|]. split; [done|]. intros q Hq Hs.
    destruct (N.le_gt_cases p q) as [?|Hlt]; [done|].
    destruct H3 as [->|H3]; [lia|].
    assert (2 ^ q <= 2 ^ (p - 1)) by (apply N.pow_le_mono_r; lia). lia. }
  repeat split; try (vm_compute; reflexivity).
  apply (reaches_release ex_a0 ex_a3 [(5120, 10); (4608, 8)] [] 0 4096 9);
    [|vm_compute; reflexivity].
  apply (reaches_alloc ex_a0 ex_a2 _ 0 900 10);
    [|apply F; vm_compute; try discriminate; auto|vm_compute; reflexivity].
  apply (reaches_alloc ex_a0 ex_a1 _ 0 100 8);
    [|apply F; vm_compute; try discriminate; auto|vm_compute; reflexivity].
  apply (reaches_alloc ex_a0 ex_a0 _ 0 300 9);
    [|apply F; vm_compute; try discriminate; auto|vm_compute; reflexivity].
  apply reaches_init.
Qed.

(** ** C02 *)
Theorem C02_space_conserved_and_merged :
  forall base heap spage lpage lim dir a0 a live failed,
    spage <= lpage ->
    allocator_new base heap spage lpage lim dir = Ok a0 ->
    reaches a0 a live failed ->
    free_bytes a + total_bytes live = heap /\
    (forall b, in_heap base heap b ->
       (exists p, p ∈ live /\ page_bytes p b) \/ (exists p, free_page a p /\ page_bytes p b)) /\
    (forall p q, free_page a p -> free_page a q -> buddies base p q -> snd p = lpage).
Proof.
  intros base heap spage lpage lim dir a0 a live failed Hsl Hnew Hr.
  pose proof (reaches_inv _ _ _ _ _ _ _ _ _ _ (new_inv _ _ _ _ _ _ _ Hsl Hnew) Hr) as HI.
  split; [|split].
  - exact (inv_bytes HI).
  - intros b Hb. exact (heap_byte_owned _ _ _ _ _ _ _ _ _ _ HI Hb).
  - intros p q Hp Hq Hb. exact (no_free_buddies _ _ _ _ _ _ _ _ _ _ _ HI Hp Hq Hb).
Qed.
Print Assumptions C02_space_conserved_and_merged.

(** Releasing a held page never panics. *)
Theorem C02_release_of_held_page_succeeds :
  forall base heap spage lpage lim dir a0 a live failed off p,
    spage <= lpage ->
    allocator_new base heap spage lpage lim dir = Ok a0 ->
    reaches a0 a live failed ->
    (off, p) ∈ live ->
    exists a', release a off p = Ok a'.
Proof.
  intros base heap spage lpage lim dir a0 a live failed off p Hsl Hnew Hr Hin.
  pose proof (reaches_inv _ _ _ _ _ _ _ _ _ _ (new_inv _ _ _ _ _ _ _ Hsl Hnew) Hr) as HI.
  apply elem_of_list_split in Hin as (l1 & l2 & ->).
  destruct (release_inv _ _ _ _ _ _ _ _ _ _ _ _ HI) as (a' & Ha' & _). exists a'. exact Ha'.
Qed.
Print Assumptions C02_release_of_held_page_succeeds.

(** Once nothing is held, the allocator is a fresh one again: every later call
    sequence behaves as on [a0].  Only the byte counter differs, by the sizes
    of the failed allocations (lite allocator/mod.rs:181 counts before trying). *)
Theorem C02_release_all_restores_fresh_state :
  forall base heap spage lpage lim dir a0 a failed,
    spage <= lpage ->
    allocator_new base heap spage lpage lim dir = Ok a0 ->
    reaches a0 a [] failed ->
    a = add_allocated a0 (Z.of_N failed).
Proof.
  intros base heap spage lpage lim dir a0 a failed Hsl Hnew Hr.
  pose proof (new_inv _ _ _ _ _ _ _ Hsl Hnew) as H0.
  pose proof (reaches_inv _ _ _ _ _ _ _ _ _ _ H0 Hr) as HI.
  refine (inv_eq _ _ _ _ _ _ _ _ _ _ [] HI _ (Permutation_refl _)).
  destruct H0. split; auto. cbn [add_allocated a_allocated_bytes]. rewrite inv_metric.
  cbn [total_bytes]. lia.
Qed.
Print Assumptions C02_release_all_restores_fresh_state.

(** More generally the set of held pages determines which pages are free, however it came about. *)
Theorem C02_state_depends_only_on_held_pages :
  forall base heap spage lpage lim dir a0 a1 live1 failed1 a2 live2 failed2,
    spage <= lpage ->
    allocator_new base heap spage lpage lim dir = Ok a0 ->
    reaches a0 a1 live1 failed1 -> reaches a0 a2 live2 failed2 ->
    live1 ≡ₚ live2 ->
    a_free a1 = a_free a2.
Proof.
  intros base heap spage lpage lim dir a0 a1 live1 failed1 a2 live2 failed2 Hsl Hnew H1 H2 Hp.
  pose proof (new_inv _ _ _ _ _ _ _ Hsl Hnew) as H0.
  exact (inv_canonical _ _ _ _ _ _ _ _ _ _ _ _ (reaches_inv _ _ _ _ _ _ _ _ _ _ H0 H1)
    (reaches_inv _ _ _ _ _ _ _ _ _ _ H0 H2) (fun u => cnt_perm _ _ _ _ u Hp)).
Qed.
Print Assumptions C02_state_depends_only_on_held_pages.

(** The byte counter equals the held bytes plus every failed request. *)
Theorem C02_allocated_bytes_metric :
  forall base heap spage lpage lim dir a0 a live failed,
    spage <= lpage ->
    allocator_new base heap spage lpage lim dir = Ok a0 ->
    reaches a0 a live failed ->
    a_allocated_bytes a = Z.of_N (total_bytes live + failed).
Proof.
  intros base heap spage lpage lim dir a0 a live failed Hsl Hnew Hr.
  exact (inv_metric (reaches_inv _ _ _ _ _ _ _ _ _ _ (new_inv _ _ _ _ _ _ _ Hsl Hnew) Hr)).
Qed.
Print Assumptions C02_allocated_bytes_metric.

Definition ex_a5 := match release ex_a4 5120 10 with Ok a => a | _ => ex_a4 end.
Definition ex_a6 := match release ex_a5 4608 8 with Ok a => a | _ => ex_a5 end.
Theorem C02_example : reaches ex_a0 ex_a6 [] 0 /\ ex_a5 <> ex_a0.
Proof.
  split.
  - apply (reaches_release ex_a0 ex_a5 [] [] 0 4608 8); [|vm_compute; reflexivity].
    apply (reaches_release ex_a0 ex_a4 [] [(4608, 8)] 0 5120 10); [|vm_compute; reflexivity].
    apply C01_example.
  - intros E. apply (f_equal a_allocated_bytes) in E. vm_compute in E. discriminate.
Qed.

(** ** C03 *)
Theorem C03_allocate_fails_iff_no_page_fits :
  forall base heap spage lpage lim dir a0 a live failed size p,
    spage <= lpage ->
    allocator_new base heap spage lpage lim dir = Ok a0 ->
    reaches a0 a live failed ->
    fits_exactly spage size p -> p <= lpage ->
    ((exists a' off, allocate a size = (a', Ok off)) \/ (exists a', allocate a size = (a', OutOfSpace))) /\
    ((exists a', allocate a size = (a', OutOfSpace)) <-> (forall q, free_page a q -> snd q < p)).
Proof.
  intros base heap spage lpage lim dir a0 a live failed size p Hsl Hnew Hr Hfit Hp.
  pose proof (reaches_inv _ _ _ _ _ _ _ _ _ _ (new_inv _ _ _ _ _ _ _ Hsl Hnew) Hr) as HI.
  pose proof (fits_unique _ _ _ Hfit) as ->.
  split; [|exact (allocate_oos _ _ _ _ _ _ _ _ _ _ HI Hp)].
  pose proof (allocate_total _ _ _ _ _ _ _ _ _ _ HI Hp) as Ht.
  destruct (allocate a size) as [a' [off| |]]; [left; eauto|right; eauto|].
  exfalso. exact (Ht a' eq_refl).
Qed.
Print Assumptions C03_allocate_fails_iff_no_page_fits.

Theorem C03_allocate_takes_smallest_and_outermost :
  forall base heap spage lpage lim dir a0 a live failed size p a' off,
    spage <= lpage ->
    allocator_new base heap spage lpage lim dir = Ok a0 ->
    reaches a0 a live failed ->
    fits_exactly spage size p ->
    allocate a size = (a', Ok off) ->
    exists q, free_page a q /\ p <= snd q /\
      (forall r, free_page a r -> p <= snd r -> snd q <= snd r) /\
      (forall r, free_page a r -> snd r = snd q ->
         match dir with DirLeft => fst q <= fst r | DirRight => fst r <= fst q end) /\
      match dir with
      | DirLeft => off = fst q
      | DirRight => off + 2 ^ p = fst q + 2 ^ snd q
      end.
Proof.
  intros base heap spage lpage lim dir a0 a live failed size p a' off Hsl Hnew Hr Hfit Ha.
  pose proof (reaches_inv _ _ _ _ _ _ _ _ _ _ (new_inv _ _ _ _ _ _ _ Hsl Hnew) Hr) as HI.
  pose proof (fits_unique _ _ _ Hfit) as ->.
  exact (allocate_fit _ _ _ _ _ _ _ _ _ _ _ _ HI Ha).
Qed.
Print Assumptions C03_allocate_takes_smallest_and_outermost.

(** Non-vacuity: in state [ex_a4] a 1 KiB request still fits, and after three
    more it fails. *)
Theorem C03_example :
  snd (allocate ex_a4 1000) = Ok 6144 /\
  snd (allocate (fst (allocate (fst (allocate ex_a4 1000)) 1000)) 1000) = OutOfSpace.
Proof. split; vm_compute; reflexivity. Qed.

(** ** C04 *)
Theorem C04_reserving_disjoint_pages_succeeds_in_any_order :
  forall base heap spage lpage lim dir a0 l,
    spage <= lpage ->
    allocator_new base heap spage lpage lim dir = Ok a0 ->
    (forall p, p ∈ l -> well_placed base heap spage lpage p) ->
    pairwise_disjoint l ->
    exists a, mark_all a0 l = Ok a /\ forall l', l' ≡ₚ l -> mark_all a0 l' = Ok a.
Proof.
  intros base heap spage lpage lim dir a0 l Hsl Hnew Hw Hd.
  pose proof (new_inv _ _ _ _ _ _ _ Hsl Hnew) as H0.
  destruct (mark_all_ok _ _ _ _ _ _ l _ _ _ H0 Hw Hd) as (a & Ha & HI); [set_solver|].
  exists a. split; [exact Ha|]. intros l' Hp.
  destruct (mark_all_ok _ _ _ _ _ _ l' _ _ _ H0) as (a' & Ha' & HI').
  - intros p Hq. apply Hw. now rewrite <- Hp.
  - clear -Hd Hp. apply Permutation_inj in Hp as (Hlen & g & Hg & Hl).
    intros i j p q Hij Hpi Hqj. apply (Hd (g i) (g j)).
    + intros E. apply Hij. now apply Hg.
    + rewrite <- Hl. exact Hpi.
    + rewrite <- Hl. exact Hqj.
  - set_solver.
  - rewrite Ha'. f_equal. apply (inv_eq _ _ _ _ _ _ _ _ _ _ _ HI' HI).
    rewrite !app_nil_r, !reverse_Permutation. exact Hp.
Qed.
Print Assumptions C04_reserving_disjoint_pages_succeeds_in_any_order.

(** Reserved pages are part of what is held, so C01 applies to every later
    history: no later allocation shares a byte with a page still reserved. *)
Theorem C04_reserved_pages_not_handed_out :
  forall base heap spage lpage lim dir a0 l a1 a live failed size p a' off,
    spage <= lpage ->
    allocator_new base heap spage lpage lim dir = Ok a0 ->
    mark_all a0 l = Ok a1 ->
    reaches a0 a1 (reverse l) 0 /\
    (reaches a0 a live failed -> (forall q, q ∈ l -> q ∈ live) ->
     fits_exactly spage size p ->
     allocate a size = (a', Ok off) ->
     forall q, q ∈ l -> pages_disjoint (off, p) q).
Proof.
  intros base heap spage lpage lim dir a0 l a1 a live failed size p a' off Hsl Hnew Hm.
  split.
  - rewrite <- (app_nil_r (reverse l)). exact (mark_all_reaches _ _ _ _ _ _ (reaches_init _) Hm).
  - intros Hr Hin Hfit Ha q Hq.
    exact (proj2 (proj2 (C01_new_page_disjoint_from_held _ _ _ _ _ _ _ _ _ _ _ _ _ _ Hsl Hnew Hr Hfit Ha))
      q (Hin q Hq)).
Qed.
Print Assumptions C04_reserved_pages_not_handed_out.

Theorem C04_example :
  mark_all ex_a0 [(4608, 8); (5120, 10)] = mark_all ex_a0 [(5120, 10); (4608, 8)] /\
  (exists a, mark_all ex_a0 [(4608, 8); (5120, 10)] = Ok a) /\
  well_placed 4096 4096 8 10 (4608, 8) /\ well_placed 4096 4096 8 10 (5120, 10) /\
  pairwise_disjoint [(4608, 8); (5120, 10)].
Proof.
  assert (W1 : well_placed 4096 4096 8 10 (4608, 8)).
  { split; [cbn; lia|]. split; [reflexivity|]. unfold page_bytes, in_heap. cbn [fst snd].
    change (2 ^ 8) with 256. lia. }
  assert (W2 : well_placed 4096 4096 8 10 (5120, 10)).
  { split; [cbn; lia|]. split; [reflexivity|]. unfold page_bytes, in_heap. cbn [fst snd].
    change (2 ^ 10) with 1024. lia. }
  assert (D : pairwise_disjoint [(4608, 8); (5120, 10)]).
  { intros [|[|i]] [|[|j]] p q Hij Hp Hq; try discriminate; try congruence;
      inversion Hp; inversion Hq; subst; unfold pages_disjoint, page_bytes; cbn [fst snd];
      change (2 ^ 8) with 256; change (2 ^ 10) with 1024; lia. }
  destruct (C04_reserving_disjoint_pages_succeeds_in_any_order 4096 4096 8 10 (2 ^ 64) DirLeft ex_a0
    [(4608, 8); (5120, 10)]) as (a & Ha & Hp).
  - lia.
  - vm_compute; reflexivity.
  - intros p Hp. apply elem_of_cons in Hp as [->|Hp]; [exact W1|].
    apply elem_of_list_singleton in Hp as ->. exact W2.
  - exact D.
  - rewrite Ha, (Hp [(5120, 10); (4608, 8)]) by apply perm_swap.
    split; [reflexivity|split; [eauto|split; [exact W1|split; [exact W2|exact D]]]].
Qed.
