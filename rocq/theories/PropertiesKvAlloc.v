(** C37: the heap allocator of libblobd-kv.  Read together with KvAllocSpec.v.
    libblobd-kv/src/object.rs:51-53 fixes lpage = 24 and spage >= 9. *)
From stdpp Require Import gmap sets fin_sets.
From Verif Require Import Util BuddyModel KvAllocModel KvAllocSpec KvAllocProofs KvAllocInv.
Open Scope N_scope.

(** Live extents never share a byte, lie in the heap, and none of their bytes is free. *)
Theorem C37_live_extents_disjoint_and_inside :
  forall base heap spage lpage a0 a live total,
    1 <= spage <= lpage -> lpage <= 63 ->
    kv_alloc_new base heap spage lpage = Ok a0 ->
    kreaches a0 a live total ->
    all_disjoint spage live /\
    (forall e, e ∈ live -> well_placed_extent base heap spage lpage e) /\
    (forall e b, e ∈ live -> extent_bytes spage e b -> ~ free_byte a b).
Proof.
  intros base heap spage lpage a0 a live total [H1 H2] H63 Hn Hr.
  pose proof (kreaches_ki _ _ _ _ H1 H63 _ _ _ _ (new_ki _ _ _ _ _ H2 Hn) Hr) as HK.
  split; [exact (ki_disjoint _ _ _ _ H1 H63 _ _ _ HK)|]. split.
  - intros e He. exact (ki_placed _ _ _ _ H1 H63 _ _ _ _ HK He).
  - intros e b He Hb. exact (ki_live_not_free _ _ _ _ H1 H63 _ _ _ _ _ HK He Hb).
Qed.
Print Assumptions C37_live_extents_disjoint_and_inside.

(** A new extent is well placed and shares no byte with any held one. *)
Theorem C37_new_extent_disjoint_from_held :
  forall base heap spage lpage a0 a live total size a' off,
    1 <= spage <= lpage -> lpage <= 63 ->
    kv_alloc_new base heap spage lpage = Ok a0 ->
    kreaches a0 a live total ->
    0 < size -> kv_allocate a size = Ok (a', off) ->
    well_placed_extent base heap spage lpage (off, size) /\
    (forall e, e ∈ live -> extents_disjoint spage (off, size) e).
Proof.
  intros base heap spage lpage a0 a live total size a' off [H1 H2] H63 Hn Hr Hs Ha.
  pose proof (kreaches_ki _ _ _ _ H1 H63 _ _ _ _ (new_ki _ _ _ _ _ H2 Hn) Hr) as HK.
  exact (proj2 (allocate_ki _ _ _ _ H1 H63 _ _ _ _ _ _ HK Hs Ha)).
Qed.
Print Assumptions C37_new_extent_disjoint_from_held.

(** Free space plus held space (each value rounded up to whole small pages) is
    always the whole heap, and every heap byte is held or free. *)
Theorem C37_space_conserved :
  forall base heap spage lpage a0 a live total,
    1 <= spage <= lpage -> lpage <= 63 ->
    kv_alloc_new base heap spage lpage = Ok a0 ->
    kreaches a0 a live total ->
    free_space a + held_bytes spage live = heap /\
    (forall b, base <= b < base + heap ->
       (exists e, e ∈ live /\ extent_bytes spage e b) \/ free_byte a b).
Proof.
  intros base heap spage lpage a0 a live total [H1 H2] H63 Hn Hr.
  pose proof (kreaches_ki _ _ _ _ H1 H63 _ _ _ _ (new_ki _ _ _ _ _ H2 Hn) Hr) as HK.
  split; [exact (ki_total _ _ _ _ H1 H63 _ _ _ HK)|].
  intros b Hb. exact (ki_owned _ _ _ _ H1 H63 _ _ _ _ HK Hb).
Qed.
Print Assumptions C37_space_conserved.

(** Releasing a held extent never panics, and once the same extents are held
    the free pages are the same, however that came about; in particular after
    releasing everything the heap is as good as new. *)
Theorem C37_release_returns_everything :
  forall base heap spage lpage a0 a live total,
    1 <= spage <= lpage -> lpage <= 63 ->
    kv_alloc_new base heap spage lpage = Ok a0 ->
    kreaches a0 a live total ->
    (forall off size, (off, size) ∈ live -> exists a', kv_release a off size = Ok a') /\
    (forall a2 live2 total2, kreaches a0 a2 live2 total2 -> live2 ≡ₚ live -> ka_free a2 = ka_free a) /\
    (live = [] -> ka_free a = ka_free a0).
Proof.
  intros base heap spage lpage a0 a live total [H1 H2] H63 Hn Hr.
  pose proof (new_ki _ _ _ _ _ H2 Hn) as H0.
  pose proof (kreaches_ki _ _ _ _ H1 H63 _ _ _ _ H0 Hr) as HK.
  split; [|split].
  - intros off size Hin. apply elem_of_list_split in Hin as (l1 & l2 & ->).
    destruct (release_ki _ _ _ _ H1 H63 _ _ _ _ _ _ HK) as (a' & Ha' & _). eauto.
  - intros a2 live2 total2 Hr2 Hp.
    exact (ki_canonical _ _ _ _ _ _ _ _ _ _ (kreaches_ki _ _ _ _ H1 H63 _ _ _ _ H0 Hr2) HK Hp).
  - intros ->. exact (ki_canonical _ _ _ _ _ _ _ _ _ _ HK H0 (Permutation_refl _)).
Qed.
Print Assumptions C37_release_returns_everything.

(** A request fails exactly when no aligned run of the rounded-up power of two
    is completely free; it never panics for sizes up to a large page. *)
Theorem C37_allocate_fails_iff_nothing_fits :
  forall base heap spage lpage a0 a live total size p,
    1 <= spage <= lpage -> lpage <= 63 ->
    kv_alloc_new base heap spage lpage = Ok a0 ->
    kreaches a0 a live total ->
    0 < size <= 2 ^ 31 -> cont_pow2 spage size p -> p <= lpage ->
    ((exists a' off, kv_allocate a size = Ok (a', off)) \/ kv_allocate a size = OutOfSpace) /\
    (kv_allocate a size = OutOfSpace <-> forall off, ~ free_run a p off).
Proof.
  intros base heap spage lpage a0 a live total size p [H1 H2] H63 Hn Hr Hs Hc Hl.
  pose proof (kreaches_ki _ _ _ _ H1 H63 _ _ _ _ (new_ki _ _ _ _ _ H2 Hn) Hr) as HK.
  pose proof (proj1 Hc) as Hp. apply cont_fits in Hc. subst p.
  destruct (allocate_cases _ _ _ _ H1 H63 _ _ _ _ HK Hs Hl) as [(a' & off & E)|[E Hempty]].
  - split; [left; eauto|]. rewrite E. split; [discriminate|]. intros Hno. exfalso.
    assert (H31 : size <= 2 ^ 31) by apply Hs.
    rewrite (allocate_eq _ _ _ _ _ _ _ _ HK H31 Hl) in E.
    destruct (ka_first _ _ _) as [o|] eqn:Ef; [|discriminate].
    apply first_spec in Ef as (i & m & n & Hi & Hm & _).
    exact (Hno _ (page_free_run _ _ _ _ _ _ _ _ _ _ _ HK (conj Hp Hl) Hi Hm)).
  - split; [auto|]. split; [|auto]. intros _ off Hf.
    destruct (free_run_page _ _ _ _ _ _ _ _ _ HK (conj Hp Hl) Hf) as (i & m & n & Hi & Hm).
    rewrite (Hempty i m Hi) in Hm. exact (not_elem_of_empty n Hm).
Qed.
Print Assumptions C37_allocate_fails_iff_nothing_fits.

(** Reserving extents found on the device succeeds in any order. *)
Theorem C37_reserving_disjoint_extents_succeeds :
  forall base heap spage lpage a0 l,
    1 <= spage <= lpage -> lpage <= 63 ->
    kv_alloc_new base heap spage lpage = Ok a0 ->
    (forall e, e ∈ l -> well_placed_extent base heap spage lpage e) ->
    all_disjoint spage l ->
    exists a total, kv_mark_all a0 l = Ok a /\ kreaches a0 a (reverse l) total.
Proof.
  intros base heap spage lpage a0 l [H1 H2] H63 Hn.
  pose proof (new_ki _ _ _ _ _ H2 Hn) as H0.
  assert (B : ka_base a0 = base /\ ka_heap a0 = heap /\ ka_spage a0 = spage /\ ka_lpage a0 = lpage).
  { destruct H0 as [(g & _ & HS) _ _]. destruct HS. auto. }
  destruct B as (B1 & B2 & B3 & B4).
  assert (G : forall l live a total, kreaches a0 a live total ->
    (forall e, e ∈ l -> well_placed_extent base heap spage lpage e) ->
    all_disjoint spage l -> (forall e f, e ∈ l -> f ∈ live -> extents_disjoint spage e f) ->
    exists a' total', kv_mark_all a l = Ok a' /\ kreaches a0 a' (reverse l ++ live) total').
  { clear l. induction l as [|[off size] l IH]; intros live a total Hr Hw Hd Hx.
    - exists a, total. split; [reflexivity|exact Hr].
    - pose proof (kreaches_ki _ _ _ _ H1 H63 _ _ _ _ H0 Hr) as HK.
      destruct (mark_succeeds _ _ _ _ H1 H63 _ _ _ off size HK) as [a1 E].
      + apply Hw. left.
      + intros e He. apply Hx; [left|exact He].
      + cbn [kv_mark_all]. rewrite E.
        destruct (IH ((off, size) :: live) a1 (total + ceil_pow2 size spage)) as (a' & t' & E' & Hr').
        * apply (kreaches_mark a0 a live total off size); [exact Hr| |rewrite B3; apply rounded_ceil|exact E].
          rewrite B1, B2, B3, B4. apply Hw. left.
        * intros e He. apply Hw. now right.
        * intros i j e f Hij Hi Hj. apply (Hd (S i) (S j)); [congruence|exact Hi|exact Hj].
        * intros e f He Hf. apply elem_of_cons in Hf as [->|Hf].
          -- apply elem_of_list_lookup in He as [k Hk]. apply (Hd (S k) 0%nat); [discriminate|exact Hk|reflexivity].
          -- apply Hx; [now right|exact Hf].
        * exists a', t'. split; [exact E'|]. rewrite reverse_cons, <- app_assoc. exact Hr'. }
  intros Hw Hd. destruct (G l [] a0 0 (kreaches_init _) Hw Hd) as (a & t & E & Hr).
  - intros e f _ Hf. inversion Hf.
  - exists a, t. split; [exact E|]. now rewrite app_nil_r in Hr.
Qed.
Print Assumptions C37_reserving_disjoint_extents_succeeds.

(** The counter is the total space ever obtained: it never goes down
    (allocator.rs:181-185 subtracts a variable the loop has brought to zero). *)
Theorem C37_allocated_bytes_partial :
  forall base heap spage lpage a0 a live total,
    1 <= spage <= lpage -> lpage <= 63 ->
    kv_alloc_new base heap spage lpage = Ok a0 ->
    kreaches a0 a live total ->
    ka_metric a = Z.of_N total.
Proof.
  intros base heap spage lpage a0 a live total [H1 H2] H63 Hn Hr.
  exact (ki_metric _ _ _ _ _ _ _ (kreaches_ki _ _ _ _ H1 H63 _ _ _ _ (new_ki _ _ _ _ _ H2 Hn) Hr)).
Qed.
Print Assumptions C37_allocated_bytes_partial.

(** Non-vacuity, and the counter after everything has been released: a heap of
    two 16 MiB large pages at 16 MiB with 512-byte small pages; values of 1300
    and 600 bytes. *)
Definition kx_new := kv_alloc_new (2 ^ 24) (2 ^ 25) 9 24.
Definition kx_dummy : KvAlloc := {| ka_base := 0; ka_heap := 0; ka_spage := 0; ka_lpage := 0; ka_free := []; ka_metric := 0 |}.
Definition kx_get (r : res KvAlloc) := match r with Ok a => a | _ => kx_dummy end.
Definition kx_a0 := kx_get kx_new.
Definition kx_alloc (a : KvAlloc) (n : N) := match kv_allocate a n with Ok (a, _) => a | _ => kx_dummy end.
Definition kx_a1 := kx_alloc kx_a0 1300.
Definition kx_a2 := kx_alloc kx_a1 600.
Definition kx_a3 := kx_get (kv_release kx_a2 (2 ^ 24) 1300).
Definition kx_a4 := kx_get (kv_release kx_a3 (2 ^ 24 + 2048) 600).
Theorem C37_example :
  kx_new = Ok kx_a0 /\
  kreaches kx_a0 kx_a2 [(2 ^ 24 + 2048, 600); (2 ^ 24, 1300)] 2560 /\
  free_space kx_a2 = 2 ^ 25 - 2560 /\
  kv_allocate kx_a2 100 = Ok (kx_alloc kx_a2 100, 2 ^ 24 + 1536).
Proof.
  split; [vm_compute; reflexivity|]. split; [|split; vm_compute; reflexivity].
  change 2560 with (0 + 1536 + 1024).
  apply (kreaches_alloc kx_a0 kx_a1 _ (0 + 1536) 600 1024);
    [|lia|repeat split; vm_compute; try reflexivity; discriminate|vm_compute; reflexivity].
  apply (kreaches_alloc kx_a0 kx_a0 _ 0 1300 1536);
    [|lia|repeat split; vm_compute; try reflexivity; discriminate|vm_compute; reflexivity].
  apply kreaches_init.
Qed.

Theorem C37_allocated_bytes_refuted :
  exists a0 a live total,
    kv_alloc_new (2 ^ 24) (2 ^ 25) 9 24 = Ok a0 /\ kreaches a0 a live total /\ live = [] /\
    ka_free a = ka_free a0 /\ ka_metric a <> Z.of_N (held_bytes 9 live).
Proof.
  exists kx_a0, kx_a4, [], 2560. destruct C37_example as (E & R & _).
  assert (R4 : kreaches kx_a0 kx_a4 [] 2560).
  { apply (kreaches_release kx_a0 kx_a3 [] [] 2560 (2 ^ 24 + 2048) 600); [|vm_compute; reflexivity].
    apply (kreaches_release kx_a0 kx_a2 [(2 ^ 24 + 2048, 600)] [] 2560 (2 ^ 24) 1300); [exact R|vm_compute; reflexivity]. }
  split; [exact E|]. split; [exact R4|]. split; [reflexivity|]. split.
  - assert (S1 : 1 <= 9 <= 24) by lia. assert (S2 : 24 <= 63) by lia.
    exact (proj2 (proj2 (C37_release_returns_everything _ _ _ _ _ _ _ _ S1 S2 E R4)) eq_refl).
  - intros H. vm_compute in H. discriminate H.
Qed.
Print Assumptions C37_allocated_bytes_refuted.
