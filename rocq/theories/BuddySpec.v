(** What the page allocator must do, in terms of byte ranges of the device.
    Nothing here refers to bitmaps, splitting or merging, except [free_page],
    which says which byte ranges the allocator currently considers free. *)
From stdpp Require Import gmap sets fin_sets.
From Verif Require Import Util BuddyModel.
Open Scope N_scope.

(** A page: device offset and exponent of its size. *)
Definition page : Type := N * N.
Definition page_bytes (p : page) (b : N) : Prop := fst p <= b < fst p + 2 ^ snd p.
Definition pages_disjoint (p q : page) : Prop :=
  forall b, ~ (page_bytes p b /\ page_bytes q b).

(** The byte range [base, base+size). *)
Definition in_heap (base heap_size b : N) : Prop := base <= b < base + heap_size.

(** [p] is the exponent a request for [size] bytes must be served with:
    the smallest power of two that is at least a small page and fits [size]. *)
Definition fits_exactly (spage size p : N) : Prop :=
  spage <= p /\ size <= 2 ^ p /\ (forall q, spage <= q -> size <= 2 ^ q -> p <= q).

(** A well-placed page of a heap. *)
Definition well_placed (base heap_size spage lpage : N) (p : page) : Prop :=
  spage <= snd p <= lpage /\
  fst p mod 2 ^ snd p = 0 /\
  (forall b, page_bytes p b -> in_heap base heap_size b).

(** The byte ranges the allocator considers free. *)
Definition free_page (a : Allocator) (p : page) : Prop :=
  exists i b n, a_free a !! i = Some b /\ n ∈ b /\
    snd p = a_spage_pow2 a + N.of_nat i /\ fst p = a_base a + n * 2 ^ snd p.

(** Every history of calls.  [live] is what the callers hold: pages obtained by
    [allocate] or reserved by [mark_as_allocated] and not yet released.
    [failed] adds up the sizes of failed allocations. Callers release only what
    they hold. *)
Inductive reaches (a0 : Allocator) : Allocator -> list page -> N -> Prop :=
| reaches_init : reaches a0 a0 [] 0
| reaches_alloc a live failed size p a' off :
    reaches a0 a live failed ->
    fits_exactly (a_spage_pow2 a0) size p ->
    allocate a size = (a', Ok off) ->
    reaches a0 a' ((off, p) :: live) failed
| reaches_alloc_failed a live failed size p a' :
    reaches a0 a live failed ->
    fits_exactly (a_spage_pow2 a0) size p ->
    allocate a size = (a', OutOfSpace) ->
    reaches a0 a' live (failed + 2 ^ p)
| reaches_release a l1 l2 failed off p a' :
    reaches a0 a (l1 ++ (off, p) :: l2) failed ->
    release a off p = Ok a' ->
    reaches a0 a' (l1 ++ l2) failed
| reaches_mark a live failed off p a' :
    reaches a0 a live failed ->
    mark_as_allocated a off p = Ok a' ->
    reaches a0 a' ((off, p) :: live) failed.

(** Total size of a list of pages. *)
Fixpoint total_bytes (l : list page) : N :=
  match l with [] => 0 | p :: l => 2 ^ snd p + total_bytes l end.

(** Total size of the free pages: per class, number of pages times page size. *)
Fixpoint free_bytes_from (pow2 : N) (l : list bitmap) : N :=
  match l with
  | [] => 0
  | b :: l => N.of_nat (size b) * 2 ^ pow2 + free_bytes_from (pow2 + 1) l
  end.
Definition free_bytes (a : Allocator) : N := free_bytes_from (a_spage_pow2 a) (a_free a).

(** Two pages of the same size that together form an aligned page of twice
    the size. *)
Definition buddies (base : N) (p q : page) : Prop :=
  snd p = snd q /\ fst q = fst p + 2 ^ snd p /\ (fst p - base) mod 2 ^ (snd p + 1) = 0.

(** Marking a list of pages one after another. *)
Fixpoint mark_all (a : Allocator) (l : list page) : res Allocator :=
  match l with
  | [] => Ok a
  | (off, p) :: l =>
      match mark_as_allocated a off p with Ok a' => mark_all a' l | r => r end
  end.

(** Pairwise disjointness of a list. *)
Definition pairwise_disjoint (l : list page) : Prop :=
  forall i j p q, i <> j -> l !! i = Some p -> l !! j = Some q -> pages_disjoint p q.
