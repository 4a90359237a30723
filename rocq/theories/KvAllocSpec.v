(** What the heap allocator of libblobd-kv must do, in terms of byte ranges. *)
From stdpp Require Import gmap sets fin_sets.
From Verif Require Import Util BuddyModel KvAllocModel.
Open Scope N_scope.

(** A value's space: device offset and size of the value. *)
Definition extent : Type := N * N.
(** The smallest number of whole small pages that holds [size] bytes. *)
Definition rounded (spage size r : N) : Prop :=
  r mod 2 ^ spage = 0 /\ size <= r < size + 2 ^ spage.
Definition extent_bytes (spage : N) (e : extent) (b : N) : Prop :=
  exists r, rounded spage (snd e) r /\ fst e <= b < fst e + r.
Definition extents_disjoint (spage : N) (e f : extent) : Prop :=
  forall b, ~ (extent_bytes spage e b /\ extent_bytes spage f b).
Definition all_disjoint (spage : N) (l : list extent) : Prop :=
  forall i j e f, i <> j -> l !! i = Some e -> l !! j = Some f -> extents_disjoint spage e f.

(** The power of two a request for [size] bytes is aligned to. *)
Definition cont_pow2 (spage size p : N) : Prop :=
  spage <= p /\ size <= 2 ^ p /\ (forall q, spage <= q -> size <= 2 ^ q -> p <= q).

(** An extent as [allocate] hands them out: inside the heap, aligned. *)
Definition well_placed_extent (base heap spage lpage : N) (e : extent) : Prop :=
  0 < snd e /\
  (exists p, cont_pow2 spage (snd e) p /\ p <= lpage /\ fst e mod 2 ^ p = 0) /\
  (forall b, extent_bytes spage e b -> base <= b < base + heap).

(** A byte the allocator considers free: in a free page of some class. *)
Definition free_byte (a : KvAlloc) (b : N) : Prop :=
  exists i m n, ka_free a !! i = Some m /\ n ∈ m /\
    ka_base a + n * 2 ^ (ka_spage a + N.of_nat i) <= b < ka_base a + (n + 1) * 2 ^ (ka_spage a + N.of_nat i).
(** An aligned run of [2^p] bytes that is completely free. *)
Definition free_run (a : KvAlloc) (p off : N) : Prop :=
  ka_base a <= off /\ (off - ka_base a) mod 2 ^ p = 0 /\ forall b, off <= b < off + 2 ^ p -> free_byte a b.

(** Histories: extents are obtained with [allocate], reserved on opening with
    [mark_as_allocated] (only extents of the form [allocate] produces), and
    released by their holder.  [total] adds up all space ever obtained. *)
Inductive kreaches (a0 : KvAlloc) : KvAlloc -> list extent -> N -> Prop :=
| kreaches_init : kreaches a0 a0 [] 0
| kreaches_alloc a live total size r a' off :
    kreaches a0 a live total -> 0 < size -> rounded (ka_spage a0) size r ->
    kv_allocate a size = Ok (a', off) ->
    kreaches a0 a' ((off, size) :: live) (total + r)
| kreaches_mark a live total off size r a' :
    kreaches a0 a live total ->
    well_placed_extent (ka_base a0) (ka_heap a0) (ka_spage a0) (ka_lpage a0) (off, size) ->
    rounded (ka_spage a0) size r ->
    kv_mark a off size = Ok a' ->
    kreaches a0 a' ((off, size) :: live) (total + r)
| kreaches_release a l1 l2 total off size a' :
    kreaches a0 a (l1 ++ (off, size) :: l2) total ->
    kv_release a off size = Ok a' ->
    kreaches a0 a' (l1 ++ l2) total.

(** Space held by a list of extents. *)
Fixpoint held_bytes (spage : N) (l : list extent) : N :=
  match l with [] => 0 | e :: l => (snd e + 2 ^ spage - 1) / 2 ^ spage * 2 ^ spage + held_bytes spage l end.
(** Free space: per class, number of pages times page size. *)
Fixpoint free_space_from (pow2 : N) (l : list bitmap) : N :=
  match l with [] => 0 | b :: l => N.of_nat (size b) * 2 ^ pow2 + free_space_from (pow2 + 1) l end.
Definition free_space (a : KvAlloc) : N := free_space_from (ka_spage a) (ka_free a).

(** Reserving a list of extents one after another. *)
Fixpoint kv_mark_all (a : KvAlloc) (l : list extent) : res KvAlloc :=
  match l with
  | [] => Ok a
  | (off, sz) :: l => match kv_mark a off sz with Ok a' => kv_mark_all a' l | r => r end
  end.
