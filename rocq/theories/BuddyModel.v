(** The page allocator of libblobd-lite and libblobd-direct.

    Models libblobd-lite/src/allocator/mod.rs and
    libblobd-direct/src/allocator/mod.rs, whose texts differ only in the
    integer type of page numbers (u64 / u32) and in how metrics are reached.
    A Rust panic (failed [assert!], index out of bounds, failed [u32!]
    conversion, subtraction below zero) is the explicit result [Panic]. *)
From stdpp Require Import gmap sets fin_sets.
From Verif Require Import Util.
Open Scope N_scope.

(** Outcome of a call: a value, the error [OutOfSpaceError]
    (lite allocator/mod.rs:23-32), or a panic. *)
Inductive res (A : Type) : Type :=
| Ok (a : A)
| OutOfSpace
| Panic.
Arguments Ok {A} a.
Arguments OutOfSpace {A}.
Arguments Panic {A}.

(** lite allocator/mod.rs:36-39 [AllocDir]. *)
Inductive AllocDir := DirLeft | DirRight.

(** A bitmap of free page numbers (roaring [RoaringTreemap]/[RoaringBitmap])
    is modelled by a finite set. *)
Definition bitmap := gset N.

(** [RoaringTreemap::min] / [max]. *)
Definition bitmap_min (b : bitmap) : option N :=
  match elements b with
  | [] => None
  | x :: xs => Some (fold_left N.min xs x)
  end.
Definition bitmap_max (b : bitmap) : option N :=
  match elements b with
  | [] => None
  | x :: xs => Some (fold_left N.max xs x)
  end.

(** lite allocator/mod.rs:140-144: the page to take, by direction. *)
Definition pick (dir : AllocDir) (b : bitmap) : option N :=
  match dir with DirLeft => bitmap_min b | DirRight => bitmap_max b end.

(** lite allocator/mod.rs:57-64 [Allocator]; pages.rs:4-8 [Pages].
    [a_free] has one bitmap per size class, smallest page size first.
    [a_allocated_bytes] is the metric of the same name (a wrapping u64 in the
    code; an integer here, so that going below zero is visible).
    [a_pn_limit] is 2^64 for lite ([PageNum = u64], mod.rs:42) and 2^32 for
    direct ([PageNum = u32]). *)
Record Allocator := {
  a_base : N;
  a_dir : AllocDir;
  a_spage_pow2 : N;
  a_lpage_pow2 : N;
  a_pn_limit : N;
  a_free : list bitmap;
  a_allocated_bytes : Z;
}.

Definition set_free (a : Allocator) (f : list bitmap) : Allocator :=
  {| a_base := a_base a; a_dir := a_dir a; a_spage_pow2 := a_spage_pow2 a;
     a_lpage_pow2 := a_lpage_pow2 a; a_pn_limit := a_pn_limit a;
     a_free := f; a_allocated_bytes := a_allocated_bytes a |}.

Definition add_allocated (a : Allocator) (d : Z) : Allocator :=
  {| a_base := a_base a; a_dir := a_dir a; a_spage_pow2 := a_spage_pow2 a;
     a_lpage_pow2 := a_lpage_pow2 a; a_pn_limit := a_pn_limit a;
     a_free := a_free a; a_allocated_bytes := (a_allocated_bytes a + d)%Z |}.

(** The numbers [start], [start+1], … ([len] of them): a Rust range. *)
Definition seqN (start len : N) : list N :=
  map (fun k => start + N.of_nat k) (seq 0 (N.to_nat len)).

(** [map.insert_range(..page_count)], mod.rs:84. *)
Definition full_bitmap (count : N) : bitmap :=
  list_to_set (seqN 0 count).

(** mod.rs:67-92 [Allocator::new].  The per-class page count conversion
    ([u32!] in direct) panics when it does not fit; the smallest class has the
    largest count, so one comparison per class is modelled by [forallb]. *)
Definition allocator_new (base heap_size spage lpage pn_limit : N) (dir : AllocDir)
  : res Allocator :=
  if negb (mod_pow2 base lpage =? 0) then Panic
  else if negb (mod_pow2 heap_size lpage =? 0) then Panic
  else
    let classes := seqN spage (lpage + 1 - spage) in
    if forallb (fun sz => div_pow2 heap_size sz <? pn_limit) classes then
      Ok {| a_base := base; a_dir := dir; a_spage_pow2 := spage;
            a_lpage_pow2 := lpage; a_pn_limit := pn_limit;
            a_free := map (fun sz =>
              if sz =? lpage then full_bitmap (div_pow2 heap_size sz) else ∅)
              classes;
            a_allocated_bytes := 0%Z |}
    else Panic.

(** [usz!(page_size_pow2 - self.pages.spage_size_pow2)] (mod.rs:95,99) with the
    range check of the assertions at mod.rs:111-113 and 137-139. *)
Definition class_idx (a : Allocator) (pow2 : N) : res nat :=
  if (a_spage_pow2 a <=? pow2) && (pow2 <=? a_lpage_pow2 a)
  then Ok (N.to_nat (pow2 - a_spage_pow2 a)) else Panic.

(** mod.rs:102-104 [to_page_num]. *)
Definition to_page_num (a : Allocator) (off pow2 : N) : res N :=
  if off <? a_base a then Panic
  else
    let n := div_pow2 (off - a_base a) pow2 in
    if n <? a_pn_limit a then Ok n else Panic.

(** mod.rs:106-108 [to_page_dev_offset]. *)
Definition to_page_dev_offset (a : Allocator) (n pow2 : N) : N :=
  mul_pow2 n pow2 + a_base a.

(** mod.rs:110-119 [_mark_as_allocated].  The recursion on [page_size_pow2 + 1]
    walks the list of bitmaps from the page's own class upwards; running past
    the large-page class is the failed assertion at mod.rs:111. *)
Fixpoint mark_from (l : list bitmap) (n : N) : option (list bitmap) :=
  match l with
  | [] => None
  | b :: rest =>
      if bool_decide (n ∈ b) then Some (b ∖ {[n]} :: rest)
      else
        match mark_from rest (n / 2) with
        | None => None
        | Some rest' => Some ({[N.lxor n 1]} ∪ b :: rest')
        end
  end.

(** mod.rs:135-172 [_allocate], by the same walk.  [None] = OutOfSpaceError
    (reached only at the large-page class, mod.rs:149). The assertion that the
    split-off half is newly inserted (mod.rs:157,166) is checked. *)
Fixpoint alloc_from (dir : AllocDir) (l : list bitmap) : res (N * list bitmap) :=
  match l with
  | [] => Panic
  | b :: rest =>
      match pick dir b with
      | Some n => Ok (n, b ∖ {[n]} :: rest)
      | None =>
          match rest with
          | [] => OutOfSpace
          | _ =>
              match alloc_from dir rest with
              | Ok (larger, rest') =>
                  let '(freed, taken) :=
                    match dir with
                    | DirLeft => (larger * 2 + 1, larger * 2)
                    | DirRight => (larger * 2, larger * 2 + 1)
                    end in
                  if bool_decide (freed ∈ b) then Panic
                  else Ok (taken, {[freed]} ∪ b :: rest')
              | OutOfSpace => OutOfSpace
              | Panic => Panic
              end
          end
      end
  end.

(** mod.rs:186-201 [_release], by the same walk, with its three assertions. *)
Fixpoint release_from (l : list bitmap) (n : N) : option (list bitmap) :=
  match l with
  | [] => None
  | b :: rest =>
      let insert_here :=
        if bool_decide (n ∈ b) then None else Some ({[n]} ∪ b :: rest) in
      match rest with
      | [] => insert_here
      | _ =>
          let buddy := N.lxor n 1 in
          if bool_decide (buddy ∈ b) then
            if bool_decide (n ∈ b ∖ {[buddy]}) then None
            else
              match release_from rest (n / 2) with
              | None => None
              | Some rest' => Some (b ∖ {[buddy]} :: rest')
              end
          else insert_here
      end
  end.

(** mod.rs:121-133 [mark_as_allocated]. *)
Definition mark_as_allocated (a : Allocator) (off pow2 : N) : res Allocator :=
  if negb (mod_pow2 off pow2 =? 0) then Panic
  else
    match to_page_num a off pow2, class_idx a pow2 with
    | Ok n, Ok i =>
        match mark_from (drop i (a_free a)) n with
        | Some l =>
            Ok (add_allocated (set_free a (take i (a_free a) ++ l)) (Z.of_N (2 ^ pow2)))
        | None => Panic
        end
    | _, _ => Panic
    end.

(** mod.rs:175-178: [max(spage_size_pow2, size.next_power_of_two().ilog2())].
    [next_power_of_two] of 0 and 1 is 1. *)
Definition alloc_pow2 (spage size : N) : N := N.max spage (N.log2_up size).

(** mod.rs:174-184 [allocate].  Note that the metric is increased before the
    search, also when the search then fails. *)
Definition allocate (a : Allocator) (size : N) : Allocator * res N :=
  let pow2 := alloc_pow2 (a_spage_pow2 a) size in
  if negb (pow2 <=? a_lpage_pow2 a) then (a, Panic)
  else
    let a := add_allocated a (Z.of_N (2 ^ pow2)) in
    match class_idx a pow2 with
    | Ok i =>
        match alloc_from (a_dir a) (drop i (a_free a)) with
        | Ok (n, l) =>
            (set_free a (take i (a_free a) ++ l), Ok (to_page_dev_offset a n pow2))
        | OutOfSpace => (a, OutOfSpace)
        | Panic => (a, Panic)
        end
    | _ => (a, Panic)
    end.

(** mod.rs:203-211 [release]. *)
Definition release (a : Allocator) (off pow2 : N) : res Allocator :=
  match to_page_num a off pow2, class_idx a pow2 with
  | Ok n, Ok i =>
      match release_from (drop i (a_free a)) n with
      | Some l =>
          Ok (add_allocated (set_free a (take i (a_free a) ++ l)) (- Z.of_N (2 ^ pow2)))
      | None => Panic
      end
  | _, _ => Panic
  end.

(** mod.rs:213-217 [release_all]. *)
Fixpoint release_all (a : Allocator) (to_free : list (N * N)) : res Allocator :=
  match to_free with
  | [] => Ok a
  | (off, pow2) :: rest =>
      match release a off pow2 with
      | Ok a' => release_all a' rest
      | r => r
      end
  end.
