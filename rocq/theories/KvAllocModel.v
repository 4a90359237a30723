(** The heap allocator of libblobd-kv.

    Models libblobd-kv/src/allocator.rs.  A Rust panic is [Panic]. *)
From stdpp Require Import gmap sets fin_sets.
From Verif Require Import Util BuddyModel.
Open Scope N_scope.

(** allocator.rs:30-35 and 101-105.  [ka_metric] is the [allocated_bytes] metric. *)
Record KvAlloc := {
  ka_base : N;
  ka_heap : N;
  ka_spage : N;
  ka_lpage : N;
  ka_free : list bitmap;
  ka_metric : Z;
}.
Definition ka_set (a : KvAlloc) (f : list bitmap) : KvAlloc :=
  {| ka_base := ka_base a; ka_heap := ka_heap a; ka_spage := ka_spage a; ka_lpage := ka_lpage a;
     ka_free := f; ka_metric := ka_metric a |}.
Definition ka_add (a : KvAlloc) (d : Z) : KvAlloc :=
  {| ka_base := ka_base a; ka_heap := ka_heap a; ka_spage := ka_spage a; ka_lpage := ka_lpage a;
     ka_free := ka_free a; ka_metric := (ka_metric a + d)%Z |}.

(** allocator.rs:108-129 [Allocator::new]. *)
Definition kv_alloc_new (base heap spage lpage : N) : res KvAlloc :=
  if negb (mod_pow2 base lpage =? 0) then Panic
  else if negb (mod_pow2 heap lpage =? 0) then Panic
  else
    Ok {| ka_base := base; ka_heap := heap; ka_spage := spage; ka_lpage := lpage;
          ka_free := map (fun sz => if sz =? lpage then full_bitmap (div_pow2 heap sz) else ∅)
                         (seqN spage (lpage + 1 - spage));
          ka_metric := 0%Z |}.

(** allocator.rs:65-75 [PagesBitmap::allocate], walking the bitmaps from the
    page's class [pow2] upwards; the assertion on the page number is made at
    every level, running past the last bitmap is the assertion on the class. *)
Fixpoint kmark_from (heap pow2 : N) (l : list bitmap) (n : N) : option (list bitmap) :=
  match l with
  | [] => None
  | b :: rest =>
      if negb (n <? div_pow2 heap pow2) then None else
      if bool_decide (n ∈ b) then Some (b ∖ {[n]} :: rest)
      else
        match kmark_from heap (pow2 + 1) rest (n / 2) with
        | None => None
        | Some rest' => Some ({[N.lxor n 1]} ∪ b :: rest')
        end
  end.

(** allocator.rs:78-97 [PagesBitmap::release]. *)
Fixpoint krelease_from (heap pow2 : N) (l : list bitmap) (n : N) : option (list bitmap) :=
  match l with
  | [] => None
  | b :: rest =>
      if negb (n <? div_pow2 heap pow2) then None else
      let insert_here := if bool_decide (n ∈ b) then None else Some ({[n]} ∪ b :: rest) in
      match rest with
      | [] => insert_here
      | _ =>
          let buddy := N.lxor n 1 in
          if bool_decide (buddy ∈ b) then
            if bool_decide (n ∈ b ∖ {[buddy]}) then None
            else
              match krelease_from heap (pow2 + 1) rest (n / 2) with
              | None => None
              | Some rest' => Some (b ∖ {[buddy]} :: rest')
              end
          else insert_here
      end
  end.

(** allocator.rs:39-49 [bitmap], [bitmap_mut], [to_page_num] (which rounds
    down), then one of the two functions above. *)
Definition ka_page (op : N -> N -> list bitmap -> N -> option (list bitmap))
  (a : KvAlloc) (off pow2 : N) : res KvAlloc :=
  if off <? ka_base a then Panic else
  let n := div_pow2 (off - ka_base a) pow2 in
  if negb ((ka_spage a <=? pow2) && (pow2 <=? ka_lpage a)) then Panic else
  let i := N.to_nat (pow2 - ka_spage a) in
  match op (ka_heap a) pow2 (drop i (ka_free a)) n with
  | Some l => Ok (ka_set a (take i (ka_free a) ++ l))
  | None => Panic
  end.

(** allocator.rs:135-145 and 170-180: highest remaining bit first.  [rem] is a
    u64, so 64 rounds are enough. *)
Fixpoint ka_loop (op : N -> N -> list bitmap -> N -> option (list bitmap))
  (fuel : nat) (a : KvAlloc) (off rem : N) : res KvAlloc :=
  if rem =? 0 then Ok a else
  match fuel with
  | O => Panic
  | S fuel =>
      let pos := N.log2 rem in
      if pos =? 0 then Panic else
      match ka_page op a off pos with
      | Ok a => ka_loop op fuel a (off + 2 ^ pos) (N.clearbit rem pos)
      | r => r
      end
  end.

(** allocator.rs:131-151 [mark_as_allocated]. *)
Definition kv_mark (a : KvAlloc) (off size : N) : res KvAlloc :=
  let alloc_size := ceil_pow2 size (ka_spage a) in
  match ka_loop kmark_from 64 a off alloc_size with
  | Ok a => Ok (ka_add a (Z.of_N alloc_size))
  | r => r
  end.

(** allocator.rs:55-62 [get_free_page_with_min_size]: the lowest page of the
    first class that has one. *)
Fixpoint ka_first (base pow2 : N) (l : list bitmap) : option N :=
  match l with
  | [] => None
  | b :: rest =>
      match bitmap_min b with
      | Some n => Some (mul_pow2 n pow2 + base)
      | None => ka_first base (pow2 + 1) rest
      end
  end.

(** allocator.rs:154-164 [allocate]; [size] is a u32, whose
    [next_power_of_two] overflows above 2^31. *)
Definition kv_allocate (a : KvAlloc) (size : N) : res (KvAlloc * N) :=
  if 2 ^ 31 <? size then Panic else
  let cont := N.max (2 ^ ka_spage a) (2 ^ N.log2_up size) in
  if negb (cont <=? 2 ^ ka_lpage a) then Panic else
  match ka_first (ka_base a) (N.log2 cont) (drop (N.to_nat (N.log2 cont - ka_spage a)) (ka_free a)) with
  | None => OutOfSpace
  | Some off =>
      match kv_mark a off size with
      | Ok a => Ok (a, off)
      | OutOfSpace => OutOfSpace
      | Panic => Panic
      end
  end.

(** allocator.rs:166-184 [release].  The counter is lowered by [alloc_size]
    after the loop has brought it down to zero. *)
Definition kv_release (a : KvAlloc) (off size : N) : res KvAlloc :=
  let alloc_size := ceil_pow2 size (ka_spage a) in
  match ka_loop krelease_from 64 a off alloc_size with
  | Ok a => Ok (ka_add a (Z.of_N 0))
  | r => r
  end.
