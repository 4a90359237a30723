(** Reading a value of libblobd-kv, and storing a value's bytes.

    Models libblobd-kv/src/op/read_object.rs and the part of
    libblobd-kv/src/op/write_object.rs before the log.  The device is opened
    with O_DIRECT (lib.rs:136-138): a transfer whose offset or length is not a
    multiple of the small page is an error here ([None], a panic). *)
From stdpp Require Import base numbers list option.
From Verif Require Import Util PageIOModel BuddyModel KvAllocModel KvCodecModel.
Open Scope N_scope.

(** libblobd-kv/src/op/mod.rs [OpError]. *)
Inductive kv_err := KvNotFound | KvRange | KvTooLarge | KvOutOfSpace.

(** backing_store/mod.rs [read_at], [write_at] on an O_DIRECT file. *)
Definition aligned (spage x : N) : bool := mod_pow2 x spage =? 0.
Definition od_read (spage : N) (d : device) (off len : N) : option (list N) :=
  if aligned spage off && aligned spage len then Some (dev_read d off len) else None.
Definition od_write (spage : N) (d : device) (off : N) (data : list N) : option device :=
  if aligned spage off && aligned spage (N.of_nat (length data)) then Some (dev_write d off data) else None.

(** read_object.rs:28-43 [unaligned_read]. *)
Definition kv_unaligned_read (spage : N) (d : device) (off len : N) : option (list N) :=
  let a_start := floor_pow2 off spage in
  let a_end := N.max (ceil_pow2 (off + len) spage) (2 ^ spage) in
  if a_end <? a_start then None else
  buf ← od_read spage d a_start (a_end - a_start);
  (* copy_within(off - a_start .. off - a_start + len, 0); truncate(len) *)
  if N.of_nat (length buf) <? off - a_start + len then None else
  Some (take (N.to_nat len) (drop (N.to_nat (off - a_start)) buf)).

(** read_object.rs:45-104, after [read_tuple]: data, end and object size. *)
Definition kv_read_range (spage : N) (d : device) (t : option odata) (start : N) (req_end : option N)
  : option (kv_err + (list N * N * N)) :=
  match t with
  | None => Some (inl KvNotFound)
  | Some (DInline i) =>
      let object_size := N.of_nat (length i) in
      let end_ := default object_size req_end in
      if (end_ <? start) || (object_size <? start) || (object_size <? end_) then Some (inl KvRange) else
      Some (inr (take (N.to_nat (end_ - start)) (drop (N.to_nat start) i), end_, object_size))
  | Some (DHeap object_size dev_offset) =>
      let end_ := default object_size req_end in
      if (end_ <? start) || (object_size <? start) || (object_size <? end_) then Some (inl KvRange) else
      if (start =? end_) || (start =? object_size) then Some (inr ([], end_, object_size)) else
      data ← kv_unaligned_read spage d (dev_offset + start) (end_ - start);
      Some (inr (data, end_, object_size))
  end.

(** write_object.rs:27-70: where the value goes and the device and allocator
    afterwards; [junk] is the uninitialised buffer of [size_on_dev] bytes.
    [thr] is [log_entry_data_len_inline_threshold]. *)
Definition kv_store_value (spage thr : N) (a : KvAlloc) (d : device) (data junk : list N)
  : option (kv_err + (odata * KvAlloc * device)) :=
  let size := N.of_nat (length data) in
  if object_size_max <? size then Some (inl KvTooLarge) else
  if size <=? thr then Some (inr (DInline data, a, d)) else
  match kv_allocate a size with
  | Panic => None
  | OutOfSpace => Some (inl KvOutOfSpace)
  | Ok (a, dev_offset) =>
      let size_on_dev := N.max (2 ^ spage) (ceil_pow2 size spage) in
      if negb (N.of_nat (length junk) =? size_on_dev) then None else
      d ← od_write spage d dev_offset (data ++ drop (length data) junk);
      Some (inr (DHeap size dev_offset, a, d))
  end.
