(** How each library divides its device into regions. *)
From stdpp Require Import base numbers list option.
From Verif Require Import Util.
Open Scope N_scope.

(** A region: first byte and length. *)
Definition region : Type := N * N.

(** u64 subtraction and addition in a release build (overflow wraps). *)
Definition u64_sub (a b : N) : N := (2 ^ 64 + a - b) mod 2 ^ 64.

(** libblobd-lite/src/lib.rs:180-227 [new_with_device_and_journal]: buckets,
    journal, heap.  [None]: an assertion fails.  BUCKETS_SIZE is bucket.rs:52-58.
    [ceil_pow2] wraps at 2^64 in its final shift. *)
Record lite_regions := { lr_buckets : region; lr_journal : region; lr_heap : region }.
Definition lite_layout (bucket_count_log2 lpage device_size : N) : option lite_regions :=
  if (12 <=? bucket_count_log2) && (bucket_count_log2 <=? 48) then
    let buckets_size := 2 ^ bucket_count_log2 * 5 in
    let journal_dev_offset := 0 + buckets_size in
    let min_reserved_space := journal_dev_offset + 1024 * 1024 * 32 in
    let heap_dev_offset := ceil_pow2 min_reserved_space lpage in
    let journal_size := heap_dev_offset - journal_dev_offset in
    let heap_size := ceil_pow2 (u64_sub device_size heap_dev_offset) lpage mod 2 ^ 64 in
    Some {| lr_buckets := (0, buckets_size); lr_journal := (journal_dev_offset, journal_size);
            lr_heap := (heap_dev_offset, heap_size) |}
  else None.

(** libblobd-direct/src/partition/mod.rs:29-59 [PartitionLoader::new]: index
    area, heap; offsets relative to the partition. *)
Record direct_regions := { dr_tuples : region; dr_heap : region }.
Definition direct_layout (reserved lpage partition_len : N) : option direct_regions :=
  let tuples_area_size := ceil_pow2 reserved lpage in
  let heap_dev_offset := tuples_area_size in
  let heap_end := floor_pow2 partition_len lpage in
  let heap_size := u64_sub heap_end heap_dev_offset in
  if tuples_area_size + heap_dev_offset <=? heap_end
  then Some {| dr_tuples := (0, heap_dev_offset); dr_heap := (heap_dev_offset, heap_size) |} else None.

(** libblobd-kv/src/lib.rs:109-131 [BlobdLoader::new]; LPAGE_SIZE_POW2 = 24,
    SPAGE_SIZE_POW2_MIN = 9 (object.rs:51-52).  The assertions on the commit
    and inline thresholds do not involve regions and are left out. *)
Record kv_regions := { kr_tuples : region; kr_heap : region; kr_log_data : region; kr_log_state : region }.
Definition checked_sub (a b : N) : option N := if b <=? a then Some (a - b) else None.
Definition kv_layout (spage device_len log_buffer_size reserved : N) : option kv_regions :=
  if (9 <=? spage) && (spage <=? 24) then
    let dev_end_aligned := floor_pow2 device_len spage in
    if log_buffer_size <=? 1024 * 1024 * 64 then None else
    let tuples_area_size := ceil_pow2 reserved 24 in
    let heap_dev_offset := tuples_area_size in
    log_state_dev_offset ← checked_sub dev_end_aligned (2 ^ spage);
    log_data_dev_offset ← checked_sub log_state_dev_offset log_buffer_size;
    heap_len ← checked_sub log_state_dev_offset heap_dev_offset;
    let heap_size := floor_pow2 heap_len 24 in
    if heap_size <=? 1024 * 1024 * 64 then None else
    Some {| kr_tuples := (0, heap_dev_offset); kr_heap := (heap_dev_offset, heap_size);
            kr_log_data := (log_data_dev_offset, log_buffer_size);
            kr_log_state := (log_state_dev_offset, 2 ^ spage) |}
  else None.
