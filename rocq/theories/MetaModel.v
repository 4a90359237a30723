(** The on-device object record of libblobd-lite.

    Models libblobd-lite/src/object.rs and the record construction in
    libblobd-lite/src/op/create_object.rs. *)
From stdpp Require Import base numbers list option.
From Verif Require Import Util Bytes LayoutModel.
Open Scope N_scope.

(** object.rs:82-141 [ObjectOffsets]. *)
Definition off_state : N := 0.
Definition off_metadata_size_pow2 : N := off_state + 1.
Definition off_next : N := off_metadata_size_pow2 + 1.
Definition off_created_ms : N := off_next + 6.
Definition off_size : N := off_created_ms + 6.
Definition off_id : N := off_size + 5.
Definition off_key_len : N := off_id + 16.
Definition off_key : N := off_key_len + 2.
Definition off_lpages (key_len : N) : N := off_key + key_len.
Definition off_lpage (key_len idx : N) : N := off_lpages key_len + 6 * idx.
Definition off_tail_pages (key_len lpages : N) : N := off_lpage key_len lpages.
Definition off_tail_page (key_len lpages idx : N) : N := off_tail_pages key_len lpages + 6 * idx.
Definition off_assoc_data_len (key_len lpages tails : N) : N := off_tail_page key_len lpages tails.
Definition off_assoc_data (key_len lpages tails : N) : N := off_assoc_data_len key_len lpages tails + 2.
Definition off_total (key_len lpages tails assoc_len : N) : N :=
  off_assoc_data key_len lpages tails + assoc_len.

(** object.rs:40-46 [ObjectState]. *)
Definition st_incomplete : N := 1.
Definition st_committed : N := 2.

(** What [op_create_object] is asked to create and the pages it obtained. *)
Record create_req := {
  cr_key : list N;
  cr_size : N;
  cr_assoc : list N;
  cr_id : N;
  cr_created_ms : N;
  cr_lpages : list N;   (* the addresses the allocator returned, in order *)
  cr_tails : list N;
}.

(** create_object.rs:84-91: writing a list of u48 page addresses. *)
Fixpoint write_pages (b : list N) (off_of : N -> N) (idx : N) (pages : list N) : option (list N) :=
  match pages with
  | [] => Some b
  | p :: pages => b ← buf_write b (off_of idx) (be_bytes 6 p); write_pages b off_of (idx + 1) pages
  end.

Inductive create_result :=
  | CrTooLarge                    (* ObjectMetadataTooLarge *)
  | CrRecord (raw : list N) (meta_size_pow2 : N).

(** create_object.rs:38-93, everything but the allocator calls.  [None] is a
    panic ([u16!] of a longer key or associated data, an assertion, or an index
    out of range). *)
Definition create_record (spage lpage : N) (r : create_req) : option create_result :=
  let klen := N.of_nat (length (cr_key r)) in
  let alen := N.of_nat (length (cr_assoc r)) in
  if 2 ^ 16 <=? klen then None else
  '(lpage_count, t) ← calc_object_layout spage lpage (2 ^ 64) (cr_size r);
  if 2 ^ 16 <=? alen then None else
  let meta_size := off_total klen lpage_count (tps_len t) alen in
  if 2 ^ lpage <? meta_size then Some CrTooLarge else
  let meta_size_pow2 := N.max spage (N.log2_up meta_size) in
  if lpage <? meta_size_pow2 then None else
  let raw := replicate (N.to_nat meta_size) 0 in
  raw ← buf_write raw off_state [st_incomplete];
  raw ← buf_write raw off_metadata_size_pow2 [meta_size_pow2];
  raw ← buf_write raw off_id (be_bytes 16 (cr_id r));
  raw ← buf_write raw off_created_ms (be_bytes 6 (cr_created_ms r));
  raw ← buf_write raw off_size (be_bytes 5 (cr_size r));
  raw ← buf_write raw off_key_len (be_bytes 2 klen);
  raw ← buf_write raw off_key (cr_key r);
  raw ← buf_write raw (off_assoc_data_len klen lpage_count (tps_len t)) (be_bytes 2 alen);
  raw ← buf_write raw (off_assoc_data klen lpage_count (tps_len t)) (cr_assoc r);
  raw ← write_pages raw (off_lpage klen) 0 (cr_lpages r);
  raw ← write_pages raw (off_tail_page klen lpage_count) 0 (cr_tails r);
  Some (CrRecord raw meta_size_pow2).

(** object.rs:163-251 [ObjectMeta], without the overlay (that is modelled with
    the buckets).  [None] is a panic. *)
Definition meta_state (raw : list N) : option N :=
  b ← buf_read raw off_state 1;
  let v := be_val b in
  if (v =? st_incomplete) || (v =? st_committed) then Some v else None.
Definition meta_size_pow2 (raw : list N) : option N := be_val <$> buf_read raw off_metadata_size_pow2 1.
Definition meta_next (raw : list N) : option N := be_val <$> buf_read raw off_next 6.
Definition meta_created_ms (raw : list N) : option N := be_val <$> buf_read raw off_created_ms 6.
Definition meta_size (raw : list N) : option N := be_val <$> buf_read raw off_size 5.
Definition meta_id (raw : list N) : option N := be_val <$> buf_read raw off_id 16.
Definition meta_key_len (raw : list N) : option N := be_val <$> buf_read raw off_key_len 2.
Definition meta_key (raw : list N) : option (list N) :=
  kl ← meta_key_len raw; buf_read raw off_key kl.
Definition meta_layout (spage lpage : N) (raw : list N) : option (N * TailPageSizes) :=
  size ← meta_size raw; calc_object_layout spage lpage (2 ^ 64) size.
Definition meta_lpage (raw : list N) (idx : N) : option N :=
  kl ← meta_key_len raw; be_val <$> buf_read raw (off_lpage kl idx) 6.
Definition meta_tail_page (spage lpage : N) (raw : list N) (idx : N) : option N :=
  kl ← meta_key_len raw;
  '(lc, _) ← meta_layout spage lpage raw;
  be_val <$> buf_read raw (off_tail_page kl lc idx) 6.
Definition meta_assoc_data_len (spage lpage : N) (raw : list N) : option N :=
  kl ← meta_key_len raw;
  '(lc, t) ← meta_layout spage lpage raw;
  be_val <$> buf_read raw (off_assoc_data_len kl lc (tps_len t)) 2.
Definition meta_assoc_data (spage lpage : N) (raw : list N) : option (list N) :=
  kl ← meta_key_len raw;
  '(lc, t) ← meta_layout spage lpage raw;
  al ← meta_assoc_data_len spage lpage raw;
  buf_read raw (off_assoc_data kl lc (tps_len t)) al.

(** commit_object.rs:75-77 and create_object.rs:112-115 / bucket.rs:218-223:
    the in-place updates of a record. *)
Definition set_state (raw : list N) (st : N) : option (list N) := buf_write raw off_state [st].
Definition set_next (raw : list N) (next : N) : option (list N) := buf_write raw off_next (be_bytes 6 next).
