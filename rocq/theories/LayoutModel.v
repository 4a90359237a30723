(** Page layout of an object, and the packed list of tail page sizes.

    Models libblobd-lite/src/allocator/layout.rs and
    libblobd-direct/src/object/tail.rs (same text) and
    libblobd-direct/src/object/mod.rs:39-62. Panics are [None]. *)
From stdpp Require Import base numbers list option.
From Verif Require Import Util.
Open Scope N_scope.

(** Truncation to u64. *)
Definition u64_trunc (x : N) : N := x mod 2 ^ 64.

(** layout.rs:15-16 [TailPageSizes(u64, u64)]. *)
Definition TailPageSizes : Type := N * N.

(** layout.rs:19-21 [new]. *)
Definition tps_new : TailPageSizes := (0, 0).

(** layout.rs:23-25 [shard_get_len]. *)
Definition shard_get_len (shard : N) : N :=
  N.shiftr (N.land shard (N.shiftl 15 60)) 60.

(** layout.rs:27-31 [shard_set_len]; [x & !m] is [N.ldiff x m]. *)
Definition shard_set_len (shard len : N) : option N :=
  if len <=? 12 then
    Some (N.lor (N.ldiff shard (N.shiftl 15 60)) (u64_trunc (N.shiftl len 60)))
  else None.

(** layout.rs:33-37 [shard_get]. *)
Definition shard_get (shard idx : N) : option N :=
  if idx <? 12 then
    let shift := idx * 5 in
    Some (N.shiftr (N.land shard (u64_trunc (N.shiftl 31 shift))) shift)
  else None.

(** layout.rs:39-44 [shard_set]. *)
Definition shard_set (shard idx val : N) : option N :=
  if val <? 32 then
    let shift := idx * 5 in
    Some (N.lor (N.ldiff shard (u64_trunc (N.shiftl 31 shift))) (u64_trunc (N.shiftl val shift)))
  else None.

(** layout.rs:46-48 [len]. *)
Definition tps_len (t : TailPageSizes) : N :=
  shard_get_len (fst t) + shard_get_len (snd t).

(** layout.rs:50-59 [get].  The outer option is a panic, the inner the result. *)
Definition tps_get (t : TailPageSizes) (idx : N) : option (option N) :=
  if tps_len t <=? idx then Some None
  else if idx <? 12 then Some <$> shard_get (fst t) idx
  else Some <$> shard_get (snd t) (idx - 12).

(** layout.rs:61-70 [push]. *)
Definition tps_push (t : TailPageSizes) (pow2 : N) : option TailPageSizes :=
  let idx := tps_len t in
  if idx <? 12 then
    s ← shard_set (fst t) idx pow2;
    s ← shard_set_len s (idx + 1);
    Some (s, snd t)
  else
    s ← shard_set (snd t) (idx - 12) pow2;
    s ← shard_set_len s (idx - 12 + 1);
    Some (fst t, s).

(** layout.rs:82-94, the iterator, collected: [(idx, entry)] pairs.  The
    iteration stops at the first [None]; [fuel] bounds the number of [next]
    calls and running out of it is an error. *)
Fixpoint tps_iter (t : TailPageSizes) (idx : N) (fuel : nat) : option (list (N * N)) :=
  match fuel with
  | O => None
  | S fuel =>
      match tps_get t idx with
      | None => None
      | Some None => Some []
      | Some (Some v) => cons (idx, v) <$> tps_iter t (idx + 1) fuel
      end
  end.
Definition tps_collect (t : TailPageSizes) : option (list (N * N)) := tps_iter t 0 26.

(** layout.rs:105-113, the loop: [leading_zeros == 64] iff [rem == 0], else
    [63 - leading_zeros] is the position of the highest set bit.  A u64 has at
    most 64 set bits, so fuel 65 suffices. *)
Fixpoint layout_loop (rem : N) (t : TailPageSizes) (fuel : nat) : option TailPageSizes :=
  match fuel with
  | O => None
  | S fuel =>
      if rem =? 0 then Some t
      else
        let pow2 := N.log2 rem in
        t' ← tps_push t pow2;
        layout_loop (N.ldiff rem (N.shiftl 1 pow2)) t' fuel
  end.

(** layout.rs:96-118 [ObjectLayout], [calc_object_layout] (lite).
    [count_limit] is 2^64 for lite and 2^32 for direct ([u32!(lpage_count)],
    direct object/mod.rs:46). *)
Definition calc_object_layout (spage lpage count_limit object_size : N)
  : option (N * TailPageSizes) :=
  let '(lpage_count, tail_size) := div_mod_pow2 object_size lpage in
  if lpage_count <? count_limit then
    t ← layout_loop (ceil_pow2 tail_size spage) tps_new 65;
    Some (lpage_count, t)
  else None.
