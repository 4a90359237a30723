(** Writing the parts of an object to its pages, and reading ranges back.

    Models libblobd-lite/src/op/write_object.rs, libblobd-lite/src/op/read_object.rs,
    libblobd-direct/src/op/write_object.rs, libblobd-direct/src/op/read_object.rs.

    Simplifications.  The device is a function from addresses to bytes
    ([read_at]/[write_at] of the device modules).  The page addresses of the
    object are lists; direct keeps them in memory
    (object/mod.rs:98-105), lite reads each one from the object's metadata
    record on the device when it needs it (read_object.rs:99-107,
    write_object.rs:104-121; the record's codec is in MetaModel.v).  Finding
    the object (bucket / map lookup) is modelled elsewhere. *)
From stdpp Require Import base numbers list option.
From Verif Require Import Util LayoutModel.
Open Scope N_scope.

(** The device. *)
Definition device : Type := N -> N.

(** [device.read_at(off, len)]. *)
Definition dev_read (d : device) (off len : N) : list N :=
  (fun i => d (off + N.of_nat i)) <$> seq 0 (N.to_nat len).

(** [device.write_at(off, data)]. *)
Definition dev_write (d : device) (off : N) (data : list N) : device :=
  fun a => if off <=? a then default (d a) (data !! N.to_nat (a - off)) else d a.

(** u64 addition without overflow checks (release profile; /repo/Cargo.toml
    does not set overflow-checks). *)
Definition u64_add (a b : N) : N := (a + b) mod 2 ^ 64.

(** What both libraries know about an object: lite [meta.size()],
    [off.lpage(i)], [off.tail_page(i)]; direct [ObjectMetadata]
    (object/mod.rs:98-105). *)
Record obj := { o_size : N; o_lpages : list N; o_tails : list N }.

(** Which library; the differences are spelled out where they matter. *)
Inductive flavour := Lite | Direct.

(** Bound on large page counts and indices: u64 in lite, [u32!] in direct
    (direct object/mod.rs:46, write_object.rs:81, read_object.rs:113). *)
Definition count_limit (f : flavour) : N :=
  match f with Lite => 2 ^ 64 | Direct => 2 ^ 32 end.

(** lite op/mod.rs, direct op/mod.rs [OpError], the variants used here. *)
Inductive op_err :=
| UnalignedWrite | InexactWriteLength | RangeOutOfBounds
| DataStreamError | DataStreamLengthMismatch | ObjectNotFound.

(** lite write_object.rs:74-95, direct write_object.rs:50-68, in order. *)
Definition write_check (lpage size offset len : N) : option op_err :=
  if negb (is_multiple_of_pow2 offset lpage) then Some UnalignedWrite
  else if 2 ^ lpage <? len then Some InexactWriteLength
  else if size <? u64_add offset len then Some RangeOutOfBounds
  else if negb (u64_add offset len =? N.min (u64_add offset (2 ^ lpage)) size) then
    Some InexactWriteLength
  else None.

(** lite write_object.rs:124-129, direct write_object.rs:91-96: the last tail
    page receives only the remaining bytes. *)
Fixpoint adjust_last (size : N) (l : list (N * N)) : list (N * N) :=
  match l with
  | [] => []
  | [(page_size, a)] =>
      let mod_ := size mod page_size in
      [(if negb (mod_ =? 0) then mod_ else page_size, a)]
  | x :: l => x :: adjust_last size l
  end.

(** lite write_object.rs:102-131, direct write_object.rs:79-99
    [write_dev_offsets]: (amount to write, page address); [None] is a panic. *)
Definition write_dev_offsets (f : flavour) (spage lpage : N) (o : obj) (offset : N)
  : option (list (N * N)) :=
  '(lpage_count, t) ← calc_object_layout spage lpage (count_limit f) (o_size o);
  let idx := div_pow2 offset lpage in
  if count_limit f <=? idx then None
  else if idx <? lpage_count then
    a ← o_lpages o !! N.to_nat idx;
    Some [(N.shiftl 1 lpage, a)]
  else
    l ← tps_collect t;
    l ← mapM (fun '(i, sz) => a ← o_tails o !! N.to_nat i; Some (N.shiftl 1 sz, a)) l;
    Some (adjust_last (o_size o) l).

(** An item of the client's data stream. *)
Inductive item := Data (bytes : list N) | Fail.

(** The local state of the write loop (lite write_object.rs:133-135, direct
    101-103): remaining stream, [written], [write_page_idx], [buf], plus the
    constants [len] and [write_dev_offsets]. *)
Record writer := {
  w_len : N;
  w_targets : list (N * N);
  w_stream : list item;
  w_written : N;
  w_page : nat;
  w_buf : list N;
}.

Inductive wresult := WOk | WErr (e : op_err) | WPanic.

(** A write call: still running, or returned. *)
Inductive wcall := Running (w : writer) | Returned (r : wresult).

(** The call up to the loop. *)
Definition write_start (f : flavour) (spage lpage : N) (o : obj)
  (offset len : N) (stream : list item) : wcall :=
  match write_check lpage (o_size o) offset len with
  | Some e => Returned (WErr e)
  | None =>
      match write_dev_offsets f spage lpage o offset with
      | None => Returned WPanic
      | Some ts => Running {| w_len := len; w_targets := ts; w_stream := stream;
                              w_written := 0; w_page := 0; w_buf := [] |}
      end
  end.

(** direct write_object.rs:137-141: the buffer written is padded to a whole
    number of small pages; lite write_object.rs:161-167 writes exactly the
    amount. *)
Definition padded_len (f : flavour) (spage amount : N) : N :=
  match f with
  | Lite => amount
  | Direct => N.max (2 ^ spage) (ceil_pow2 amount spage)
  end.

(** The body of the loop after the buffer has been extended (lite
    write_object.rs:146-178, direct 114-161).  [valid]: whether
    [lock_for_writing_if_still_valid(Incomplete)] succeeds now (direct 132-134;
    lite has no such check).  [junk]: contents of the uninitialised padding. *)
Definition write_continue (f : flavour) (spage : N) (valid : bool) (junk : N -> N)
  (d : device) (w : writer) (buf : list N) (stream : list item) : device * wcall :=
  let buf_len := N.of_nat (length buf) in
  if w_len w <? w_written w + buf_len then (d, Returned (WErr DataStreamLengthMismatch))
  else
    match w_targets w !! w_page w with
    | None => (d, Returned WPanic)
    | Some (amount, addr) =>
        if buf_len <? amount then
          (d, Running {| w_len := w_len w; w_targets := w_targets w; w_stream := stream;
                         w_written := w_written w; w_page := w_page w; w_buf := buf |})
        else if match f with Lite => false | Direct => negb valid end then
          (d, Returned (WErr ObjectNotFound))
        else
          let data := take (N.to_nat amount) buf ++
            ((fun i => junk (N.of_nat i)) <$> seq 0 (N.to_nat (padded_len f spage amount - amount))) in
          (dev_write d addr data,
           Running {| w_len := w_len w; w_targets := w_targets w; w_stream := stream;
                      w_written := w_written w + amount; w_page := S (w_page w);
                      w_buf := drop (N.to_nat amount) buf |})
    end.

(** One iteration of the loop (lite write_object.rs:136-178, direct 104-161)
    and, when the loop is left, the rest of the call (lite 179-188, direct
    162-173).  The stream is assumed to go on returning [None] once it has
    ended. *)
Definition write_step (f : flavour) (spage : N) (valid : bool) (junk : N -> N)
  (d : device) (w : writer) : device * wcall :=
  match w_stream w with
  | Data chunk :: stream => write_continue f spage valid junk d w (w_buf w ++ chunk) stream
  | Fail :: _ => (d, Returned (WErr DataStreamError))
  | [] =>
      match w_buf w with
      | [] => (d, Returned (if negb (w_written w =? w_len w)
                            then WErr DataStreamLengthMismatch else WOk))
      | buf => write_continue f spage valid junk d w buf []
      end
  end.

(** A step of a call. *)
Definition call_step (f : flavour) (spage : N) (valid : bool) (junk : N -> N)
  (d : device) (c : wcall) : device * wcall :=
  match c with
  | Running w => write_step f spage valid junk d w
  | Returned r => (d, Returned r)
  end.

(** A single call run for as many steps as there are oracle values. *)
Definition call_run (f : flavour) (spage : N) (s : device * wcall) (vjs : list (bool * (N -> N)))
  : device * wcall :=
  fold_left (fun s vj => call_step f spage (fst vj) (snd vj) (fst s) (snd s)) vjs s.

(** Several calls sharing the device; a schedule says which call makes the next
    step (with the oracle values for that step). *)
Record event := { e_call : nat; e_valid : bool; e_junk : N -> N }.

Definition sys_step (f : flavour) (spage : N) (s : device * list wcall) (e : event)
  : device * list wcall :=
  match snd s !! e_call e with
  | None => s
  | Some c =>
      let '(d', c') := call_step f spage (e_valid e) (e_junk e) (fst s) c in
      (d', <[e_call e := c']> (snd s))
  end.
Definition sys_run (f : flavour) (spage : N) (s : device * list wcall) (es : list event)
  : device * list wcall := fold_left (sys_step f spage) es s.

(** ** Reading *)

(** lite read_object.rs:67-69, direct read_object.rs:89-91; [None] = accepted. *)
Definition read_check (f : flavour) (size start fin : N) : option op_err :=
  match f with
  | Lite => if (fin <=? start) || (size <=? start) || (size <? fin)
            then Some RangeOutOfBounds else None
  | Direct => if (fin <? start) || (size <? start) || (size <? fin)
              then Some RangeOutOfBounds else None
  end.

(** lite read_object.rs:91-98, direct 118-125: skip the tail pages that end at
    or before [start]. *)
Fixpoint skip_tails (start accum idx : N) (tails : list (N * N)) : N :=
  match tails with
  | [] => idx
  | (_, sz) :: tails =>
      let accum := accum + N.shiftl 1 sz in
      if start <? accum then idx else skip_tails start accum (idx + 1) tails
  end.

(** lite read_object.rs:86-99, direct 113-126; [None] is a panic. *)
Definition read_start_idx (f : flavour) (lpage lpage_count : N) (t : TailPageSizes) (start : N)
  : option N :=
  let idx := div_pow2 start lpage in
  if count_limit f <=? idx then None
  else if lpage_count <=? idx then
    l ← tps_collect t;
    Some (skip_tails start (idx * N.shiftl 1 lpage) idx l)
  else Some idx.

(** lite read_object.rs:102-113, direct 129-141: address and size exponent of
    page [idx]; [None] is a panic ([u8!], the assertion, or an index out of
    bounds). *)
Definition read_page (lpage lpage_count : N) (t : TailPageSizes) (o : obj) (idx : N)
  : option (N * N) :=
  if idx <? lpage_count then
    a ← o_lpages o !! N.to_nat idx; Some (a, lpage)
  else
    let tail_idx := idx - lpage_count in
    if 256 <=? tail_idx then None
    else if negb (tail_idx <? tps_len t) then None
    else
      a ← o_tails o !! N.to_nat tail_idx;
      r ← tps_get t tail_idx;
      p ← r;
      Some (a, p).

(** direct read_object.rs:43-58 [unaligned_read].  Second component: the device
    range actually read.  [None]: [copy_within] out of range. *)
Definition unaligned_read (spage : N) (d : device) (offset len : N) : option (list N * (N * N)) :=
  let a_start := floor_pow2 offset spage in
  let a_end := N.max (ceil_pow2 (offset + len) spage) (2 ^ spage) in
  let buf := dev_read d a_start (a_end - a_start) in
  if N.of_nat (length buf) <? offset - a_start + len then None
  else Some (take (N.to_nat len) (drop (N.to_nat (offset - a_start)) buf), (a_start, a_end - a_start)).

(** The local state of the read stream. *)
Record reader := {
  r_obj : obj; r_lpage_count : N; r_tails : TailPageSizes;
  r_idx : N; r_next : N; r_end : N;
}.

Inductive rcall :=
| RNext (r : reader)       (* suspended before the next iteration *)
| RDone                    (* stream ended *)
| RErr (e : op_err)
| RPanic.

(** lite read_object.rs:61-86 and direct 74-113: everything up to the loop.
    [fin = None] means to the end of the object. *)
Definition read_start (f : flavour) (spage lpage : N) (o : obj) (start : N) (fin : option N) : rcall :=
  let fin := default (o_size o) fin in
  match calc_object_layout spage lpage (count_limit f) (o_size o) with
  | None => RPanic
  | Some (lpage_count, t) =>
      match read_check f (o_size o) start fin with
      | Some e => RErr e
      | None =>
          (* direct read_object.rs:101-110 *)
          if match f with Lite => false | Direct => (start =? fin) || (start =? o_size o) end
          then RDone
          else
            match read_start_idx f lpage lpage_count t start with
            | None => RPanic
            | Some idx => RNext {| r_obj := o; r_lpage_count := lpage_count; r_tails := t;
                                   r_idx := idx; r_next := start; r_end := fin |}
            end
      end
  end.

(** One iteration of the loop: lite read_object.rs:101-128.  Yields the chunk and
    the device range read. *)
Definition lite_read_step (lpage : N) (d : device) (r : reader) : option (list N * (N * N)) * rcall :=
  if negb (r_next r <? r_end r) then (None, RDone)
  else
    match read_page lpage (r_lpage_count r) (r_tails r) (r_obj r) (r_idx r) with
    | None => (None, RPanic)
    | Some (addr, pow2) =>
        let offset_within_page := mod_pow2 (r_next r) pow2 in
        let chunk_len := N.min (r_end r - r_next r) (N.shiftl 1 pow2 - offset_within_page) in
        (Some (dev_read d (addr + offset_within_page) chunk_len, (addr + offset_within_page, chunk_len)),
         RNext {| r_obj := r_obj r; r_lpage_count := r_lpage_count r; r_tails := r_tails r;
                  r_idx := r_idx r + 1; r_next := r_next r + chunk_len; r_end := r_end r |})
    end.

(** One iteration of the loop: direct read_object.rs:128-163.  [valid1],
    [valid2]: results of the two [object_is_still_valid] checks. *)
Definition direct_read_step (spage lpage stream_buffer_size : N) (valid1 valid2 : bool)
  (d : device) (r : reader) : option (list N * (N * N)) * rcall :=
  if negb (r_next r <? r_end r) then (None, RDone)
  else
    match read_page lpage (r_lpage_count r) (r_tails r) (r_obj r) (r_idx r) with
    | None => (None, RPanic)
    | Some (addr, pow2) =>
        let offset_within_page := mod_pow2 (r_next r) pow2 in
        let rem_within_page := N.shiftl 1 pow2 - offset_within_page in
        let chunk_len := N.min (N.min stream_buffer_size (r_end r - r_next r)) rem_within_page in
        if negb valid1 then (None, RErr ObjectNotFound)
        else
          match unaligned_read spage d (addr + offset_within_page) chunk_len with
          | None => (None, RPanic)
          | Some (data, rng) =>
              if negb (N.of_nat (length data) =? chunk_len) then (None, RPanic)
              else if negb valid2 then (None, RErr ObjectNotFound)
              else
                (Some (data, rng),
                 RNext {| r_obj := r_obj r; r_lpage_count := r_lpage_count r; r_tails := r_tails r;
                          r_idx := if chunk_len =? rem_within_page then r_idx r + 1 else r_idx r;
                          r_next := r_next r + chunk_len; r_end := r_end r |})
          end
    end.

(** Polling a stream to its end on a device that does not change meanwhile:
    the chunks, with the device ranges read, and how it ended ([None]: not
    within [fuel] iterations). *)
Fixpoint drain (step : reader -> option (list N * (N * N)) * rcall) (fuel : nat) (c : rcall)
  : option (list (list N * (N * N)) * rcall) :=
  match c with
  | RNext r =>
      match fuel with
      | O => None
      | S fuel =>
          let '(out, c') := step r in
          match drain step fuel c' with
          | None => None
          | Some (outs, c'') => Some (match out with Some x => x :: outs | None => outs end, c'')
          end
      end
  | c => Some ([], c)
  end.
