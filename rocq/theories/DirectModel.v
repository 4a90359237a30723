(** A whole partition of libblobd-direct: all operations running concurrently
    with each other and with the index flusher.

    Models libblobd-direct/src/op/*.rs, object/mod.rs:98-187 and ctx.rs on top
    of the allocator (BuddyModel), the page I/O (PageIOModel) and the object
    index (TuplesModel).  One call is one process; between two of its steps any
    other process may run.  A step never contains two accesses to shared state
    that the code makes outside a common lock, except where a comment says so. *)
From stdpp Require Import base numbers list option gmap sets fin_sets.
From Verif Require Import Util Bytes BuddyModel LayoutModel PageIOModel TuplesModel TokenModel.
Open Scope N_scope.

(** partition/mod.rs:29-59: page sizes and where the heap is (offsets within the
    partition). *)
Record dcfg := { dc_spage : N; dc_lpage : N; dc_base : N; dc_heap : N }.

(** object/mod.rs:98-107 [ObjectMetadata]. *)
Record dmeta := {
  m_size : N;
  m_created : N;          (* microseconds since 1970; earlier clocks are not modelled *)
  m_key : list N;
  m_lpages : list N;
  m_tails : list N;
}.
Definition obj_of (m : dmeta) : obj := {| o_size := m_size m; o_lpages := m_lpages m; o_tails := m_tails m |}.

(** create_object.rs:67-70: the rmp-serde encoding, an array of the five fields
    (rmp-serde writes structs as arrays, [Vec<u8>] and [Vec<u64>] as arrays of
    integers in their shortest form). *)
Definition mp_vec_u64 (l : list N) : list N := mp_array (N.of_nat (length l)) ++ concat (map mp_uint l).
Definition meta_encode (m : dmeta) : list N :=
  mp_array 5 ++ mp_uint (m_size m) ++ mp_uint (m_created m) ++ mp_vec_u8 (m_key m)
  ++ mp_vec_u64 (m_lpages m) ++ mp_vec_u64 (m_tails m).

(** create_object.rs:74-77. *)
Definition metadata_page_size (spage msize : N) : N := N.max (2 ^ spage) (ceil_pow2 msize spage).
(** create_object.rs:85. *)
Definition metadata_page_pow2 (spage msize : N) : N := N.log2 (metadata_page_size spage msize).

(** object/mod.rs:109-120 [ObjectInner]; an [Arc] is an index into the list of
    all objects made so far.  [b_readers] is the number of read guards of the
    lock; the write guard is taken and dropped at once.  [b_mpage] (where the
    metadata record is and the exponent recorded in the index) is book-keeping
    for the proofs and read by no step. *)
Record dobj := {
  b_id : N;
  b_state : N;
  b_readers : nat;
  b_meta : dmeta;
  b_msize : N;
  b_mpage : N * N;
}.
Definition set_b_state (o : dobj) (st : N) : dobj :=
  {| b_id := b_id o; b_state := st; b_readers := b_readers o; b_meta := b_meta o; b_msize := b_msize o; b_mpage := b_mpage o |}.
Definition set_b_readers (o : dobj) (n : nat) : dobj :=
  {| b_id := b_id o; b_state := b_state o; b_readers := n; b_meta := b_meta o; b_msize := b_msize o; b_mpage := b_mpage o |}.

(** metrics.rs: the counters the operations change, as integers so that a value
    below zero (wrapping in the code) is visible. *)
Record dmetrics := {
  mt_create : Z; mt_write : Z; mt_commit : Z; mt_delete : Z; mt_inspect : Z; mt_read : Z;
  mt_incomplete : Z; mt_committed : Z; mt_meta_bytes : Z; mt_data_bytes : Z;
}.
Definition met_zero : dmetrics :=
  {| mt_create := 0; mt_write := 0; mt_commit := 0; mt_delete := 0; mt_inspect := 0; mt_read := 0;
     mt_incomplete := 0; mt_committed := 0; mt_meta_bytes := 0; mt_data_bytes := 0 |}.
Definition met_add (a b : dmetrics) : dmetrics :=
  {| mt_create := mt_create a + mt_create b; mt_write := mt_write a + mt_write b;
     mt_commit := mt_commit a + mt_commit b; mt_delete := mt_delete a + mt_delete b;
     mt_inspect := mt_inspect a + mt_inspect b; mt_read := mt_read a + mt_read b;
     mt_incomplete := mt_incomplete a + mt_incomplete b; mt_committed := mt_committed a + mt_committed b;
     mt_meta_bytes := mt_meta_bytes a + mt_meta_bytes b; mt_data_bytes := mt_data_bytes a + mt_data_bytes b |}%Z.

(** ctx.rs [Ctx]: what all calls share.  [h_used] (the ids drawn so far) is
    book-keeping for the assumption that random ids do not repeat.  The index
    area of the device is [sy_disk (h_tup _)]; [h_dev] is the heap. *)
Record shared := {
  h_alloc : Allocator;
  h_dev : device;
  h_tup : tsys;
  h_objs : list dobj;
  h_com : gmap (list N) nat;      (* committed_objects *)
  h_inc : gmap N nat;             (* incomplete_objects *)
  h_met : dmetrics;
  h_used : gset N;
}.
Definition set_alloc (h : shared) (a : Allocator) : shared :=
  {| h_alloc := a; h_dev := h_dev h; h_tup := h_tup h; h_objs := h_objs h; h_com := h_com h; h_inc := h_inc h; h_met := h_met h; h_used := h_used h |}.
Definition set_dev (h : shared) (d : device) : shared :=
  {| h_alloc := h_alloc h; h_dev := d; h_tup := h_tup h; h_objs := h_objs h; h_com := h_com h; h_inc := h_inc h; h_met := h_met h; h_used := h_used h |}.
Definition set_tup (h : shared) (t : tsys) : shared :=
  {| h_alloc := h_alloc h; h_dev := h_dev h; h_tup := t; h_objs := h_objs h; h_com := h_com h; h_inc := h_inc h; h_met := h_met h; h_used := h_used h |}.
Definition set_objs (h : shared) (l : list dobj) : shared :=
  {| h_alloc := h_alloc h; h_dev := h_dev h; h_tup := h_tup h; h_objs := l; h_com := h_com h; h_inc := h_inc h; h_met := h_met h; h_used := h_used h |}.
Definition set_com (h : shared) (m : gmap (list N) nat) : shared :=
  {| h_alloc := h_alloc h; h_dev := h_dev h; h_tup := h_tup h; h_objs := h_objs h; h_com := m; h_inc := h_inc h; h_met := h_met h; h_used := h_used h |}.
Definition set_inc (h : shared) (m : gmap N nat) : shared :=
  {| h_alloc := h_alloc h; h_dev := h_dev h; h_tup := h_tup h; h_objs := h_objs h; h_com := h_com h; h_inc := m; h_met := h_met h; h_used := h_used h |}.
Definition bump (h : shared) (m : dmetrics) : shared :=
  {| h_alloc := h_alloc h; h_dev := h_dev h; h_tup := h_tup h; h_objs := h_objs h; h_com := h_com h; h_inc := h_inc h; h_met := met_add (h_met h) m; h_used := h_used h |}.
Definition use_id (h : shared) (id : N) : shared :=
  {| h_alloc := h_alloc h; h_dev := h_dev h; h_tup := h_tup h; h_objs := h_objs h; h_com := h_com h; h_inc := h_inc h; h_met := h_met h; h_used := {[id]} ∪ h_used h |}.

(** The API: op/*.rs inputs and outputs. *)
Inductive dop :=
| OCreate (key : list N) (size : N)
| OWrite (tok offset len : N) (stream : list item)
| OCommit (tok : N) (if_not_exists : bool)
| ODelete (key : list N) (id : option N)
| OInspect (key : list N) (id : option N)
| ORead (key : list N) (id : option N) (start : N) (fin : option N) (stream_buffer_size : N).

Inductive dresp :=
| RCreated (tok : N)
| RWritten
| RCommitted (id : option N)
| RDeleted
| RInspected (id size created : N)
| RReading (id size start fin : N)      (* the stream follows as chunks *)
| RFailed (e : op_err)
| RPanicked.

(** What a process makes visible. *)
Inductive vis :=
| VRet (r : dresp)
| VChunk (data : list N)                (* an item of a read stream *)
| VEnd (r : rcall).                     (* the read stream ended *)

(** What follows [reap_object]: commit_object.rs:211-232 or
    delete_object.rs:58-61. *)
Inductive cont :=
| KCommit (new_id : option N) (deleted : bool)
| KDelete.

(** Where a call is. *)
Inductive pc :=
| PStart (op : dop)
(* create_object.rs *)
| PCreate1 (key : list N) (size : N) (lpages tails : list N)   (* before 59 *)
| PCreate2 (m : dmeta) (msize moff id : N)                     (* write of 92 in flight *)
| PCreate3 (m : dmeta) (msize moff id : N)                     (* before 94 *)
| PCreate4 (m : dmeta) (msize moff id : N) (k : nat)           (* awaiting in 94 *)
(* write_object.rs *)
| PWrite1 (r : nat) (offset : N) (w : writer)                          (* before 104 *)
| PWrite2 (r : nat) (offset : N) (w : writer) (buf : list N) (st : list item)   (* before object/mod.rs:173 *)
| PWrite3 (r : nat) (offset : N) (w : writer) (buf : list N) (st : list item)   (* before object/mod.rs:174 *)
| PWrite4 (r : nat) (offset : N) (w : writer) (buf : list N) (st : list item)   (* write of 145 in flight *)
| PWrite5 (r : nat) (offset : N) (w : writer)                          (* before 159 *)
(* commit_object.rs *)
| PCommit1 (r : nat) (tok : N) (ine : bool)    (* before object/mod.rs:163 *)
| PCommit2 (r : nat) (tok : N) (ine : bool)    (* awaiting object/mod.rs:164 *)
| PCommit3 (r : nat) (tok : N) (ine : bool)    (* before 41 *)
| PCommit4 (tok new_id : N) (existing : option nat)            (* before 55 *)
| PCommit5 (tok : N) (k : nat) (new_id : N) (existing : option nat)      (* awaiting in 55-61 *)
(* delete_object.rs:10-34 [reap_object] *)
| PReap1 (r : nat) (c : cont)                                  (* before 11 *)
| PReap2 (r : nat) (t : tuple) (k : nat) (c : cont)            (* awaiting in 11 *)
| PReap3 (r : nat) (c : cont)                                  (* before 28 *)
| PFinish (c : cont)
(* read_object.rs *)
| PRead (r : nat) (sbs : N) (rd : reader)
| PDone.

(** Values the environment chooses in a step: a random id, the clock, the
    contents of an uninitialised buffer. *)
Record oracle := { or_id : N; or_time : N; or_junk : N -> N }.

Notation out := (shared * pc * option vis)%type.
Definition ret (h : shared) (r : dresp) : option out := Some (h, PDone, Some (VRet r)).
Definition go (h : shared) (p : pc) : option out := Some (h, p, None).

(** A call of the index up to its await (TuplesModel); the number names the
    signal.  [None]: panic. *)
Definition tup_call (y : tsys) (c : tcall) : option tsys :=
  s ← call_exec (sy_state y) (sy_calls y) c;
  Some {| sy_state := s; sy_flush := sy_flush y; sy_disk := sy_disk y; sy_calls := S (sy_calls y); sy_acked := sy_acked y |}.

(** create_object.rs:48-57: several allocations under one lock. *)
Fixpoint alloc_list (a : Allocator) (sizes : list N) : Allocator * option (list N) :=
  match sizes with
  | [] => (a, Some [])
  | sz :: sizes =>
      match allocate a sz with
      | (a, Ok off) => let '(a, r) := alloc_list a sizes in (a, cons off <$> r)
      | (a, _) => (a, None)
      end
  end.

(** delete_object.rs:13-26: the pages of an object, as they are released. *)
Definition data_pages (c : dcfg) (m : dmeta) : option (list (N * N)) :=
  '(_, t) ← calc_object_layout (dc_spage c) (dc_lpage c) (2 ^ 32) (m_size m);
  l ← tps_collect t;
  ts ← mapM (fun '(i, sz) => a ← m_tails m !! N.to_nat i; Some (a, sz)) l;
  Some (((fun a => (a, dc_lpage c)) <$> m_lpages m) ++ ts).

(** [id.is_none() || Some(o.id()) == id]. *)
Definition id_matches (id : option N) (o : dobj) : bool :=
  match id with None => true | Some i => i =? b_id o end.
(** DashMap [get] with the filter (inspect_object.rs:25-32,
    read_object.rs:74-81, delete_object.rs:48-53). *)
Definition find_committed (h : shared) (key : list N) (id : option N) : option (nat * dobj) :=
  r ← h_com h !! key;
  o ← h_objs h !! r;
  if id_matches id o then Some (r, o) else None.

(** write_object.rs:116-130, before the lock. *)
Definition poll (h : shared) (r : nat) (offset : N) (w : writer) (buf : list N) (st : list item) : option out :=
  let buf_len := N.of_nat (length buf) in
  if w_len w <? w_written w + buf_len then ret h (RFailed DataStreamLengthMismatch)
  else
    match w_targets w !! w_page w with
    | None => ret h RPanicked
    | Some (amount, _) =>
        if buf_len <? amount then
          go h (PWrite1 r offset {| w_len := w_len w; w_targets := w_targets w; w_stream := st;
                             w_written := w_written w; w_page := w_page w; w_buf := buf |})
        else go h (PWrite2 r offset w buf st)
    end.

Definition met_create_done (msize size : N) : dmetrics :=
  {| mt_create := 1; mt_write := 0; mt_commit := 0; mt_delete := 0; mt_inspect := 0; mt_read := 0;
     mt_incomplete := 1; mt_committed := 0; mt_meta_bytes := Z.of_N msize; mt_data_bytes := Z.of_N size |}.
Definition met_one_write : dmetrics :=
  {| mt_create := 0; mt_write := 1; mt_commit := 0; mt_delete := 0; mt_inspect := 0; mt_read := 0;
     mt_incomplete := 0; mt_committed := 0; mt_meta_bytes := 0; mt_data_bytes := 0 |}.
Definition met_one_inspect : dmetrics :=
  {| mt_create := 0; mt_write := 0; mt_commit := 0; mt_delete := 0; mt_inspect := 1; mt_read := 0;
     mt_incomplete := 0; mt_committed := 0; mt_meta_bytes := 0; mt_data_bytes := 0 |}.
Definition met_one_read : dmetrics :=
  {| mt_create := 0; mt_write := 0; mt_commit := 0; mt_delete := 0; mt_inspect := 0; mt_read := 1;
     mt_incomplete := 0; mt_committed := 0; mt_meta_bytes := 0; mt_data_bytes := 0 |}.
Definition met_reaped (msize size : N) : dmetrics :=
  {| mt_create := 0; mt_write := 0; mt_commit := 0; mt_delete := 0; mt_inspect := 0; mt_read := 0;
     mt_incomplete := 0; mt_committed := 0; mt_meta_bytes := - Z.of_N msize; mt_data_bytes := - Z.of_N size |}.
Definition met_cont (c : cont) : dmetrics :=
  match c with
  | KCommit new deleted =>
      {| mt_create := 0; mt_write := 0; mt_commit := 1; mt_delete := 0; mt_inspect := 0; mt_read := 0;
         mt_incomplete := -1;
         mt_committed := match new with Some _ => if deleted then 0 else 1 | None => 0 end;
         mt_meta_bytes := 0; mt_data_bytes := 0 |}
  | KDelete =>
      {| mt_create := 0; mt_write := 0; mt_commit := 0; mt_delete := 1; mt_inspect := 0; mt_read := 0;
         mt_incomplete := 0; mt_committed := -1; mt_meta_bytes := 0; mt_data_bytes := 0 |}
  end.
Definition cont_resp (c : cont) : dresp :=
  match c with KCommit new _ => RCommitted new | KDelete => RDeleted end.

(** One step of a call.  [None]: the call is waiting.  Metrics that are updated
    one after another at the end of an operation are updated in one step. *)
Definition pstep (c : dcfg) (o : oracle) (h : shared) (p : pc) : option out :=
  match p with
  (** ** create_object.rs:43-57 *)
  | PStart (OCreate key size) =>
      match calc_object_layout (dc_spage c) (dc_lpage c) (2 ^ 32) size with
      | None => ret h RPanicked
      | Some (lc, t) =>
          match tps_collect t with
          | None => ret h RPanicked
          | Some l =>
              let sizes := replicate (N.to_nat lc) (N.shiftl 1 (dc_lpage c)) ++ map (fun '(_, sz) => N.shiftl 1 sz) l in
              match alloc_list (h_alloc h) sizes with
              | (a, None) => ret (set_alloc h a) RPanicked
              | (a, Some offs) =>
                  go (set_alloc h a) (PCreate1 key size (take (N.to_nat lc) offs) (drop (N.to_nat lc) offs))
              end
          end
      end
  (** 59-90 *)
  | PCreate1 key size lpages tails =>
      let m := {| m_size := size; m_created := or_time o; m_key := key; m_lpages := lpages; m_tails := tails |} in
      let msize := N.of_nat (length (meta_encode m)) in
      if 2 ^ dc_lpage c <? msize then ret h RPanicked else
      match allocate (h_alloc h) msize with
      | (a, Ok off) => go (use_id (set_alloc h a) (or_id o)) (PCreate2 m msize off (or_id o))
      | (a, _) => ret (set_alloc h a) RPanicked
      end
  (** 92 *)
  | PCreate2 m msize moff id =>
      let pad := metadata_page_size (dc_spage c) msize - msize in
      go (set_dev h (dev_write (h_dev h) moff
            (meta_encode m ++ ((fun i => or_junk o (N.of_nat i)) <$> seq 0 (N.to_nat pad)))))
         (PCreate3 m msize moff id)
  (** 81-86, 94 *)
  | PCreate3 m msize moff id =>
      match tup_call (h_tup h) (CInsert {| t_state := ds_incomplete; t_id := id; t_off := moff;
                                           t_pow2 := metadata_page_pow2 (dc_spage c) msize |}) with
      | None => ret h RPanicked
      | Some y => go (set_tup h y) (PCreate4 m msize moff id (sy_calls (h_tup h)))
      end
  (** 97-138 *)
  | PCreate4 m msize moff id k =>
      if bool_decide (k ∈ sy_acked (h_tup h)) then
        match h_inc h !! id with
        | Some _ => ret h RPanicked
        | None =>
            ret (bump (set_inc (set_objs h (h_objs h ++
                   [{| b_id := id; b_state := ds_incomplete; b_readers := 0; b_meta := m; b_msize := msize;
                       b_mpage := (moff, metadata_page_pow2 (dc_spage c) msize) |}]))
                   (<[id := length (h_objs h)]> (h_inc h)))
                   (met_create_done msize (m_size m)))
                (RCreated id)
        end
      else None
  (** ** write_object.rs:47-103 *)
  | PStart (OWrite tok offset len stream) =>
      match h_inc h !! tok with
      | None => ret h (RFailed ObjectNotFound)
      | Some r =>
          match h_objs h !! r with
          | None => None
          | Some ob =>
              match write_check (dc_lpage c) (m_size (b_meta ob)) offset len with
              | Some e => ret h (RFailed e)
              | None =>
                  let h := bump h met_one_write in
                  match write_start Direct (dc_spage c) (dc_lpage c) (obj_of (b_meta ob)) offset len stream with
                  | Running w => go h (PWrite1 r offset w)
                  | Returned _ => ret h RPanicked
                  end
              end
          end
      end
  (** 104-127, 162-173 *)
  | PWrite1 r offset w =>
      match w_stream w with
      | Data chunk :: st => poll h r offset w (w_buf w ++ chunk) st
      | Fail :: _ => ret h (RFailed DataStreamError)
      | [] =>
          match w_buf w with
          | [] => ret h (if negb (w_written w =? w_len w) then RFailed DataStreamLengthMismatch else RWritten)
          | buf => poll h r offset w buf []
          end
      end
  (** object/mod.rs:173.  A fair lock would also wait for a waiting writer; that
      only removes interleavings. *)
  | PWrite2 r offset w buf st =>
      match h_objs h !! r with
      | None => None
      | Some ob => go (set_objs h (<[r := set_b_readers ob (S (b_readers ob))]> (h_objs h))) (PWrite3 r offset w buf st)
      end
  (** object/mod.rs:174-176 *)
  | PWrite3 r offset w buf st =>
      match h_objs h !! r with
      | None => None
      | Some ob =>
          if b_state ob =? ds_incomplete then go h (PWrite4 r offset w buf st)
          else ret (set_objs h (<[r := set_b_readers ob (pred (b_readers ob))]> (h_objs h))) (RFailed ObjectNotFound)
      end
  (** 137-158 *)
  | PWrite4 r offset w buf st =>
      match write_continue Direct (dc_spage c) true (or_junk o) (h_dev h) w buf st with
      | (d, Running w) => go (set_dev h d) (PWrite5 r offset w)
      | (_, Returned _) => None
      end
  (** 159 *)
  | PWrite5 r offset w =>
      match h_objs h !! r with
      | None => None
      | Some ob => go (set_objs h (<[r := set_b_readers ob (pred (b_readers ob))]> (h_objs h))) (PWrite1 r offset w)
      end
  (** ** commit_object.rs:29-35 *)
  | PStart (OCommit tok ine) =>
      match h_inc h !! tok with
      | None => ret h (RFailed ObjectNotFound)
      | Some r => go (set_inc h (delete tok (h_inc h))) (PCommit1 r tok ine)
      end
  (** object/mod.rs:163 *)
  | PCommit1 r tok ine =>
      match h_objs h !! r with
      | None => None
      | Some ob => go (set_objs h (<[r := set_b_state ob ds_committed]> (h_objs h))) (PCommit2 r tok ine)
      end
  (** object/mod.rs:164-165 *)
  | PCommit2 r tok ine =>
      match h_objs h !! r with
      | None => None
      | Some ob => if (b_readers ob =? 0)%nat then go h (PCommit3 r tok ine) else None
      end
  (** 41-53: under the lock of the map's entry *)
  | PCommit3 r tok ine =>
      match h_objs h !! r with
      | None => None
      | Some ob =>
          match h_com h !! m_key (b_meta ob), ine with
          | Some _, true => go h (PReap1 r (KCommit None true))
          | existing, _ =>
              let new_obj := {| b_id := or_id o; b_state := b_state ob; b_readers := 0; b_meta := b_meta ob;
                                b_msize := b_msize ob; b_mpage := b_mpage ob |} in
              go (use_id (set_com (set_objs h (h_objs h ++ [new_obj]))
                            (<[m_key (b_meta ob) := length (h_objs h)]> (h_com h))) (or_id o))
                 (PCommit4 tok (or_id o) existing)
          end
      end
  (** 54-60 *)
  | PCommit4 tok new_id existing =>
      match tup_call (h_tup h) (CUpdate tok new_id ds_committed) with
      | None => ret h RPanicked
      | Some y => go (set_tup h y) (PCommit5 tok (sy_calls (h_tup h)) new_id existing)
      end
  (** 61-70 *)
  | PCommit5 tok k new_id existing =>
      if bool_decide (k ∈ sy_acked (h_tup h)) then
        match existing with
        | Some r => go h (PReap1 r (KCommit (Some new_id) true))
        | None => go h (PFinish (KCommit (Some new_id) false))
        end
      else None
  (** ** delete_object.rs:44-53 *)
  | PStart (ODelete key id) =>
      match find_committed h key id with
      | None => ret h (RFailed ObjectNotFound)
      | Some (r, _) => go (set_com h (delete key (h_com h))) (PReap1 r KDelete)
      end
  (** delete_object.rs:11; tuples.rs:130-145 returns the removed tuple *)
  | PReap1 r k =>
      match h_objs h !! r with
      | None => None
      | Some ob =>
          match delete_object (sy_state (h_tup h)) (sy_calls (h_tup h)) (b_id ob), tup_call (h_tup h) (CDelete (b_id ob)) with
          | Some (_, t), Some y => go (set_tup h y) (PReap2 r t (sy_calls (h_tup h)) k)
          | _, _ => ret h RPanicked
          end
      end
  (** delete_object.rs:13-26 *)
  | PReap2 r t n k =>
      if bool_decide (n ∈ sy_acked (h_tup h)) then
        match h_objs h !! r with
        | None => None
        | Some ob =>
            match data_pages c (b_meta ob) with
            | None => ret h RPanicked
            | Some l =>
                match release_all (h_alloc h) (l ++ [(t_off t, t_pow2 t)]) with
                | Ok a => go (set_alloc h a) (PReap3 r k)
                | _ => ret h RPanicked
                end
            end
        end
      else None
  (** delete_object.rs:28-33 *)
  | PReap3 r k =>
      match h_objs h !! r with
      | None => None
      | Some ob => go (bump h (met_reaped (b_msize ob) (m_size (b_meta ob)))) (PFinish k)
      end
  (** commit_object.rs:72-93, delete_object.rs:58-61 *)
  | PFinish k => ret (bump h (met_cont k)) (cont_resp k)
  (** ** inspect_object.rs:25-38 *)
  | PStart (OInspect key id) =>
      match find_committed h key id with
      | None => ret h (RFailed ObjectNotFound)
      | Some (_, ob) => ret (bump h met_one_inspect) (RInspected (b_id ob) (m_size (b_meta ob)) (m_created (b_meta ob)))
      end
  (** ** read_object.rs:74-172 *)
  | PStart (ORead key id start fin sbs) =>
      match find_committed h key id with
      | None => ret h (RFailed ObjectNotFound)
      | Some (r, ob) =>
          let resp := RReading (b_id ob) (m_size (b_meta ob)) start (default (m_size (b_meta ob)) fin) in
          match read_start Direct (dc_spage c) (dc_lpage c) (obj_of (b_meta ob)) start fin with
          | RErr e => ret h (RFailed e)
          | RPanic => ret h RPanicked
          | RNext rd => Some (bump h met_one_read, PRead r sbs rd, Some (VRet resp))
          | RDone =>
              (* an empty stream: the caller finds its end when it polls it *)
              Some (bump h met_one_read,
                    PRead r sbs {| r_obj := obj_of (b_meta ob); r_lpage_count := 0; r_tails := tps_new;
                                   r_idx := 0; r_next := start; r_end := start |}, Some (VRet resp))
          end
      end
  (** One iteration of the stream.  Simplification: both validity checks are
      made in the step that reads the device (the state of a committed object
      never changes). *)
  | PRead r sbs rd =>
      match h_objs h !! r with
      | None => None
      | Some ob =>
          let valid := b_state ob =? ds_committed in
          match direct_read_step (dc_spage c) (dc_lpage c) sbs valid valid (h_dev h) rd with
          | (Some (data, _), RNext rd) => Some (h, PRead r sbs rd, Some (VChunk data))
          | (_, e) => Some (h, PDone, Some (VEnd e))
          end
      end
  | PDone => None
  end.

(** The device range a call is writing to, if its write is in flight. *)
Definition in_flight (c : dcfg) (p : pc) : option (N * N) :=
  match p with
  | PCreate2 _ msize moff _ => Some (moff, metadata_page_size (dc_spage c) msize)
  | PWrite4 _ _ w _ _ =>
      '(amount, addr) ← w_targets w !! w_page w; Some (addr, padded_len Direct (dc_spage c) amount)
  | _ => None
  end.

(** ** The partition *)
Record dsys := { y_sh : shared; y_procs : list pc }.

Inductive label :=
| LCall (i : nat) (op : dop)
| LVis (i : nat) (v : vis)
| LTau.

Inductive dstep (c : dcfg) : dsys -> label -> dsys -> Prop :=
(** A client makes a call. *)
| dstep_call y op :
    dstep c y (LCall (length (y_procs y)) op) {| y_sh := y_sh y; y_procs := y_procs y ++ [PStart op] |}
(** A call makes a step.  Random ids do not repeat; the clock fits an [i64]. *)
| dstep_proc y i p o h' p' v :
    y_procs y !! i = Some p ->
    or_id o ∉ h_used (y_sh y) -> or_id o < 2 ^ 128 -> or_time o < 2 ^ 63 ->
    pstep c o (y_sh y) p = Some (h', p', v) ->
    dstep c y (match v with Some v => LVis i v | None => LTau end)
      {| y_sh := h'; y_procs := <[i := p']> (y_procs y) |}
(** Part of a write in flight reaches the device, in any order. *)
| dstep_torn y i p addr len v :
    y_procs y !! i = Some p -> in_flight c p = Some (addr, len) ->
    dstep c y LTau
      {| y_sh := set_dev (y_sh y) (fun x => if (addr <=? x) && (x <? addr + len) then v x else h_dev (y_sh y) x);
         y_procs := y_procs y |}
(** The index flusher makes a step. *)
| dstep_flush y t' :
    tstep (h_tup (y_sh y)) None t' ->
    dstep c y LTau {| y_sh := set_tup (y_sh y) t'; y_procs := y_procs y |}.

Inductive dsteps (c : dcfg) : dsys -> list label -> dsys -> Prop :=
| dsteps_nil y : dsteps c y [] y
| dsteps_snoc y ls y1 l y2 : dsteps c y ls y1 -> dstep c y1 l y2 -> dsteps c y (ls ++ [l]) y2.
