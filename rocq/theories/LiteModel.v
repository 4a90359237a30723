(** A whole libblobd-lite store: bucket chains on the device, the overlay, the
    journal, the allocator, and the six operations.

    Models libblobd-lite/src/bucket.rs, overlay.rs, object.rs, op/*.rs and
    lib.rs, on top of the models of the journal (JournalModel.v), the object
    record (MetaModel.v), the allocator (BuddyModel.v) and page I/O
    (PageIOModel.v).

    Simplifications.
    - The part of an operation that runs under the bucket's lock is one step.
      Journal flushing, other buckets and other calls interleave between steps.
      (Lookups at a finer grain: [li_walk] takes the state seen by each of its
      reads separately.)
    - A read or write of an object's data is one step.
    - Metrics are not modelled. *)
From stdpp Require Import base numbers option gmap list.
From Verif Require Import Util Bytes BuddyModel BuddySpec LayoutModel MetaModel PageIOModel JournalModel DirectModel.
Open Scope N_scope.

(** lib.rs:84-98 [BlobdCfg] and lib.rs:148-158 [BlobdLoader]: sizes and regions
    (how they are computed is RegionModel.v), the hash function
    (xxh3 [hash64]: any function).  [li_bpow] is [bucket_count_log2];
    [buckets_dev_offset] is 0 (lib.rs:193). *)
Record liconf := {
  li_jc : jconf; li_bpow : N; li_base : N; li_heap : N; li_spage : N; li_lpage : N;
  li_hash : list N -> N; li_versioning : bool;
}.

(** bucket.rs:358-360 [bucket_id_for_key]. *)
Definition bucket_of (c : liconf) (key : list N) : N := N.shiftr (li_hash c key) (64 - li_bpow c).
(** bucket.rs:52-54 [BUCKETS_OFFSETOF_BUCKET]. *)
Definition bucket_off (b : N) : N := b * 5.
(** allocator/pages.rs [MIN_PAGE_SIZE_POW2]. *)
Definition MIN_PAGE_SIZE_POW2 : N := 8.

(** ** overlay.rs *)
Record overlay := {
  ov_serial : N;
  ov_heads : gmap N (N * N);    (* bucket -> serial, value *)
  ov_states : gmap N (N * N);   (* object id -> serial, value *)
  ov_nexts : gmap N (N * N);
}.
Inductive ticket := TkHead (b s : N) | TkState (id s : N) | TkNext (id s : N).

(** overlay.rs:38-46 [new]. *)
Definition ov_new : overlay := {| ov_serial := 0; ov_heads := ∅; ov_states := ∅; ov_nexts := ∅ |}.
(** overlay.rs:81-85, 91-97, 103-107 [set_bucket_head], [set_object_state],
    [set_object_next]. *)
Definition ov_set_head (o : overlay) (b v : N) : overlay * ticket :=
  ({| ov_serial := ov_serial o + 1; ov_heads := <[b := (ov_serial o, v)]> (ov_heads o);
      ov_states := ov_states o; ov_nexts := ov_nexts o |}, TkHead b (ov_serial o)).
Definition ov_set_state (o : overlay) (id v : N) : overlay * ticket :=
  ({| ov_serial := ov_serial o + 1; ov_heads := ov_heads o;
      ov_states := <[id := (ov_serial o, v)]> (ov_states o); ov_nexts := ov_nexts o |}, TkState id (ov_serial o)).
Definition ov_set_next (o : overlay) (id v : N) : overlay * ticket :=
  ({| ov_serial := ov_serial o + 1; ov_heads := ov_heads o; ov_states := ov_states o;
      ov_nexts := <[id := (ov_serial o, v)]> (ov_nexts o) |}, TkNext id (ov_serial o)).
(** overlay.rs:51-75 [evict]: only if the entry still has the ticket's serial. *)
Definition evict_map (m : gmap N (N * N)) (k s : N) : gmap N (N * N) :=
  match m !! k with Some (s', _) => if s' =? s then delete k m else m | None => m end.
Definition ov_evict (o : overlay) (t : ticket) : overlay :=
  match t with
  | TkHead b s => {| ov_serial := ov_serial o; ov_heads := evict_map (ov_heads o) b s;
                     ov_states := ov_states o; ov_nexts := ov_nexts o |}
  | TkState id s => {| ov_serial := ov_serial o; ov_heads := ov_heads o;
                       ov_states := evict_map (ov_states o) id s; ov_nexts := ov_nexts o |}
  | TkNext id s => {| ov_serial := ov_serial o; ov_heads := ov_heads o;
                      ov_states := ov_states o; ov_nexts := evict_map (ov_nexts o) id s |}
  end.

(** ** Reading a chain *)

(** bucket.rs:60-64 [FoundObject]; [f_raw] is the raw part of its [ObjectMeta]. *)
Record found := { f_off : N; f_prev : option N; f_raw : list N }.

(** object.rs:165-170 [state] and 180-186 [next_node_dev_offset] (0 for none);
    [None] is a panic. *)
Definition ov_state (o : overlay) (raw : list N) : option N :=
  id ← meta_id raw; match ov_states o !! id with Some (_, v) => Some v | None => meta_state raw end.
Definition ov_next (o : overlay) (raw : list N) : option N :=
  id ← meta_id raw; match ov_nexts o !! id with Some (_, v) => Some v | None => meta_next raw end.

(** [device.read_uN_be_at]. *)
Definition read_be (d : device) (off len : N) : N := be_val (dev_read d off len).

(** What a lookup sees: device and overlay. *)
Notation lview := (PageIOModel.device * overlay)%type.

(** bucket.rs:123-133 [get_head]; the overlay is consulted at [y0], the device
    read at [y1]. *)
Definition get_head (y0 y1 : lview) (b : N) : N :=
  match ov_heads (snd y0) !! b with
  | Some (_, v) => v
  | None => N.shiftl (read_be (fst y1) (bucket_off b) 5) MIN_PAGE_SIZE_POW2
  end.

(** The result of consuming [iter()]: ran out of steps, panicked, or done. *)
Inductive wres (A : Type) := WkFuel | WkPanic | WkDone (a : A).
Arguments WkFuel {A}. Arguments WkPanic {A}. Arguments WkDone {A} a.

(** bucket.rs:83-104 [iter], with its consumer: [visit] gets the overlay and
    each object with the key, and returns [None] for a panic and otherwise its
    new accumulator and whether it stops.  Node [n] reads its key length from the
    device at time [4n+2] and the record at [4n+3], looks up [next] in the overlay
    at [4n+4], and the consumer looks at the overlay at [4n+5]. *)
Fixpoint li_walk {A} (visit : overlay -> A -> found -> option (A * bool)) (ys : nat -> lview) (key : list N)
  (fuel n : nat) (cur : N) (prev : option N) (acc : A) : wres A :=
  if cur =? 0 then WkDone acc else
  match fuel with
  | O => WkFuel
  | S fuel =>
      let klen := read_be (fst (ys (4 * n + 2)%nat)) (cur + off_key_len) 2 in
      let raw := dev_read (fst (ys (4 * n + 3)%nat)) cur (off_lpages klen) in
      match ov_next (snd (ys (4 * n + 4)%nat)) raw, meta_key raw with
      | Some next, Some k =>
          if bool_decide (k = key) then
            match visit (snd (ys (4 * n + 5)%nat)) acc {| f_off := cur; f_prev := prev; f_raw := raw |} with
            | None => WkPanic
            | Some (acc, true) => WkDone acc
            | Some (acc, false) => li_walk visit ys key fuel (S n) next (Some cur) acc
            end
          else li_walk visit ys key fuel (S n) next (Some cur) acc
      | _, _ => WkPanic
      end
  end.
Definition li_iter {A} (c : liconf) visit (ys : nat -> lview) (key : list N) (fuel : nat) (acc : A) : wres A :=
  li_walk visit ys key fuel 0 (get_head (ys 0%nat) (ys 1%nat) (bucket_of c key)) None acc.

(** bucket.rs:107-120 [find_object]. *)
Definition id_ok (oid : option N) (id : N) : bool := match oid with None => true | Some i => i =? id end.
Definition visit_find (state : N) (oid : option N) (o : overlay) (_ : option found) (f : found)
  : option (option found * bool) :=
  st ← ov_state o (f_raw f); id ← meta_id (f_raw f);
  if (st =? state) && id_ok oid id then Some (Some f, true) else Some (None, false).
Definition find_object (c : liconf) (ys : nat -> lview) (key : list N) (fuel : nat) (state : N) (oid : option N)
  : wres (option found) := li_iter c (visit_find state oid) ys key fuel None.

(** commit_object.rs:40-50: the last incomplete object with the id and the last
    committed object of the key. *)
Definition visit_commit (oid : N) (o : overlay) (acc : option found * option found) (f : found)
  : option (option found * option found * bool) :=
  st ← ov_state o (f_raw f); id ← meta_id (f_raw f);
  if (st =? st_incomplete) && (id =? oid) then Some ((Some f, snd acc), false)
  else if st =? st_committed then Some ((fst acc, Some f), false)
  else Some (acc, false).
Definition find_for_commit (c : liconf) (ys : nat -> lview) (key : list N) (fuel : nat) (id : N)
  : wres (option found * option found) := li_iter c (visit_commit id) ys key fuel (None, None).

(** ** Changing a chain *)

(** bucket.rs:190-200 [update_head]. *)
Definition update_head (o : overlay) (t : txn) (b off : N) : overlay * txn * ticket :=
  let '(o, tk) := ov_set_head o b off in
  (o, txn_write t (bucket_off b) (be_bytes 5 (N.shiftr off MIN_PAGE_SIZE_POW2)), tk).

(** The page addresses in a record: object.rs:212-232, read_object.rs:102-112,
    write_object.rs:97-121.  The code reads each address when it needs it.
    [None] is a panic. *)
Definition record_obj (spage lpage : N) (raw : list N) : option obj :=
  size ← meta_size raw;
  '(lc, t) ← calc_object_layout spage lpage (2 ^ 64) size;
  ls ← mapM (fun i => meta_lpage raw (N.of_nat i)) (seq 0 (N.to_nat lc));
  ts ← mapM (fun i => meta_tail_page spage lpage raw (N.of_nat i)) (seq 0 (N.to_nat (tps_len t)));
  Some {| o_size := size; o_lpages := ls; o_tails := ts |}.

(** bucket.rs:235-242: the object's data pages with their sizes. *)
Definition obj_pages (spage lpage : N) (o : obj) : option (list page) :=
  '(_, t) ← calc_object_layout spage lpage (2 ^ 64) (o_size o);
  l ← tps_collect t;
  ts ← mapM (fun '(i, sz) => a ← o_tails o !! N.to_nat i; Some (a, sz)) l;
  Some (((fun a => (a, lpage)) <$> o_lpages o) ++ ts).

(** bucket.rs:202-253 [delete_object]: device, overlay and transaction
    afterwards, the pages to free, the ticket.  Note that with a previous object
    the overlay entry is set for the object being deleted, and the previous
    object's link is written to the device at once, outside the transaction. *)
Definition unlink (c : liconf) (d : device) (o : overlay) (t : txn) (b : N) (f : found)
  : option (device * overlay * txn * list page * ticket) :=
  new_next ← ov_next o (f_raw f);
  id ← meta_id (f_raw f);
  pow2 ← meta_size_pow2 (f_raw f);
  let '(d, o, t, tk) :=
    match f_prev f with
    | Some prev =>
        let '(o, tk) := ov_set_next o id new_next in
        (dev_write d (prev + off_next) (be_bytes 6 new_next), o, t, tk)
    | None => let '(o, t, tk) := update_head o t b new_next in (d, o, t, tk)
    end in
  let raw := dev_read d (f_off f) (2 ^ pow2) in
  ob ← record_obj (li_spage c) (li_lpage c) raw;
  ps ← obj_pages (li_spage c) (li_lpage c) ob;
  Some (d, o, t, ps ++ [(f_off f, pow2)], tk).

(** ** Operations *)

(** A create/commit/delete call: pages allocated and record not yet written; record
    written and not yet linked; waiting for its signal ([None]: the transaction
    was empty), holding overlay tickets and pages to free; returned. *)
Inductive lcall :=
| LNew (r : create_req) (raw : list N) (pow2 off : N)
| LRec (r : create_req) (raw : list N) (pow2 off : N)
| LWait (b : N) (sig : option nat) (tks : list ticket) (free : list page)
| LDone.

Record lstate := {
  ls_j : jstate;              (* the journal and the device *)
  ls_alloc : Allocator;
  ls_ov : overlay;
  ls_calls : list lcall;
  ls_used : list N;           (* ids generated so far *)
}.
Definition ls_dev (s : lstate) : device := js_dev (ls_j s).
Definition set_dev (j : jstate) (d : device) : jstate :=
  {| js_dev := d; js_pending := js_pending j; js_queue := js_queue j; js_flusher := js_flusher j;
     js_in_queue := js_in_queue j; js_next := js_next j; js_acked := js_acked j |}.
Definition now (s : lstate) : nat -> lview := fun _ => (ls_dev s, ls_ov s).

(** What a caller can observe.  A create, commit or delete is recorded when it
    takes effect (under the lock); its caller gets this result when it returns. *)
Inductive lread := RBytes (l : list N) | RNotFound | RRange | RFault.
Inductive lobs :=
| OCreate (key : list N) (size id : N)
| OTooLarge (key : list N) (size : N) (assoc : list N)
| OFull (key : list N) (size : N)           (* out of space: the task panics *)
| OCommit (key : list N) (id : N) (ok : bool)
| ODelete (key : list N) (oid : option N) (ok : bool)
| OInspect (key : list N) (oid : option N) (r : option (N * N))   (* id and size *)
| OWrite (key : list N) (id offset len : N) (stream : list item) (r : wresult)
| ORead (key : list N) (oid : option N) (start : N) (fin : option N) (r : lread)
| OPanic.

(** What can happen.  [seen]: see [JCommit].  [fuel]: bound on the steps of a
    lookup (a lookup that needs more is not taken).  [steps]: how many iterations
    the write or read loop makes. *)
Inductive levent :=
| LCreate (key : list N) (size : N) (assoc : list N) (id ms : N)
| LCreateWrite (i : nat)
| LCreateLink (i : nat) (seen : N)
| LCommit (key : list N) (id : N) (fuel : nat) (seen : N)
| LDelete (key : list N) (oid : option N) (fuel : nat) (seen : N)
| LFinish (i : nat)
| LInspect (key : list N) (oid : option N) (fuel : nat)
| LWrite (key : list N) (id offset len : N) (stream : list item) (fuel steps : nat)
| LRead (key : list N) (oid : option N) (start : N) (fin : option N) (fuel steps : nat)
| LJ (e : jevent).

Definition mk (j : jstate) (a : Allocator) (o : overlay) (cs : list lcall) (u : list N) : lstate :=
  {| ls_j := j; ls_alloc := a; ls_ov := o; ls_calls := cs; ls_used := u |}.
Definition stay (s : lstate) (o : lobs) : option (lstate * list lobs) := Some (s, [o]).

(** create_object.rs:38-93.  The ids are random; they are assumed never to
    repeat.  When the allocator fails the call panics and the pages it had
    already got stay allocated (the record is built before, but is not used). *)
Definition do_create (c : liconf) (s : lstate) (key : list N) (size : N) (assoc : list N) (id ms : N)
  : option (lstate * list lobs) :=
  if bool_decide (id ∈ ls_used s) then None else
  let req ls ts := {| cr_key := key; cr_size := size; cr_assoc := assoc; cr_id := id;
                      cr_created_ms := ms; cr_lpages := ls; cr_tails := ts |} in
  match calc_object_layout (li_spage c) (li_lpage c) (2 ^ 64) size,
        create_record (li_spage c) (li_lpage c) (req [] []) with
  | Some (lc, t), Some (CrRecord raw0 _) =>
      match tps_collect t with
      | None => stay s OPanic
      | Some l =>
          let sizes := replicate (N.to_nat lc) (N.shiftl 1 (li_lpage c)) ++ map (fun '(_, sz) => N.shiftl 1 sz) l
                       ++ [N.of_nat (length raw0)] in
          match alloc_list (ls_alloc s) sizes with
          | (a, None) => Some (mk (ls_j s) a (ls_ov s) (ls_calls s) (ls_used s), [OFull key size])
          | (a, Some offs) =>
              let r := req (take (N.to_nat lc) offs) (take (length l) (drop (N.to_nat lc) offs)) in
              match drop (N.to_nat lc + length l) offs, create_record (li_spage c) (li_lpage c) r with
              | [off], Some (CrRecord raw pow2) =>
                  Some (mk (ls_j s) a (ls_ov s) (ls_calls s ++ [LNew r raw pow2 off]) (id :: ls_used s), [])
              | _, _ => stay s OPanic
              end
          end
      end
  | _, Some CrTooLarge => stay s (OTooLarge key size assoc)
  | _, _ => stay s OPanic
  end.

(** [commit_transaction] of the journal, with the signal it returns
    (real.rs:222-247). *)
Definition do_txn (c : liconf) (j : jstate) (t : txn) (seen : N) : jstate * option nat :=
  (commit_transaction (li_jc c) j t seen, match t with [] => None | _ => Some (js_next j) end).

(** create_object.rs:98-122. *)
Definition do_link (c : liconf) (s : lstate) (i : nat) (r : create_req) (off seen : N) : lstate * list lobs :=
  let b := bucket_of c (cr_key r) in
  let cur_head := get_head (now s 0) (now s 1) b in
  let '(o, t, tk1) := update_head (ls_ov s) [] b off in
  let '(o, tk2) := ov_set_next o (cr_id r) cur_head in
  let t := txn_write t (off + off_next) (be_bytes 6 cur_head) in
  let '(j, sig) := do_txn c (ls_j s) t seen in
  (mk j (ls_alloc s) o (<[i := LWait b sig [tk1; tk2] []]> (ls_calls s)) (ls_used s),
   [OCreate (cr_key r) (cr_size r) (cr_id r)]).

(** commit_object.rs:27-84. *)
Definition do_commit (c : liconf) (s : lstate) (key : list N) (id : N) (fuel : nat) (seen : N)
  : option (lstate * list lobs) :=
  let b := bucket_of c key in
  match find_for_commit c (now s) key fuel id with
  | WkFuel => None
  | WkPanic => stay s OPanic
  | WkDone (None, _) => stay s (OCommit key id false)
  | WkDone (Some f, ex) =>
      match match ex with
            | Some e => if li_versioning c then Some (ls_dev s, ls_ov s, [], [], [])
                        else '(d, o, t, ps, tk) ← unlink c (ls_dev s) (ls_ov s) [] b e; Some (d, o, t, ps, [tk])
            | None => Some (ls_dev s, ls_ov s, [], [], [])
            end with
      | None => stay s OPanic
      | Some (d, o, t, ps, tks) =>
          let '(o, tk) := ov_set_state o id st_committed in
          let t := txn_write t (f_off f + off_state) [st_committed] in
          let '(j, sig) := do_txn c (set_dev (ls_j s) d) t seen in
          Some (mk j (ls_alloc s) o (ls_calls s ++ [LWait b sig (tk :: tks) ps]) (ls_used s), [OCommit key id true])
      end
  end.

(** delete_object.rs:19-50.  When nothing is found the (empty) transaction gives
    no signal and the call returns at once. *)
Definition do_delete (c : liconf) (s : lstate) (key : list N) (oid : option N) (fuel : nat) (seen : N)
  : option (lstate * list lobs) :=
  let b := bucket_of c key in
  match find_object c (now s) key fuel st_committed oid with
  | WkFuel => None
  | WkPanic => stay s OPanic
  | WkDone None => stay s (ODelete key oid false)
  | WkDone (Some f) =>
      match unlink c (ls_dev s) (ls_ov s) [] b f with
      | None => stay s OPanic
      | Some (d, o, t, ps, tk) =>
          let '(j, sig) := do_txn c (set_dev (ls_j s) d) t seen in
          Some (mk j (ls_alloc s) o (ls_calls s ++ [LWait b sig [tk] ps]) (ls_used s), [ODelete key oid true])
      end
  end.

(** create_object.rs:123-127, commit_object.rs:85-92, delete_object.rs:37-47: once
    the signal (if any) has been given, release the pages and evict the overlay
    entries. *)
Definition do_finish (s : lstate) (i : nat) (sig : option nat) (tks : list ticket) (free : list page)
  : option (lstate * list lobs) :=
  if match sig with Some n => bool_decide (n ∈ js_acked (ls_j s)) | None => true end then
    match release_all (ls_alloc s) free with
    | Ok a => Some (mk (ls_j s) a (fold_left ov_evict tks (ls_ov s)) (<[i := LDone]> (ls_calls s)) (ls_used s), [])
    | _ => stay s OPanic
    end
  else None.

(** write_object.rs:57-188, the whole call under the read lock. *)
Definition do_write (c : liconf) (s : lstate) (key : list N) (id offset len : N) (stream : list item) (fuel steps : nat)
  : option (lstate * list lobs) :=
  match find_object c (now s) key fuel st_incomplete (Some id) with
  | WkFuel => None
  | WkPanic => stay s OPanic
  | WkDone None => stay s (OWrite key id offset len stream (WErr ObjectNotFound))
  | WkDone (Some f) =>
      match pow2 ← meta_size_pow2 (f_raw f); record_obj (li_spage c) (li_lpage c) (dev_read (ls_dev s) (f_off f) (2 ^ pow2)) with
      | None => stay s OPanic
      | Some ob =>
          match call_run Lite (li_spage c)
                  (ls_dev s, write_start Lite (li_spage c) (li_lpage c) ob offset len stream)
                  (replicate steps (true, fun _ => 0)) with
          | (_, Running _) => None
          | (d, Returned r) =>
              Some (mk (set_dev (ls_j s) d) (ls_alloc s) (ls_ov s) (ls_calls s) (ls_used s),
                    [OWrite key id offset len stream r])
          end
      end
  end.

(** read_object.rs:50-136, with the stream polled to its end at once (the code
    releases the lock before the stream is polled). *)
Definition do_read (c : liconf) (s : lstate) (key : list N) (oid : option N) (start : N) (fin : option N) (fuel steps : nat)
  : option (lstate * list lobs) :=
  match find_object c (now s) key fuel st_committed oid with
  | WkFuel => None
  | WkPanic => stay s OPanic
  | WkDone None => stay s (ORead key oid start fin RNotFound)
  | WkDone (Some f) =>
      match pow2 ← meta_size_pow2 (f_raw f); record_obj (li_spage c) (li_lpage c) (dev_read (ls_dev s) (f_off f) (2 ^ pow2)) with
      | None => stay s OPanic
      | Some ob =>
          match drain (lite_read_step (li_lpage c) (ls_dev s)) steps (read_start Lite (li_spage c) (li_lpage c) ob start fin) with
          | None => None
          | Some (outs, RDone) => stay s (ORead key oid start fin (RBytes (concat outs.*1)))
          | Some (_, RErr _) => stay s (ORead key oid start fin RRange)
          | Some _ => stay s (ORead key oid start fin RFault)
          end
      end
  end.

(** inspect_object.rs:20-33. *)
Definition do_inspect (c : liconf) (s : lstate) (key : list N) (oid : option N) (fuel : nat)
  : option (lstate * list lobs) :=
  match find_object c (now s) key fuel st_committed oid with
  | WkFuel => None
  | WkPanic => stay s OPanic
  | WkDone None => stay s (OInspect key oid None)
  | WkDone (Some f) =>
      match meta_id (f_raw f), meta_size (f_raw f) with
      | Some id, Some size => stay s (OInspect key oid (Some (id, size)))
      | _, _ => stay s OPanic
      end
  end.

(** One step; [None]: cannot happen now. *)
Definition lstep (c : liconf) (s : lstate) (e : levent) : option (lstate * list lobs) :=
  match e with
  | LCreate key size assoc id ms => do_create c s key size assoc id ms
  | LCreateWrite i =>
      match ls_calls s !! i with
      | Some (LNew r raw pow2 off) =>           (* create_object.rs:96 *)
          Some (mk (set_dev (ls_j s) (dev_write (ls_dev s) off raw)) (ls_alloc s) (ls_ov s)
                   (<[i := LRec r raw pow2 off]> (ls_calls s)) (ls_used s), [])
      | _ => None
      end
  | LCreateLink i seen =>
      match ls_calls s !! i with
      | Some (LRec r _ _ off) => Some (do_link c s i r off seen)
      | _ => None
      end
  | LCommit key id fuel seen => do_commit c s key id fuel seen
  | LDelete key oid fuel seen => do_delete c s key oid fuel seen
  | LFinish i =>
      match ls_calls s !! i with
      | Some (LWait _ sig tks free) => do_finish s i sig tks free
      | _ => None
      end
  | LInspect key oid fuel => do_inspect c s key oid fuel
  | LWrite key id offset len stream fuel steps => do_write c s key id offset len stream fuel steps
  | LRead key oid start fin fuel steps => do_read c s key oid start fin fuel steps
  | LJ (JCommit _ _) => None
  | LJ e => j ← jstep (li_jc c) (ls_j s) e;
            Some (mk j (ls_alloc s) (ls_ov s) (ls_calls s) (ls_used s), [])
  end.

Fixpoint lrun (c : liconf) (s : lstate) (es : list levent) : option (lstate * list lobs) :=
  match es with
  | [] => Some (s, [])
  | e :: es => '(s, o) ← lstep c s e; '(s, o') ← lrun c s es; Some (s, o ++ o')
  end.

(** ** Opening *)

(** lib.rs:229-235 [format], bucket.rs:331-342 [format_device], real.rs:208-212. *)
Definition li_format (c : liconf) (d : device) : device :=
  dev_write (dev_write d 0 (replicate (N.to_nat (bucket_off (2 ^ li_bpow c))) 0)) (jc_off (li_jc c)) (blank_state (li_jc c)).

(** lib.rs:108-145 [load_object_list]: only the data pages are marked, not the
    page of the record itself.  [WkPanic]: a state byte that is not a state, an
    allocator failure, or a layout failure. *)
Fixpoint load_object_list (c : liconf) (d : device) (fuel : nat) (cur : N) (a : Allocator) : wres Allocator :=
  if cur =? 0 then WkDone a else
  match fuel with
  | O => WkFuel
  | S fuel =>
      let klen := read_be d (cur + off_key_len) 2 in
      let size := read_be d (cur + off_size) 5 in
      match calc_object_layout (li_spage c) (li_lpage c) (2 ^ 64) size with
      | None => WkPanic
      | Some (lc, t) =>
          let raw := dev_read d cur (off_assoc_data_len klen lc (tps_len t)) in
          match meta_state raw, ob ← record_obj (li_spage c) (li_lpage c) raw; obj_pages (li_spage c) (li_lpage c) ob, meta_next raw with
          | Some _, Some ps, Some next =>
              match mark_all a ps with
              | Ok a => load_object_list c d fuel next a
              | _ => WkPanic
              end
          | _, _, _ => WkPanic
          end
      end
  end.

(** lib.rs:237-279 [load_buckets]: the heads, shifted right (line 248) where the
    rest of the code shifts left.  The chains are loaded concurrently; here one
    after another. *)
Definition load_heads (c : liconf) (d : device) : list N :=
  filter (fun h => h <> 0)
    ((fun b => N.shiftr (read_be d (bucket_off (N.of_nat b)) 5) MIN_PAGE_SIZE_POW2) <$> seq 0 (N.to_nat (2 ^ li_bpow c))).
Fixpoint load_lists (c : liconf) (d : device) (fuel : nat) (hs : list N) (a : Allocator) : wres Allocator :=
  match hs with
  | [] => WkDone a
  | h :: hs =>
      match load_object_list c d fuel h a with
      | WkDone a => load_lists c d fuel hs a
      | r => r
      end
  end.

(** lib.rs:281-330 [load]. *)
Definition li_open (c : liconf) (d : device) (fuel : nat) : wres lstate :=
  let d := recover d in
  match allocator_new (li_base c) (li_heap c) (li_spage c) (li_lpage c) (2 ^ 64) DirLeft with
  | Ok a =>
      match load_lists c d fuel (load_heads c d) a with
      | WkDone a => WkDone (mk (jinit d) a ov_new [] [])
      | WkFuel => WkFuel
      | WkPanic => WkPanic
      end
  | _ => WkPanic
  end.
