(** The write merger and the journal of libblobd-lite.

    Models libblobd-lite/src/journal/merge.rs and
    libblobd-lite/src/journal/real.rs. *)
From stdpp Require Import base numbers list option.
From Verif Require Import Util PageIOModel.
Open Scope N_scope.

(** ** journal/merge.rs *)

(** A write: device offset and bytes (real.rs:188-191 [Write]). *)
Definition write : Type := N * list N.

(** merge.rs:8-12 [WriteMerger]: a [BTreeMap<u64, Vec<u8>>], here the list of
    its entries in key order. *)
Definition merger : Type := list write.

(** [BTreeMap::insert] and [BTreeMap::remove]. *)
Fixpoint bt_insert (k : N) (v : list N) (m : merger) : merger :=
  match m with
  | [] => [(k, v)]
  | (k', v') :: m' =>
      if k <? k' then (k, v) :: m
      else if k =? k' then (k, v) :: m'
      else (k', v') :: bt_insert k v m'
  end.
Fixpoint bt_remove (k : N) (m : merger) : merger :=
  match m with
  | [] => []
  | (k', v') :: m' => if k =? k' then m' else (k', v') :: bt_remove k m'
  end.

(** merge.rs:33-66, the loop over the existing entries in key order, returning
    [(to_preserve, to_remove)].  The slices cannot be out of bounds:
    [prefix_len < len] because the entry ends after [offset], and
    [suffix_start < len] because it ends after [end]. *)
Fixpoint overlaps (offset fin : N) (m : merger) : list write * list N :=
  match m with
  | [] => ([], [])
  | (existing_offset, existing_data) :: m' =>
      let existing_end := existing_offset + N.of_nat (length existing_data) in
      if existing_end <=? offset then overlaps offset fin m'
      else if fin <=? existing_offset then ([], [])
      else
        let prefix :=
          if existing_offset <? offset
          then [(existing_offset, take (N.to_nat (offset - existing_offset)) existing_data)] else [] in
        let suffix :=
          if fin <? existing_end
          then [(fin, drop (N.to_nat (fin - existing_offset)) existing_data)] else [] in
        let '(to_preserve, to_remove) := overlaps offset fin m' in
        (prefix ++ suffix ++ to_preserve, existing_offset :: to_remove)
  end.

(** merge.rs:24-79 [insert]. *)
Definition merger_insert (m : merger) (offset : N) (data : list N) : merger :=
  match data with
  | [] => m
  | _ =>
      let fin := offset + N.of_nat (length data) in
      let '(to_preserve, to_remove) := overlaps offset fin m in
      let m := fold_left (fun m k => bt_remove k m) to_remove m in
      let m := fold_left (fun m w => bt_insert (fst w) (snd w) m) to_preserve m in
      bt_insert offset data m
  end.

(** merge.rs:15-19 [new]; inserting a sequence of writes (real.rs:253-255). *)
Definition merger_new : merger := [].
Definition merge_all (ws : list write) : merger :=
  fold_left (fun m w => merger_insert m (fst w) (snd w)) ws merger_new.

(** ** journal/real.rs *)

(** [bitcode::encode] of a [Write] and [blake3] are libraries: they are
    parameters.  [jc_off] and [jc_cap] are [dev_offset] and [cap]
    (real.rs:125-130). *)
Record jconf := {
  jc_encode : write -> list N;
  jc_hash : list N -> list N;
  jc_off : N;
  jc_cap : N;
}.

(** real.rs:177-206 [Transaction::write] drops empty writes;
    [writes_raw] is the concatenation of the encodings. *)
Definition txn : Type := list write.
Definition txn_write (t : txn) (offset : N) (data : list N) : txn :=
  match data with [] => t | _ => t ++ [(offset, data)] end.
Definition txn_raw (c : jconf) (t : txn) : list N := concat (map (jc_encode c) t).

(** real.rs:37-56 [PendingJournal].  [pj_raw] is [buf] without its 36 reserved
    bytes; the hasher's input is the same bytes.  A signal is named by the
    number of the [commit_transaction] call that created it.
    [earliest_entry] is [Some] exactly when a transaction has been added. *)
Record pending := { pj_raw : list N; pj_entries : merger; pj_signals : list nat }.
Definition pending_default : pending := {| pj_raw := []; pj_entries := merger_new; pj_signals := [] |}.
Definition pj_buf_len (p : pending) : N := 36 + N.of_nat (length (pj_raw p)).

(** [write_u32_le_at]. *)
Definition u32_le (v : N) : list N :=
  [v mod 256; (v / 256) mod 256; (v / 65536) mod 256; (v / 16777216) mod 256].

(** real.rs:97-102: the bytes of [buf] when it is sent. *)
Definition pj_buf (c : jconf) (p : pending) : list N :=
  jc_hash c (pj_raw p) ++ u32_le (pj_buf_len p) ++ pj_raw p.
(** real.rs:29-35 [BLANK_STATE]. *)
Definition blank_state (c : jconf) : list N := jc_hash c [] ++ [0; 0; 0; 0].

(** real.rs:65-87: where the flusher task is in its loop. *)
Inductive flusher :=
  | FIdle                                     (* waiting in recv *)
  | FGot (p : pending)                        (* received, journal not written *)
  | FEntries (rest : merger) (sigs : list nat)(* writing entries concurrently *)
  | FSignalled.                               (* signals sent, journal not blanked *)

Record jstate := {
  js_dev : device;
  js_pending : pending;
  js_queue : list pending;       (* the unbounded channel *)
  js_flusher : flusher;
  js_in_queue : N;               (* in_flush_queue *)
  js_next : nat;                 (* number of commit_transaction calls that made a signal *)
  js_acked : list nat;           (* signals signalled *)
}.

(** What can happen.  [JCommit] carries the transaction and the value of
    [in_flush_queue] the call happens to load (an atomic that other tasks
    update with relaxed ordering after sending: any value may be seen). *)
Inductive jevent :=
  | JCommit (t : txn) (seen : N)
  | JTick                                     (* the 1 ms timer finds an old entry *)
  | JRecv | JWriteJournal
  | JWriteEntry (i : nat)                     (* the i-th outstanding entry write completes *)
  | JSignal | JBlank.

(** real.rs:97-104 [send_pending]. *)
Definition send_pending (s : jstate) : jstate :=
  {| js_dev := js_dev s; js_pending := pending_default;
     js_queue := js_queue s ++ [js_pending s]; js_flusher := js_flusher s;
     js_in_queue := js_in_queue s + 1; js_next := js_next s; js_acked := js_acked s |}.

(** real.rs:222-247 [commit_transaction]. *)
Definition commit_transaction (c : jconf) (s : jstate) (t : txn) (seen : N) : jstate :=
  match t with
  | [] => s
  | _ =>
      let raw := txn_raw c t in
      let would_overflow := jc_cap c <? pj_buf_len (js_pending s) + N.of_nat (length raw) in
      let idle := (seen =? 0) && (512 <=? pj_buf_len (js_pending s)) in
      let s := if would_overflow || idle then send_pending s else s in
      let p := js_pending s in
      {| js_dev := js_dev s;
         js_pending :=
           {| pj_raw := pj_raw p ++ raw;
              pj_entries := fold_left (fun m w => merger_insert m (fst w) (snd w)) t (pj_entries p);
              pj_signals := pj_signals p ++ [js_next s] |};
         js_queue := js_queue s; js_flusher := js_flusher s; js_in_queue := js_in_queue s;
         js_next := S (js_next s); js_acked := js_acked s |}
  end.

Definition set_flusher (s : jstate) (d : device) (q : list pending) (f : flusher) (n : N) (a : list nat) : jstate :=
  {| js_dev := d; js_pending := js_pending s; js_queue := q; js_flusher := f;
     js_in_queue := n; js_next := js_next s; js_acked := a |}.

(** real.rs:65-87 [start_loop] and 109-122 [start_time_threshold_loop].
    [None]: that event cannot happen now.  An entry's [write_at] is one step. *)
Definition jstep (c : jconf) (s : jstate) (e : jevent) : option jstate :=
  match e, js_flusher s with
  | JCommit t seen, _ => Some (commit_transaction c s t seen)
  | JTick, _ =>
      match pj_signals (js_pending s) with [] => None | _ => Some (send_pending s) end
  | JRecv, FIdle =>
      match js_queue s with
      | [] => None
      | p :: q => Some (set_flusher s (js_dev s) q (FGot p) (js_in_queue s) (js_acked s))
      end
  | JWriteJournal, FGot p =>
      Some (set_flusher s (dev_write (js_dev s) (jc_off c) (pj_buf c p)) (js_queue s)
              (FEntries (pj_entries p) (pj_signals p)) (js_in_queue s) (js_acked s))
  | JWriteEntry i, FEntries rest sigs =>
      match rest !! i with
      | None => None
      | Some w => Some (set_flusher s (dev_write (js_dev s) (fst w) (snd w)) (js_queue s)
                          (FEntries (take i rest ++ drop (S i) rest) sigs) (js_in_queue s) (js_acked s))
      end
  | JSignal, FEntries [] sigs =>
      Some (set_flusher s (js_dev s) (js_queue s) FSignalled (js_in_queue s) (js_acked s ++ sigs))
  | JBlank, FSignalled =>
      Some (set_flusher s (dev_write (js_dev s) (jc_off c) (blank_state c)) (js_queue s)
              FIdle (js_in_queue s - 1) (js_acked s))
  | _, _ => None
  end.

Fixpoint jrun (c : jconf) (s : jstate) (es : list jevent) : option jstate :=
  match es with
  | [] => Some s
  | e :: es => match jstep c s e with Some s' => jrun c s' es | None => None end
  end.

(** real.rs:138-175 [new]. *)
Definition jinit (d : device) : jstate :=
  {| js_dev := d; js_pending := pending_default; js_queue := []; js_flusher := FIdle;
     js_in_queue := 0; js_next := 0%nat; js_acked := [] |}.

(** real.rs:214-216 [recover]: what reopening does to the device. *)
Definition recover (d : device) : device := d.
