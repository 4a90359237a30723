(** The write-ahead log of libblobd-kv.

    Models libblobd-kv/src/log_buffer.rs: the record format, the writer thread
    that batches records into flushes (lines 587-723), the concurrent device
    writes of the flushes (694-719), the completer that advances the persisted
    tail and acknowledges (520-581), the points at which a commit starts and ends
    (320-340, 507-511) and the replay on opening (158-294).

    Simplifications.  The log area is a function from its offsets to bytes and
    the state page is a list of bytes, written atomically (lib.rs:70 requires
    devices with atomic writes of this size); a completed [write_at] is durable
    (the code never calls [sync] for it).  Time-outs only decide when a batch is
    cut, so a flush may start whenever something is pending.  Metrics are left
    out.  What a commit does between its two ends is in KvStoreModel.v.  [None]
    is a panic of the thread making the step (or a step that is not possible
    now): it then has no effect.  u64 overflow of the virtual offsets counts as
    a panic. *)
From stdpp Require Import base numbers list option gmap.
From Verif Require Import Util Bytes PageIOModel KvCodecModel.
Open Scope N_scope.

(** log_buffer.rs:73-83 [BundleTask], without the signal. *)
Inductive ltask := TUpsert (k : okey) (d : odata) | TDelete (k : okey).
#[global] Instance ltask_eq_dec : EqDecision ltask.
Proof. solve_decision. Defined.

(** [data_dev.len()], [spage_size_pow2] and the replay's [BUFSIZE] (195). *)
Record lconf := { lc_len : N; lc_spage : N; lc_bufsize : N }.
(** log_buffer.rs:195. *)
Definition kv_bufsize : N := 1024 * 1024 * 128.

(** log_buffer.rs:606-615 and 85-94: tag, key and, for an upsert, data. *)
Definition task_serialise (t : ltask) : option (list N) :=
  match t with
  | TUpsert k d => a ← key_serialise k; b ← data_serialise d; Some (1 :: a ++ b)
  | TDelete k => a ← key_serialise k; Some (2 :: a)
  end.

(** ** The state page, log_buffer.rs:70-71, 121-131. *)
Definition state_page (junk : list N) (head tail : N) : option (list N) :=
  p ← buf_write junk 0 (le_bytes 8 head); buf_write p 8 (le_bytes 8 tail).
(** log_buffer.rs:171-175. *)
Definition state_read (page : list N) : option (N * N) :=
  h ← buf_read page 0 8; t ← buf_read page 8 8; Some (le_val h, le_val t).

(** ** Replay, log_buffer.rs:158-274. *)
Record lbuf := { lb_base : N; lb_buf : list N; lb_drained : N }.
(** log_buffer.rs:206-227: the inner loop that tops the buffer up. *)
Fixpoint refill (fuel : nat) (c : lconf) (dev : device) (vnext vend : N) (b : lbuf) : option lbuf :=
  if N.of_nat (length (lb_buf b)) <? lb_drained b then None else
  let avail := N.of_nat (length (lb_buf b)) - lb_drained b in
  let buf_vafter := vnext + avail in
  if negb (mod_pow2 buf_vafter (lc_spage c) =? 0) then None else
  if vend <? buf_vafter then None else
  if (lc_bufsize c <=? avail) || (buf_vafter =? vend) then Some b else
  match fuel with
  | O => None
  | S fuel =>
      let physical_offset := buf_vafter mod lc_len c in
      let to_read := N.min (N.min (lc_bufsize c) (vend - buf_vafter)) (lc_len c - physical_offset) in
      refill fuel c dev vnext vend
        {| lb_base := lb_base b + lb_drained b;
           lb_buf := drop (N.to_nat (lb_drained b)) (lb_buf b) ++ dev_read dev physical_offset to_read;
           lb_drained := 0 |}
  end.
(** log_buffer.rs:200-271: the outer loop; the operations in log order. *)
Fixpoint replay (fuel : nat) (c : lconf) (dev : device) (vend : N) (b : lbuf) : option (list ltask) :=
  let vnext := lb_base b + lb_drained b in
  if vnext =? vend then Some [] else
  match fuel with
  | O => None
  | S fuel =>
      b ← refill (N.to_nat (vend - vnext)) c dev vnext vend b;
      let rd := drop (N.to_nat (lb_drained b)) (lb_buf b) in
      let advance to_skip := {| lb_base := lb_base b; lb_buf := lb_buf b; lb_drained := lb_drained b + to_skip |} in
      match rd with
      | [] => None
      | tag :: rd1 =>
          if tag =? 1 then
            '(k, rd2) ← key_deserialise rd1;
            '(d, rd3) ← data_deserialise rd2;
            l ← replay fuel c dev vend (advance (N.of_nat (length rd) - N.of_nat (length rd3)));
            Some (TUpsert k d :: l)
          else if tag =? 2 then
            '(k, rd2) ← key_deserialise rd1;
            l ← replay fuel c dev vend (advance (N.of_nat (length rd) - N.of_nat (length rd2)));
            Some (TDelete k :: l)
          else if tag =? 3 then
            let to_skip := 2 ^ lc_spage c - mod_pow2 vnext (lc_spage c) in
            if (0 <? to_skip) && (to_skip <? 2 ^ lc_spage c) then replay fuel c dev vend (advance to_skip) else None
          else if tag =? 4 then
            let to_skip := lc_len c - vnext mod lc_len c in
            if (0 <? to_skip) && (to_skip <? lc_len c) then replay fuel c dev vend (advance to_skip) else None
          else None
      end
  end.
(** log_buffer.rs:171-176 and 190-274. *)
Definition log_load (c : lconf) (page : list N) (dev : device) : option (N * N * list ltask) :=
  '(head, tail) ← state_read page;
  if negb (mod_pow2 head (lc_spage c) =? 0) || negb (mod_pow2 tail (lc_spage c) =? 0) || (tail <? head) then None else
  ops ← replay (N.to_nat (tail - head)) c dev tail {| lb_base := head; lb_buf := []; lb_drained := 0 |};
  Some (head, tail, ops).

(** ** The writer thread, log_buffer.rs:592-602. *)
Record wstate := { w_buf : list N; w_pending : list (nat * ltask); w_vtail : N; w_next : nat }.
(** One spawned flush, log_buffer.rs:691-719: the wrap-around page and where it
    goes, the data and where it goes, the new tail and the tasks. *)
Record flight := {
  fl_id : nat;
  fl_wrap : option (N * list N);
  fl_phys : N;
  fl_data : list N;
  fl_newtail : N;
  fl_tasks : list (nat * ltask)
}.

(** log_buffer.rs:604-616; [n] is the number under which the caller waits. *)
Definition writer_recv (w : wstate) (n : nat) (t : ltask) : option wstate :=
  s ← task_serialise t;
  Some {| w_buf := w_buf w ++ s; w_pending := w_pending w ++ [(n, t)]; w_vtail := w_vtail w; w_next := w_next w |}.

(** log_buffer.rs:633-693.  [junk] and [wjunk] are the contents of the two
    uninitialised buffers. *)
Definition writer_flush (c : lconf) (head : N) (w : wstate) (junk wjunk : list N) : option (wstate * flight) :=
  if (length (w_pending w) =? 0)%nat then None else
  let buf := if 0 <? mod_pow2 (N.of_nat (length (w_buf w))) (lc_spage c) then w_buf w ++ [3] else w_buf w in
  let buf_len := N.of_nat (length buf) in
  let padded_len := ceil_pow2 buf_len (lc_spage c) in
  if negb (N.of_nat (length junk) =? padded_len) || negb (N.of_nat (length wjunk) =? 2 ^ lc_spage c) then None else
  let buf_padded := buf ++ drop (length buf) junk in
  if negb (mod_pow2 (w_vtail w) (lc_spage c) =? 0) then None else
  let phys := w_vtail w mod lc_len c in
  let wraps := lc_len c <? phys + padded_len in
  let vtail := if wraps then w_vtail w + (lc_len c - phys) else w_vtail w in
  let phys' := if wraps then 0 else phys in
  if wraps && negb (vtail mod lc_len c =? phys') then None else
  let vtail := vtail + padded_len in
  if lc_len c <=? vtail - head then None else
  if 2 ^ 64 <=? vtail then None else
  Some ({| w_buf := []; w_pending := []; w_vtail := vtail; w_next := S (w_next w) |},
        {| fl_id := w_next w;
           fl_wrap := if wraps then Some (phys, 4 :: drop 1 wjunk) else None;
           fl_phys := phys'; fl_data := buf_padded; fl_newtail := vtail; fl_tasks := w_pending w |}).

(** Offsets of the log area a flush writes to (log_buffer.rs:699-705). *)
Definition in_range (off : N) (data : list N) (a : N) : bool := (off <=? a) && (a <? off + N.of_nat (length data)).
Definition flight_touches (f : flight) (a : N) : bool :=
  in_range (fl_phys f) (fl_data f) a ||
  match fl_wrap f with Some (at_, page) => in_range at_ page a | None => false end.
(** backing_store/mod.rs:53-66 [BoundedStore::write_at]. *)
Definition bounded_write (len : N) (dev : device) (off : N) (data : list N) : option device :=
  if off + N.of_nat (length data) <=? len then Some (dev_write dev off data) else None.
(** log_buffer.rs:699-705: both writes have completed. *)
Definition flight_write (c : lconf) (dev : device) (f : flight) : option device :=
  dev ← match fl_wrap f with Some (at_, page) => bounded_write (lc_len c) dev at_ page | None => Some dev end;
  bounded_write (lc_len c) dev (fl_phys f) (fl_data f).

(** ** The running log.  [l_hist], [l_nhead], [l_ncommit], [l_ntail] and
    [l_maxflush] are book-keeping for the statements and not read by any step:
    the operations received so far in order (after a crash, those in the log),
    how many of them precede the head, the commit point and the tail, and the
    largest flush. *)
Record lstate := {
  l_dev : device;                    (* log area *)
  l_page : list N;                   (* state page *)
  l_head : N; l_tail : N;            (* virtual_pointers *)
  l_writer : wstate;
  l_flights : list (flight * bool);  (* spawned writes, and whether both writes completed *)
  l_backlog : gmap nat flight;       (* completer's backlog *)
  l_cnext : nat;                     (* completer's next_flush_id *)
  l_apply : list (nat * ltask);      (* being inserted into the overlay and signalled *)
  l_commit : option N;               (* commit_up_to_tail of the running commit *)
  l_acked : list nat;
  l_hist : list ltask; l_nhead : nat; l_ncommit : nat; l_ntail : nat; l_maxflush : N
}.

(** log_buffer.rs:527-531: contiguous completed flushes. *)
Fixpoint drain (fuel : nat) (backlog : gmap nat flight) (next : nat) : list flight * gmap nat flight * nat :=
  match fuel with
  | O => ([], backlog, next)
  | S fuel =>
      match backlog !! next with
      | None => ([], backlog, next)
      | Some f => let '(l, b, n) := drain fuel (delete next backlog) (S next) in (f :: l, b, n)
      end
  end.

Inductive levent :=
| ERecv (t : ltask)                  (* the writer takes a task from the channel *)
| EFlush (junk wjunk : list N)       (* the writer cuts a batch and spawns its writes *)
| ETorn (i : nat) (v : N -> N)       (* part of a spawned write reaches the device *)
| EFinish (i : nat)                  (* a spawned write completes *)
| EHand (i : nat)                    (* ... and is received by the completer *)
| EComplete (junk : list N)          (* the completer advances the tail *)
| EApply                             (* the completer inserts and signals one task *)
| ECommitStart (threshold : N)
| ECommitEnd (junk : list N)
| ECrash.                            (* power loss, then opening again *)

(** log_buffer.rs:158-294 and 297-302, 592-599: a log opened from its device. *)
Definition log_open (c : lconf) (page : list N) (dev : device)
  (acked : list nat) (hist : list ltask) (nhead ntail : nat) (maxflush : N) : option lstate :=
  '(head, tail, _) ← log_load c page dev;
  Some {| l_dev := dev; l_page := page; l_head := head; l_tail := tail;
          l_writer := {| w_buf := []; w_pending := []; w_vtail := tail; w_next := 0 |};
          l_flights := []; l_backlog := ∅; l_cnext := 0; l_apply := []; l_commit := None;
          l_acked := acked; l_hist := hist; l_nhead := nhead; l_ncommit := nhead; l_ntail := ntail;
          l_maxflush := maxflush |}.

Definition set_writer (y : lstate) (w : wstate) (hist : list ltask) : lstate :=
  {| l_dev := l_dev y; l_page := l_page y; l_head := l_head y; l_tail := l_tail y; l_writer := w;
     l_flights := l_flights y; l_backlog := l_backlog y; l_cnext := l_cnext y; l_apply := l_apply y;
     l_commit := l_commit y; l_acked := l_acked y; l_hist := hist; l_nhead := l_nhead y;
     l_ncommit := l_ncommit y; l_ntail := l_ntail y; l_maxflush := l_maxflush y |}.
Definition set_flights (y : lstate) (dev : device) (w : wstate) (fs : list (flight * bool)) (bl : gmap nat flight) (m : N) : lstate :=
  {| l_dev := dev; l_page := l_page y; l_head := l_head y; l_tail := l_tail y; l_writer := w;
     l_flights := fs; l_backlog := bl; l_cnext := l_cnext y; l_apply := l_apply y;
     l_commit := l_commit y; l_acked := l_acked y; l_hist := l_hist y; l_nhead := l_nhead y;
     l_ncommit := l_ncommit y; l_ntail := l_ntail y; l_maxflush := m |}.

Definition lstep (c : lconf) (y : lstate) (e : levent) : option lstate :=
  match e with
  | ERecv t =>
      w ← writer_recv (l_writer y) (length (l_hist y)) t;
      Some (set_writer y w (l_hist y ++ [t]))
  | EFlush junk wjunk =>
      '(w, f) ← writer_flush c (l_head y) (l_writer y) junk wjunk;
      Some (set_flights y (l_dev y) w (l_flights y ++ [(f, false)]) (l_backlog y)
              (N.max (l_maxflush y) (N.of_nat (length (fl_data f)))))
  | ETorn i v =>
      '(f, fin) ← l_flights y !! i;
      if (fin : bool) then None else
      Some (set_flights y (fun a => if flight_touches f a then v a else l_dev y a) (l_writer y) (l_flights y) (l_backlog y) (l_maxflush y))
  | EFinish i =>
      '(f, fin) ← l_flights y !! i;
      if (fin : bool) then None else
      dev ← flight_write c (l_dev y) f;
      Some (set_flights y dev (l_writer y) (<[i := (f, true)]> (l_flights y)) (l_backlog y) (l_maxflush y))
  | EHand i =>
      (* log_buffer.rs:712-718, 520-526 *)
      '(f, fin) ← l_flights y !! i;
      if negb (fin : bool) then None else
      match l_backlog y !! fl_id f with
      | Some _ => None
      | None => Some (set_flights y (l_dev y) (l_writer y) (delete i (l_flights y)) (<[fl_id f := f]> (l_backlog y)) (l_maxflush y))
      end
  | EComplete junk =>
      (* log_buffer.rs:527-541; the completer is not still applying (580) *)
      if negb (length (l_apply y) =? 0)%nat then None else
      let '(fs, bl, next) := drain (size (l_backlog y)) (l_backlog y) (l_cnext y) in
      f ← last fs;
      page ← state_page junk (l_head y) (fl_newtail f);
      let tasks := concat (fl_tasks <$> fs) in
      Some {| l_dev := l_dev y; l_page := page; l_head := l_head y; l_tail := fl_newtail f; l_writer := l_writer y;
              l_flights := l_flights y; l_backlog := bl; l_cnext := next; l_apply := tasks;
              l_commit := l_commit y; l_acked := l_acked y; l_hist := l_hist y; l_nhead := l_nhead y;
              l_ncommit := l_ncommit y; l_ntail := l_ntail y + length tasks; l_maxflush := l_maxflush y |}
  | EApply =>
      (* log_buffer.rs:545-571 *)
      match l_apply y with
      | [] => None
      | (n, _) :: rest =>
          Some {| l_dev := l_dev y; l_page := l_page y; l_head := l_head y; l_tail := l_tail y; l_writer := l_writer y;
                  l_flights := l_flights y; l_backlog := l_backlog y; l_cnext := l_cnext y; l_apply := rest;
                  l_commit := l_commit y; l_acked := l_acked y ++ [n]; l_hist := l_hist y; l_nhead := l_nhead y;
                  l_ncommit := l_ncommit y; l_ntail := l_ntail y; l_maxflush := l_maxflush y |}
      end
  | ECommitStart threshold =>
      (* log_buffer.rs:322-339 *)
      match l_apply y, l_commit y with
      | [], None =>
          if threshold <=? l_tail y - l_head y then
            Some {| l_dev := l_dev y; l_page := l_page y; l_head := l_head y; l_tail := l_tail y; l_writer := l_writer y;
                    l_flights := l_flights y; l_backlog := l_backlog y; l_cnext := l_cnext y; l_apply := [];
                    l_commit := Some (l_tail y); l_acked := l_acked y; l_hist := l_hist y; l_nhead := l_nhead y;
                    l_ncommit := l_ntail y; l_ntail := l_ntail y; l_maxflush := l_maxflush y |}
          else None
      | _, _ => None
      end
  | ECommitEnd junk =>
      (* log_buffer.rs:507-511 *)
      upto ← l_commit y;
      page ← state_page junk upto (l_tail y);
      Some {| l_dev := l_dev y; l_page := page; l_head := upto; l_tail := l_tail y; l_writer := l_writer y;
              l_flights := l_flights y; l_backlog := l_backlog y; l_cnext := l_cnext y; l_apply := l_apply y;
              l_commit := None; l_acked := l_acked y; l_hist := l_hist y; l_nhead := l_ncommit y;
              l_ncommit := l_ncommit y; l_ntail := l_ntail y; l_maxflush := l_maxflush y |}
  | ECrash =>
      log_open c (l_page y) (l_dev y) (l_acked y) (take (l_ntail y) (l_hist y)) (l_nhead y) (l_ntail y) (l_maxflush y)
  end.

Definition lrun (c : lconf) (y : lstate) (es : list levent) : option lstate :=
  foldl (fun y e => y ← y; lstep c y e) (Some y) es.

(** log_buffer.rs:152-156 [format_device], then opening; the log area holds
    whatever was there before. *)
Definition log_format (c : lconf) (dev : device) : option lstate :=
  log_open c (replicate (N.to_nat (2 ^ lc_spage c)) 0) dev [] [] 0 0 0.
