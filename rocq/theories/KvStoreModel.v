(** The object store of libblobd-kv: overlay, background commit, API operations
    and opening.

    Models libblobd-kv/src/log_buffer.rs:99-110 (overlay), 158-294 (opening),
    320-516 (commit), 545-571 (what the completer does with an operation),
    732-787 (reading, sending), libblobd-kv/src/op/write_object.rs,
    op/delete_object.rs, object.rs:217-266 (formatting and opening the index) and
    lib.rs:163-246.  The log itself is KvLogModel.v, whose steps are used here.

    Simplifications.
    - One function [ks_dev] holds index pages and heap; log area and state page
      are those of KvLogModel.v.  In the configuration computed by lib.rs:123-129
      the heap overlaps the log (C16_kv_heap_overlaps_log_refuted); the model is
      of a store whose heap never reaches that part.
    - An index page is read and written atomically (lib.rs:70-71); a heap write
      is not.
    - A client's send and the writer thread's receive are one step (the channel is
      a queue).
    - An index page's update (486-498: look up, release, serialise) is one step
      and its write another.  If it panics, the allocator keeps what was released
      before the panic only when the panic is the overflow of the page.
    - Metrics are left out.
    [None] is a step that is not possible, or that panics and ends the task
    making it. *)
From stdpp Require Import base numbers list option gmap countable.
From Verif Require Import Util Bytes PageIOModel BuddyModel KvCodecModel KvAllocModel KvReadModel KvLogModel.
Open Scope N_scope.

#[global] Instance okey_countable : Countable okey.
Proof.
  refine (inj_countable' (fun k => match k with KHash h => (true, h) | KLit l => (false, l) end)
                         (fun p => if fst p then KHash (snd p) else KLit (snd p)) _).
  by intros [].
Defined.

(** lib.rs:57-80, 93-129.  [kc_lpage] is 24 in the code (object.rs:51), [kc_thr]
    is [log_entry_data_len_inline_threshold]. *)
Record kconf := {
  kc_log : lconf;
  kc_base : N;          (* heap_dev_offset, the size of the index *)
  kc_heap : N;          (* heap_size *)
  kc_lpage : N;
  kc_thr : N;
  kc_commit : N;        (* log_buffer_commit_threshold *)
  kc_blake : list N -> list N
}.
Definition kc_spage (c : kconf) : N := lc_spage (kc_log c).
Definition kc_psize (c : kconf) : N := 2 ^ kc_spage c.
(** lib.rs:226. *)
Definition kc_pages (c : kconf) : N := kc_base c / kc_psize c.
Definition kc_key (c : kconf) (raw : list N) : okey := key_from_raw (kc_blake c) raw.
(** object.rs:166-169 on the hash of the key. *)
Definition kc_index (c : kconf) (k : okey) : option N := bundle_index (key_hash (kc_blake c) k) (kc_pages c).

(** log_buffer.rs:93-97, 107-110: an overlay map; [None] is [Deleted]. *)
Notation kmap := (gmap okey (option odata)).
Definition task_key (t : ltask) : okey := match t with TUpsert k _ => k | TDelete k => k end.
Definition task_entry (t : ltask) : option odata := match t with TUpsert _ d => Some d | TDelete _ => None end.
(** log_buffer.rs:546-567 and 233-254: insert the operation. *)
Definition overlay_insert (m : kmap) (t : ltask) : kmap := <[task_key t := task_entry t]> m.

(** A write whose value is being put on the heap, write_object.rs:58-72. *)
Record kwrite := { kw_key : list N; kw_val : list N; kw_off : N; kw_buf : list N; kw_done : bool }.

(** Stages of a commit, log_buffer.rs:362-511. *)
Inductive kstage :=
| CStart                                                       (* 364: entries taken, not grouped *)
| CHeap (hw : list (N * list N)) (ents : list (okey * option odata))  (* 424-432: values being written to the heap *)
| CPages (ents : list (okey * option odata)) (todo : list N) (ready : list (N * list N))
    (* 444-503: pages not yet read; pages updated in memory and being written *)
| CHeaded.                                                     (* 510: head written *)

(** [ks_vals], [ks_lost] and [ks_old] are book-keeping: the API operations behind
    [l_hist] (key and value), the index pages whose update panicked, and the
    overlay maps of earlier commits (readers may hold on to them). *)
Record kstate := {
  ks_log : lstate;
  ks_dev : device;
  ks_alloc : KvAlloc;
  ks_unc : kmap;             (* overlay.uncommitted *)
  ks_com : option kmap;      (* overlay.committing *)
  ks_commit : option kstage; (* the commit future, if [currently_committing] *)
  ks_writes : list kwrite;
  ks_vals : list (list N * option (list N));
  ks_lost : list N;
  ks_old : list kmap
}.

(** backing_store/mod.rs:40-51: the page [idx] of the index. *)
Definition page_at (c : kconf) (d : device) (idx : N) : list N := dev_read d (idx * kc_psize c) (kc_psize c).

(** ** Reading, log_buffer.rs:732-766. *)
(** 741: the overlay at this moment: its maps are shared, so the uncommitted one
    is known by its number; the committing one no longer changes. *)
Definition kv_clone (y : kstate) : nat * option kmap := (length (ks_old y), ks_com y).
(** 742-751: look into the two maps. *)
Definition kv_map (y : kstate) (n : nat) : option kmap :=
  if (n =? length (ks_old y))%nat then Some (ks_unc y) else ks_old y !! n.
Definition kv_get (y : kstate) (snap : nat * option kmap) (k : okey) : option (option odata) :=
  m ← kv_map y (fst snap);
  match m !! k with Some e => Some e | None => m ← snd snap; m !! k end.
(** 756-765: look into the index page; the first entry with the key. *)
Fixpoint page_find (l : list (okey * odata)) (k : okey) : option odata :=
  match l with
  | [] => None
  | (k', d) :: l => if bool_decide (k' = k) then Some d else page_find l k
  end.
(** [Some None] is not found; the outer [None] a panic on a malformed page. *)
Definition kv_page (c : kconf) (y : kstate) (k : okey) : option (option odata) :=
  idx ← kc_index c k;
  l ← bundle_read (page_at c (ks_dev y) idx);
  Some (page_find l k).
(** The three steps, each at its own moment. *)
Definition kv_read_tuple (c : kconf) (y1 y2 y3 : kstate) (raw : list N) : option (option odata) :=
  match kv_get y2 (kv_clone y1) (kc_key c raw) with
  | Some e => Some e
  | None => kv_page c y3 (kc_key c raw)
  end.
(** op/read_object.rs:45-104; the bytes are read at a fourth moment. *)
Definition kv_read_at (c : kconf) (y1 y2 y3 y4 : kstate) (raw : list N) (start : N) (req_end : option N)
  : option (kv_err + (list N * N * N)) :=
  t ← kv_read_tuple c y1 y2 y3 raw;
  kv_read_range (kc_spage c) (ks_dev y4) t start req_end.
(** ... with nothing else happening meanwhile. *)
Definition kv_read (c : kconf) (y : kstate) := kv_read_at c y y y y.

(** ** Updating an index page, log_buffer.rs:446-504. *)
(** 456-457 [collect]: a later entry replaces an earlier one. *)
Definition page_map (l : list (okey * odata)) : gmap okey odata :=
  foldl (fun m e => <[fst e := snd e]> m) ∅ l.
(** 458-483: the entries of the commit for this page; the extents of replaced and
    removed entries are released. *)
Fixpoint page_update (a : KvAlloc) (m : gmap okey odata) (es : list (okey * option odata)) : option (KvAlloc * gmap okey odata) :=
  match es with
  | [] => Some (a, m)
  | (k, e) :: es =>
      let m' := match e with None => delete k m | Some d => <[k := d]> m end in
      match m !! k with
      | Some (DHeap size off) =>
          match kv_release a off size with
          | Ok a' => page_update a' m' es
          | _ => None
          end
      | _ => page_update a m' es
      end
  end.
(** 444-449, 404-406: the entries that belong to the page. *)
Definition ents_of (c : kconf) (idx : N) (ents : list (okey * option odata)) : list (okey * option odata) :=
  filter (fun e => kc_index c (fst e) = Some idx) ents.
(** The whole update; [order] is the hash map's iteration order, [junk] the
    uninitialised page buffer.  The page is [None] if it panics. *)
Definition page_task (c : kconf) (d : device) (a : KvAlloc) (idx : N) (ents : list (okey * option odata))
  (order : list (okey * odata)) (junk : list N) : option (KvAlloc * option (list N)) :=
  if negb (N.of_nat (length junk) =? kc_psize c) then None else
  match bundle_read (page_at c d idx) with
  | None => Some (a, None)
  | Some l =>
      match page_update a (page_map l) (ents_of c idx ents) with
      | None => Some (a, None)
      | Some (a', m) =>
          if bool_decide (order ≡ₚ map_to_list m) then Some (a', bundle_serialise junk order) else None
      end
  end.

(** ** Moving values to the heap, log_buffer.rs:369-403.  [order] is the overlay
    map's iteration order, [junks] the uninitialised buffers. *)
Fixpoint group_moves (spage : N) (a : KvAlloc) (order : list (okey * option odata)) (junks : list (list N))
  : option (KvAlloc * list (N * list N) * list (okey * option odata)) :=
  match order with
  | [] => Some (a, [], [])
  | (k, e) :: order =>
      match e with
      | Some (DInline i) =>
          if tuple_inline_threshold <? N.of_nat (length i) then
            let size := N.of_nat (length i) in
            match kv_allocate a size, junks with
            | Ok (a, off), junk :: junks =>
                if negb (N.of_nat (length junk) =? N.max (2 ^ spage) (ceil_pow2 size spage)) then None else
                '(a, hw, ents) ← group_moves spage a order junks;
                Some (a, (off, i ++ drop (length i) junk) :: hw, (k, Some (DHeap size off)) :: ents)
            | _, _ => None
            end
          else '(a, hw, ents) ← group_moves spage a order junks; Some (a, hw, (k, e) :: ents)
      | _ => '(a, hw, ents) ← group_moves spage a order junks; Some (a, hw, (k, e) :: ents)
      end
  end.

(** ** Opening, lib.rs:183-246. *)
(** object.rs:237-266: all entries of all pages, in order.  The pages are read in
    runs of whole pages. *)
Definition index_entries (c : kconf) (d : device) : option (list (okey * odata)) :=
  ls ← mapM (fun i => bundle_read (page_at c d (N.of_nat i))) (seq 0 (N.to_nat (kc_pages c)));
  Some (concat ls).
(** object.rs:251-257. *)
Fixpoint mark_entries (a : KvAlloc) (l : list (okey * odata)) : option KvAlloc :=
  match l with
  | [] => Some a
  | (_, DInline _) :: l => mark_entries a l
  | (_, DHeap size off) :: l => match kv_mark a off size with Ok a => mark_entries a l | _ => None end
  end.
Definition kv_open (c : kconf) (d : device) (log : lstate) (ops : list ltask) (vals : list (list N * option (list N)))
  (lost : list N) : option kstate :=
  match kv_alloc_new (kc_base c) (kc_heap c) (kc_spage c) (kc_lpage c) with
  | Ok a =>
      l ← index_entries c d;
      a ← mark_entries a l;
      Some {| ks_log := log; ks_dev := d; ks_alloc := a; ks_unc := foldl overlay_insert ∅ ops; ks_com := None;
              ks_commit := None; ks_writes := []; ks_vals := vals; ks_lost := lost; ks_old := [] |}
  | _ => None
  end.
(** lib.rs:163-181 [format], object.rs:217-235, then opening. *)
Definition kv_format (c : kconf) (d logd : device) : option kstate :=
  log ← log_format (kc_log c) logd;
  kv_open c (fun a => if a <? kc_base c then 0 else d a) log [] [] [].

(** ** Steps. *)
Inductive kevent :=
| KWriteInline (raw val : list N)          (* write_object, value small: sent to the log *)
| KWriteHeap (raw val junk : list N)       (* write_object, value large: space allocated *)
| KWriteTorn (i : nat) (v : N -> N)        (* part of its bytes reaches the device *)
| KWriteDone (i : nat)                     (* its device write completes *)
| KWriteSend (i : nat)                     (* it is sent to the log *)
| KDelete (raw : list N)                   (* delete_object: sent to the log *)
| KLog (e : levent)                        (* the log's own steps *)
| KApply                                   (* the completer inserts and acknowledges one operation *)
| KCommitStart
| KGroup (order : list (okey * option odata)) (junks : list (list N))
| KMoveTorn (i : nat) (v : N -> N)
| KMoveDone (i : nat)                      (* a moved value is on the heap *)
| KPages                                   (* all are: go on to the index pages *)
| KPageUpdate (idx : N) (order : list (okey * odata)) (junk : list N)
| KPageWrite (i : nat)                     (* an updated page reaches the device *)
| KHead (junk : list N)                    (* log head and state page *)
| KCommitDone
| KCrash.                                  (* power loss, then opening again *)

(** The log's steps that concern nothing else. *)
Definition log_internal (e : levent) : bool :=
  match e with EFlush _ _ | ETorn _ _ | EFinish _ | EHand _ | EComplete _ => true | _ => false end.

Definition ks_set (y : kstate) (log : lstate) (d : device) (a : KvAlloc) (ws : list kwrite)
  (vals : list (list N * option (list N))) : kstate :=
  {| ks_log := log; ks_dev := d; ks_alloc := a; ks_unc := ks_unc y; ks_com := ks_com y; ks_commit := ks_commit y;
     ks_writes := ws; ks_vals := vals; ks_lost := ks_lost y; ks_old := ks_old y |}.
Definition ks_go (y : kstate) (log : lstate) (d : device) (a : KvAlloc) (st : option kstage) (lost : list N) : kstate :=
  {| ks_log := log; ks_dev := d; ks_alloc := a; ks_unc := ks_unc y; ks_com := ks_com y; ks_commit := st;
     ks_writes := ks_writes y; ks_vals := ks_vals y; ks_lost := lost; ks_old := ks_old y |}.
(** Arbitrary bytes in the range of an unfinished write. *)
Definition torn (d : device) (off : N) (buf : list N) (v : N -> N) : device :=
  fun a => if in_range off buf a then v a else d a.

Definition kstep (c : kconf) (y : kstate) (e : kevent) : option kstate :=
  match e with
  | KWriteInline raw val =>
      (* write_object.rs:53-57, 82 *)
      if (object_size_max <? N.of_nat (length val)) || (kc_thr c <? N.of_nat (length val)) then None else
      log ← lstep (kc_log c) (ks_log y) (ERecv (TUpsert (kc_key c raw) (DInline val)));
      Some (ks_set y log (ks_dev y) (ks_alloc y) (ks_writes y) (ks_vals y ++ [(raw, Some val)]))
  | KWriteHeap raw val junk =>
      (* write_object.rs:58-67 *)
      let size := N.of_nat (length val) in
      if (object_size_max <? size) || (size <=? kc_thr c) then None else
      match kv_allocate (ks_alloc y) size with
      | Ok (a, off) =>
          if negb (N.of_nat (length junk) =? N.max (kc_psize c) (ceil_pow2 size (kc_spage c))) then None else
          Some (ks_set y (ks_log y) (ks_dev y) a
                  (ks_writes y ++ [{| kw_key := raw; kw_val := val; kw_off := off;
                                      kw_buf := val ++ drop (length val) junk; kw_done := false |}]) (ks_vals y))
      | _ => None
      end
  | KWriteTorn i v =>
      w ← ks_writes y !! i;
      if kw_done w then None else
      Some (ks_set y (ks_log y) (torn (ks_dev y) (kw_off w) (kw_buf w) v) (ks_alloc y) (ks_writes y) (ks_vals y))
  | KWriteDone i =>
      (* write_object.rs:68 *)
      w ← ks_writes y !! i;
      if kw_done w then None else
      d ← od_write (kc_spage c) (ks_dev y) (kw_off w) (kw_buf w);
      Some (ks_set y (ks_log y) d (ks_alloc y)
              (<[i := {| kw_key := kw_key w; kw_val := kw_val w; kw_off := kw_off w; kw_buf := kw_buf w; kw_done := true |}]> (ks_writes y))
              (ks_vals y))
  | KWriteSend i =>
      (* write_object.rs:69-72, 82 *)
      w ← ks_writes y !! i;
      if negb (kw_done w) then None else
      log ← lstep (kc_log c) (ks_log y) (ERecv (TUpsert (kc_key c (kw_key w)) (DHeap (N.of_nat (length (kw_val w))) (kw_off w))));
      Some (ks_set y log (ks_dev y) (ks_alloc y) (delete i (ks_writes y)) (ks_vals y ++ [(kw_key w, Some (kw_val w))]))
  | KDelete raw =>
      log ← lstep (kc_log c) (ks_log y) (ERecv (TDelete (kc_key c raw)));
      Some (ks_set y log (ks_dev y) (ks_alloc y) (ks_writes y) (ks_vals y ++ [(raw, None)]))
  | KLog e =>
      if negb (log_internal e) then None else
      log ← lstep (kc_log c) (ks_log y) e;
      Some (ks_set y log (ks_dev y) (ks_alloc y) (ks_writes y) (ks_vals y))
  | KApply =>
      (* log_buffer.rs:545-571 *)
      '(_, t) ← head (l_apply (ks_log y));
      log ← lstep (kc_log c) (ks_log y) EApply;
      Some {| ks_log := log; ks_dev := ks_dev y; ks_alloc := ks_alloc y; ks_unc := overlay_insert (ks_unc y) t; ks_com := ks_com y;
              ks_commit := ks_commit y; ks_writes := ks_writes y; ks_vals := ks_vals y; ks_lost := ks_lost y; ks_old := ks_old y |}
  | KCommitStart =>
      (* log_buffer.rs:322-340 *)
      match ks_commit y, ks_com y with
      | None, None =>
          log ← lstep (kc_log c) (ks_log y) (ECommitStart (kc_commit c));
          Some {| ks_log := log; ks_dev := ks_dev y; ks_alloc := ks_alloc y; ks_unc := ∅; ks_com := Some (ks_unc y);
                  ks_commit := Some CStart; ks_writes := ks_writes y; ks_vals := ks_vals y; ks_lost := ks_lost y;
                  ks_old := ks_old y ++ [ks_unc y] |}
      | _, _ => None
      end
  | KGroup order junks =>
      match ks_commit y, ks_com y with
      | Some CStart, Some m =>
          if negb (bool_decide (order ≡ₚ map_to_list m)) then None else
          '(a, hw, ents) ← group_moves (kc_spage c) (ks_alloc y) order junks;
          Some (ks_go y (ks_log y) (ks_dev y) a (Some (CHeap hw ents)) (ks_lost y))
      | _, _ => None
      end
  | KMoveTorn i v =>
      match ks_commit y with
      | Some (CHeap hw ents) =>
          '(off, buf) ← hw !! i;
          Some (ks_go y (ks_log y) (torn (ks_dev y) off buf v) (ks_alloc y) (ks_commit y) (ks_lost y))
      | _ => None
      end
  | KMoveDone i =>
      (* log_buffer.rs:424-432 *)
      match ks_commit y with
      | Some (CHeap hw ents) =>
          '(off, buf) ← hw !! i;
          d ← od_write (kc_spage c) (ks_dev y) off buf;
          Some (ks_go y (ks_log y) d (ks_alloc y) (Some (CHeap (delete i hw) ents)) (ks_lost y))
      | _ => None
      end
  | KPages =>
      match ks_commit y with
      | Some (CHeap [] ents) =>
          idxs ← mapM (fun e => kc_index c (fst e)) ents;
          Some (ks_go y (ks_log y) (ks_dev y) (ks_alloc y) (Some (CPages ents (remove_dups idxs) [])) (ks_lost y))
      | _ => None
      end
  | KPageUpdate idx order junk =>
      match ks_commit y with
      | Some (CPages ents todo ready) =>
          if negb (bool_decide (idx ∈ todo)) then None else
          '(a, page) ← page_task c (ks_dev y) (ks_alloc y) idx ents order junk;
          let todo := filter (fun i => i <> idx) todo in
          match page with
          | Some page => Some (ks_go y (ks_log y) (ks_dev y) a (Some (CPages ents todo (ready ++ [(idx, page)]))) (ks_lost y))
          | None => (* log_buffer.rs:502: the panic is ignored *)
              Some (ks_go y (ks_log y) (ks_dev y) a (Some (CPages ents todo ready)) (ks_lost y ++ [idx]))
          end
      | _ => None
      end
  | KPageWrite i =>
      (* log_buffer.rs:487-490 *)
      match ks_commit y with
      | Some (CPages ents todo ready) =>
          '(idx, page) ← ready !! i;
          d ← od_write (kc_spage c) (ks_dev y) (idx * kc_psize c) page;
          Some (ks_go y (ks_log y) d (ks_alloc y) (Some (CPages ents todo (delete i ready))) (ks_lost y))
      | _ => None
      end
  | KHead junk =>
      match ks_commit y with
      | Some (CPages _ [] []) =>
          log ← lstep (kc_log c) (ks_log y) (ECommitEnd junk);
          Some (ks_go y log (ks_dev y) (ks_alloc y) (Some CHeaded) (ks_lost y))
      | _ => None
      end
  | KCommitDone =>
      (* log_buffer.rs:512-513 *)
      match ks_commit y with
      | Some CHeaded =>
          Some {| ks_log := ks_log y; ks_dev := ks_dev y; ks_alloc := ks_alloc y; ks_unc := ks_unc y; ks_com := None;
                  ks_commit := None; ks_writes := ks_writes y; ks_vals := ks_vals y; ks_lost := ks_lost y; ks_old := ks_old y |}
      | _ => None
      end
  | KCrash =>
      '(_, _, ops) ← log_load (kc_log c) (l_page (ks_log y)) (l_dev (ks_log y));
      log ← lstep (kc_log c) (ks_log y) ECrash;
      kv_open c (ks_dev y) log ops (take (l_ntail (ks_log y)) (ks_vals y)) (ks_lost y)
  end.

Definition krun (c : kconf) (y : kstate) (es : list kevent) : option kstate :=
  foldl (fun y e => y ← y; kstep c y e) (Some y) es.
