(** What a libblobd-lite store (with [versioning] off) must do, as a keyed object
    store: no chains, overlay, journal or pages. *)
From stdpp Require Import base numbers option gmap list.
From Verif Require Import Util BuddySpec MetaModel PageIOModel PageIOSpec JournalModel JournalSpec LiteModel.
Open Scope N_scope.

(** An object: id, size, and the bytes known to have been written. *)
Record sobj := { so_id : N; so_size : N; so_bytes : N -> option N }.
(** Incomplete objects by id (with their key); the committed object of each key. *)
Record sstore := { ss_inc : gmap N (list N * sobj); ss_com : gmap (list N) sobj }.
Definition ss_empty : sstore := {| ss_inc := ∅; ss_com := ∅ |}.

(** The committed object a request for [key] (and possibly one id) means. *)
Definition ss_find (st : sstore) (key : list N) (oid : option N) : option sobj :=
  o ← ss_com st !! key; if id_ok oid (so_id o) then Some o else None.
(** The incomplete object [id] of [key]. *)
Definition ss_incomplete (st : sstore) (key : list N) (id : N) : option sobj :=
  '(k, o) ← ss_inc st !! id; if bool_decide (k = key) then Some o else None.

(** Contents after part [offset] (of at most [2^lpage] bytes) was uploaded
    successfully, or was attempted and failed. *)
Definition put (o : sobj) (offset : N) (data : list N) : sobj :=
  {| so_id := so_id o; so_size := so_size o;
     so_bytes := fun i => if (offset <=? i) && (i <? offset + N.of_nat (length data))
                          then data !! N.to_nat (i - offset) else so_bytes o i |}.
Definition spoil (lpage : N) (o : sobj) (offset : N) : sobj :=
  {| so_id := so_id o; so_size := so_size o;
     so_bytes := fun i => if (offset <=? i) && (i <? offset + 2 ^ lpage) then None else so_bytes o i |}.

(** One operation with its result. *)
Inductive sstep (lpage : N) (st : sstore) : lobs -> sstore -> Prop :=
| SCreate key size id :
    ss_inc st !! id = None -> (forall k o, ss_com st !! k = Some o -> so_id o <> id) ->
    sstep lpage st (OCreate key size id)
      {| ss_inc := <[id := (key, {| so_id := id; so_size := size; so_bytes := fun _ => None |})]> (ss_inc st);
         ss_com := ss_com st |}
(** the record (39 bytes, the key, 6 bytes for each page, the associated data)
    must fit a large page; at most 24 pages are smaller than a large page *)
| STooLarge key size assoc :
    2 ^ lpage < 39 + N.of_nat (length key) + 6 * (size / 2 ^ lpage + 24) + N.of_nat (length assoc) ->
    sstep lpage st (OTooLarge key size assoc) st
| SFull key size : sstep lpage st (OFull key size) st
| SCommit key id o :
    ss_incomplete st key id = Some o ->
    sstep lpage st (OCommit key id true)
      {| ss_inc := delete id (ss_inc st); ss_com := <[key := o]> (ss_com st) |}
| SCommitFail key id :
    ss_incomplete st key id = None -> sstep lpage st (OCommit key id false) st
| SDelete key oid o :
    ss_find st key oid = Some o ->
    sstep lpage st (ODelete key oid true) {| ss_inc := ss_inc st; ss_com := delete key (ss_com st) |}
| SDeleteFail key oid :
    ss_find st key oid = None -> sstep lpage st (ODelete key oid false) st
| SInspect key oid :
    sstep lpage st (OInspect key oid ((fun o => (so_id o, so_size o)) <$> ss_find st key oid)) st
| SWrite key id offset len stream o :
    ss_incomplete st key id = Some o -> valid_part lpage (so_size o) offset len ->
    no_fail stream -> N.of_nat (length (stream_bytes stream)) = len ->
    sstep lpage st (OWrite key id offset len stream WOk)
      {| ss_inc := <[id := (key, put o offset (stream_bytes stream))]> (ss_inc st); ss_com := ss_com st |}
(** not a part: nothing changes *)
| SWriteBad key id offset len stream e o :
    ss_incomplete st key id = Some o -> part_error lpage (so_size o) offset len e ->
    sstep lpage st (OWrite key id offset len stream (WErr e)) st
(** a bad stream: the part has to be written again *)
| SWriteStream key id offset len stream r o :
    ss_incomplete st key id = Some o -> valid_part lpage (so_size o) offset len -> stream_fault stream len r ->
    sstep lpage st (OWrite key id offset len stream r)
      {| ss_inc := <[id := (key, spoil lpage o offset)]> (ss_inc st); ss_com := ss_com st |}
| SWriteFail key id offset len stream :
    ss_incomplete st key id = None ->
    sstep lpage st (OWrite key id offset len stream (WErr ObjectNotFound)) st
| SRead key oid start fin o l :
    ss_find st key oid = Some o ->
    start < default (so_size o) fin <= so_size o ->
    N.of_nat (length l) = default (so_size o) fin - start ->
    (forall i v, start <= i < default (so_size o) fin -> so_bytes o i = Some v -> l !! N.to_nat (i - start) = Some v) ->
    sstep lpage st (ORead key oid start fin (RBytes l)) st
| SReadRange key oid start fin o :
    ss_find st key oid = Some o ->
    ~ (start < default (so_size o) fin <= so_size o) ->
    sstep lpage st (ORead key oid start fin RRange) st
| SReadFail key oid start fin :
    ss_find st key oid = None -> sstep lpage st (ORead key oid start fin RNotFound) st.

Inductive ssteps (lpage : N) : sstore -> list lobs -> sstore -> Prop :=
| ssteps_nil st : ssteps lpage st [] st
| ssteps_cons st o st1 os st2 : sstep lpage st o st1 -> ssteps lpage st1 os st2 -> ssteps lpage st (o :: os) st2.

(** Configurations: the bounds the library asserts or relies on.  The buckets
    come first, then the journal, then the heap; addresses fit 48 bits; the
    journal has room for two short writes. *)
Record conf_sizes (c : liconf) : Prop := {
  co_hash : forall l, length (jc_hash (li_jc c) l) = 32%nat;
  co_cap : 36 <= jc_cap (li_jc c);
  co_fits : forall t : txn, (length t <= 2)%nat -> (forall w, w ∈ t -> (length (snd w) <= 6)%nat) -> fits (li_jc c) t;
  co_bpow : li_bpow c <= 48;
  co_keys : forall k, li_hash c k < 2 ^ 64;
  co_joff : bucket_off (2 ^ li_bpow c) <= jc_off (li_jc c);
  co_base : jc_off (li_jc c) + jc_cap (li_jc c) <= li_base c;
  co_align : li_base c mod 2 ^ li_lpage c = 0;
  co_halign : li_heap c mod 2 ^ li_lpage c = 0;
  co_end : li_base c + li_heap c <= 2 ^ 48;
  co_spage : MIN_PAGE_SIZE_POW2 <= li_spage c;
  co_pages : li_spage c <= li_lpage c;
  co_lpage : li_lpage c < 32;
  co_ratio : li_lpage c <= li_spage c + 24;
}.
(** ... with [versioning] off. *)
Record conf_ok (c : liconf) : Prop := { co_sizes :> conf_sizes c; co_versioning : li_versioning c = false }.

(** Requests whose values fit the fields of the record (see C07 for what happens
    otherwise), and parts whose end does not overflow 64 bits (see C09). *)
Definition event_ok (c : liconf) (e : levent) : Prop :=
  match e with
  | LCreate key size assoc id ms =>
      N.of_nat (length key) < 2 ^ 16 /\ N.of_nat (length assoc) < 2 ^ 16 /\ size < 2 ^ 40 /\ id < 2 ^ 128 /\ ms < 2 ^ 48
  | LWrite _ _ offset _ _ _ _ => offset + 2 ^ li_lpage c < 2 ^ 64
  | _ => True
  end.

(** The store right after a new device was formatted and opened. *)
Definition li_init (c : liconf) (d : device) (a : BuddyModel.Allocator) : lstate :=
  mk (jinit (li_format c d)) a ov_new [] [].

(** No call on [key]'s bucket still waits for the journal. *)
Definition bucket_quiet (c : liconf) (s : lstate) (key : list N) : Prop :=
  forall i b sig tks free, ls_calls s !! i = Some (LWait b sig tks free) -> b <> bucket_of c key.
(** Nothing is in progress. *)
Definition idle (s : lstate) : Prop := forall i cl, ls_calls s !! i = Some cl -> cl = LDone.

(** The call removes an object that is not the first of its bucket's chain. *)
Definition removes_inner (c : liconf) (s : lstate) (e : levent) : Prop :=
  match e with
  | LCommit key id fuel _ =>
      li_versioning c = false /\
      exists f ex, find_for_commit c (now s) key fuel id = WkDone (Some f, Some ex) /\ f_prev ex <> None
  | LDelete key oid fuel _ =>
      exists f, find_object c (now s) key fuel st_committed oid = WkDone (Some f) /\ f_prev f <> None
  | _ => False
  end.
Definition event_key (e : levent) : list N :=
  match e with LCommit key _ _ _ | LDelete key _ _ _ => key | _ => [] end.
(** A history in which such a call is made only while no other call on the same
    bucket still waits for the journal; everything else is unrestricted. *)
Fixpoint calm (c : liconf) (s : lstate) (es : list levent) : Prop :=
  match es with
  | [] => True
  | e :: es =>
      (removes_inner c s e -> bucket_quiet c s (event_key e)) /\
      match lstep c s e with Some (s', _) => calm c s' es | None => True end
  end.
(** A history in which every operation is started only after the one before has
    returned (journal steps happen at any time). *)
Fixpoint one_by_one (c : liconf) (s : lstate) (es : list levent) : Prop :=
  match es with
  | [] => True
  | e :: es =>
      match e with
      | LCreate _ _ _ _ _ | LCommit _ _ _ _ | LDelete _ _ _ _ | LInspect _ _ _
      | LWrite _ _ _ _ _ _ _ | LRead _ _ _ _ _ _ => idle s
      | _ => True
      end /\
      match lstep c s e with Some (s', _) => one_by_one c s' es | None => True end
  end.
