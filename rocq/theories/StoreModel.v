(** The stores that the benchmark compares blobd with, through the adapters of
    store/src/{rocksdb,kv,fs,s3}.rs.

    The systems behind the adapters - a file system, RocksDB, an S3 service - are
    modelled from their documentation: files are byte strings at paths, a database is
    a map, S3 has objects and multipart uploads.  A call takes effect at one moment;
    timing, streams of several chunks and metrics are left out.  The kv store is taken
    by its specification (C34): a map from keys to values. *)
From stdpp Require Import base numbers list option gmap sorting.
From Verif Require Import Util Bytes TokenModel.
Open Scope N_scope.

(** store/src/lib.rs:30-96: the calls of the [Store] trait and what they return.
    Neither rocksdb nor fs nor s3 has object ids; the kv store has none either. *)
Inductive sop :=
| SoCreate (key : list N) (size : N)
| SoWrite (key : list N) (tok off : N) (data : list N)
| SoCommit (key : list N) (tok : N)
| SoInspect (key : list N)
| SoRead (key : list N) (start : N) (fin : option N)
| SoDelete (key : list N).
Inductive sans := AnToken (tok : N) | AnUnit | AnSize (n : N) | AnData (bytes : list N).
(** What a call may lead to in a state: [Some] with its answer and the new state, or
    [None], when it panics or never ends. *)
Definition adapter (S : Type) : Type := S -> sop -> option (sans * S) -> Prop.
Inductive runs {S} (A : adapter S) (s0 : S) : list (sop * sans) -> S -> Prop :=
| ru_nil : runs A s0 [] s0
| ru_snoc h s op ans s' : runs A s0 h s -> A s op (Some (ans, s')) -> runs A s0 (h ++ [(op, ans)]) s'.

Definition bytes_from (l : list N) (a n : N) : list N := take (N.to_nat n) (drop (N.to_nat a) l).
Definition blen (l : list N) : N := N.of_nat (length l).

(** ** rocksdb.rs:86-167, kv.rs:122-189 *)
(** [write_chunk_size]: rocksdb.rs:92-94, kv.rs:122-124, fs.rs:60-62 *)
Definition whole_chunk : N := 2 ^ 64 - 1.
(** [limit] is the size above which the store refuses a value: none for RocksDB;
    libblobd-kv/src/op/write_object.rs:53-55 [OBJECT_SIZE_MAX] for kv. *)
Definition map_call (limit : option N) (m : gmap (list N) (list N)) (op : sop) : option (sans * gmap (list N) (list N)) :=
  match op with
  | SoCreate _ _ => Some (AnToken 0, m)                                   (* rocksdb.rs:108-110, kv.rs:130-134 *)
  | SoWrite key _ off data =>                                             (* rocksdb.rs:112-123, kv.rs:136-146 *)
      if negb (off =? 0) then None
      else if match limit with Some x => x <? blen data | None => false end then None
      else Some (AnUnit, <[key := data]> m)
  | SoCommit _ _ => Some (AnUnit, m)                                      (* rocksdb.rs:125-127, kv.rs:148-150 *)
  | SoInspect key => d ← m !! key; Some (AnSize (blen d), m)              (* rocksdb.rs:129-138, kv.rs:152-166 *)
  | SoRead key start fin =>                                               (* rocksdb.rs:140-155, kv.rs:168-181 with op/read_object.rs:56-66 *)
      d ← m !! key;
      let e := default (blen d) fin in
      if (start <=? e) && (e <=? blen d) then Some (AnData (bytes_from d start (e - start)), m) else None
  | SoDelete key => Some (AnUnit, base.delete key m)                      (* rocksdb.rs:157-166, kv.rs:183-189 *)
  end.
Definition map_store (limit : option N) : adapter (gmap (list N) (list N)) := fun m op out => out = map_call limit m op.

(** ** fs.rs *)
(** [fc_may m n]: a read that could return [m] bytes may return [n]; [fc_hash] stands
    for [blake3::hash]. *)
Record fscfg := { fc_prefix : list (list N); fc_tiering : nat; fc_hash : list N -> list N; fc_may : N -> N -> Prop }.
Record fsst := { fs_files : gmap (list (list N)) (list N); fs_dirs : gset (list (list N)) }.
(** fs.rs:41-51 [get_path].  A path is the list of its components. *)
Definition fs_tiers (c : fscfg) (key : list N) : list (list N) :=
  (fun ch => [ch]) <$> take (fc_tiering c) (b64_encode (fc_hash c key)).
Definition fs_path (c : fscfg) (key : list N) : list (list N) := fc_prefix c ++ fs_tiers c key ++ [b64_encode key].
(** A path and the directories above it. *)
Definition upto (p : list (list N)) : list (list (list N)) := (fun n => take n p) <$> seq 1 (length p).
(** [write_all_at]: a file grows, with zeros in between, when written past its end. *)
Definition file_write (f : list N) (off : N) (data : list N) : list N :=
  match data with
  | [] => f
  | _ => take (N.to_nat off) (f ++ replicate (N.to_nat off - length f) 0) ++ data ++ drop (N.to_nat off + length data) f
  end.
(** fs.rs:125-135: the reading loop at [pos] of file [f] with [rem] to go and a buffer
    of [len] bytes, which is never shortened.  [None]: [rem -= n] goes below zero
    (a panic, or a wrapped number and no end), or the file has ended and every read
    returns nothing, for ever. *)
Inductive fs_reading (c : fscfg) (f : list N) (len : N) : N -> N -> option (list N) -> Prop :=
| fr_done pos : fs_reading c f len pos 0 (Some [])
| fr_stuck pos rem : 0 < rem -> blen f <= pos -> fs_reading c f len pos rem None
| fr_over pos rem n : 0 < rem -> pos < blen f -> fc_may c (N.min len (blen f - pos)) n -> rem < n -> fs_reading c f len pos rem None
| fr_more pos rem n r : 0 < rem -> pos < blen f -> fc_may c (N.min len (blen f - pos)) n -> n <= rem ->
    fs_reading c f len (pos + n) (rem - n) r -> fs_reading c f len pos rem ((fun l => bytes_from f pos n ++ l) <$> r).
Inductive fs_call (c : fscfg) (s : fsst) : sop -> option (sans * fsst) -> Prop :=
| fc_create key size :                                                    (* fs.rs:67-85 *)
    let p := fs_path c key in
    fs_call c s (SoCreate key size)
      (if existsb (fun d => bool_decide (is_Some (fs_files s !! d))) (upto (removelast p)) then None
       else let dirs := fs_dirs s ∪ list_to_set (upto (removelast p)) in
            (* an empty name leaves the path of a directory; a name has at most 255 bytes *)
            if bool_decide (p ∈ dirs) || bool_decide (b64_encode key = []) || (255 <? blen (b64_encode key)) then None
            else Some (AnToken 0, {| fs_files := <[p := []]> (fs_files s); fs_dirs := dirs |}))
| fc_write key tok off data :                                             (* fs.rs:87-103 *)
    fs_call c s (SoWrite key tok off data)
      (f ← fs_files s !! fs_path c key; Some (AnUnit, {| fs_files := <[fs_path c key := file_write f off data]> (fs_files s); fs_dirs := fs_dirs s |}))
| fc_commit key tok : fs_call c s (SoCommit key tok) (Some (AnUnit, s))   (* fs.rs:105-107 *)
| fc_inspect key :                                                        (* fs.rs:109-115 *)
    fs_call c s (SoInspect key) (f ← fs_files s !! fs_path c key; Some (AnSize (blen f), s))
| fc_no_file key start fin : fs_files s !! fs_path c key = None -> fs_call c s (SoRead key start fin) None
| fc_backwards key start fin f :                                          (* fs.rs:126: end - start *)
    fs_files s !! fs_path c key = Some f -> default (blen f) fin < start -> fs_call c s (SoRead key start fin) None
| fc_read key start fin f r :                                             (* fs.rs:117-139 *)
    fs_files s !! fs_path c key = Some f -> start <= default (blen f) fin ->
    fs_reading c f (default (blen f) fin - start) start (default (blen f) fin - start) r ->
    fs_call c s (SoRead key start fin) ((fun l => (AnData l, s)) <$> r)
| fc_delete key :                                                         (* fs.rs:141-144 *)
    fs_call c s (SoDelete key)
      (if bool_decide (is_Some (fs_files s !! fs_path c key)) then Some (AnUnit, {| fs_files := base.delete (fs_path c key) (fs_files s); fs_dirs := fs_dirs s |}) else None).
Definition fs_store (c : fscfg) : adapter fsst := fs_call c.
Definition fs_empty : fsst := {| fs_files := ∅; fs_dirs := ∅ |}.

(** ** s3.rs *)
(** [sc_min]: the least size of a part that is not the last (5 MiB); [sc_parts]: the
    largest part number (10000); [sc_etag]: what the service answers for a part. *)
Record s3cfg := { sc_part : N; sc_min : N; sc_parts : N; sc_etag : list N -> N }.
(** The service's objects and uploads; the adapter's table (s3.rs:66-77). *)
Record s3st := {
  s3_objects : gmap (list N) (list N);
  s3_uploads : gmap N (list N * gmap N (list N));
  s3_inflight : gmap N (list N * gmap N N);
}.
Definition s3_empty : s3st := {| s3_objects := ∅; s3_uploads := ∅; s3_inflight := ∅ |}.
Definition by_number (a b : N * N) : Prop := fst a <= fst b.
Global Instance by_number_dec a b : Decision (by_number a b).
Proof. unfold by_number. apply _. Defined.
(** CompleteMultipartUpload: every listed part must be there with its etag, all but
    the last of [sc_min] bytes. *)
Fixpoint s3_complete (c : s3cfg) (parts : gmap N (list N)) (l : list (N * N)) : option (list N) :=
  match l with
  | [] => Some []
  | (n, etag) :: l' =>
      d ← parts !! n;
      if negb (sc_etag c d =? etag) then None
      else if match l' with [] => false | _ => blen d <? sc_min c end then None
      else rest ← s3_complete c parts l'; Some (d ++ rest)
  end.
(** GetObject with [Range: bytes=a-b], both ends inclusive; no byte of the range in
    the object: 416.  A range that ends before it begins is ignored. *)
Definition s3_get (d : list N) (a b : N) : option (list N) :=
  if b <? a then Some d else if blen d <=? a then None else Some (bytes_from d a (N.min b (blen d - 1) - a + 1)).
Inductive s3_call (c : s3cfg) (s : s3st) : sop -> option (sans * s3st) -> Prop :=
| sc_create key size id :                                                 (* s3.rs:91-103 *)
    s3_uploads s !! id = None -> s3_inflight s !! id = None ->
    s3_call c s (SoCreate key size)
      (Some (AnToken id, {| s3_objects := s3_objects s; s3_uploads := <[id := (b64_encode key, ∅)]> (s3_uploads s); s3_inflight := s3_inflight s |}))
| sc_write key id off data :                                              (* s3.rs:105-132 *)
    let n := off / sc_part c + 1 in
    s3_call c s (SoWrite key id off data)
      (if negb (off mod sc_part c =? 0) then None
       else if sc_parts c <? n then None
       else '(k, parts) ← s3_uploads s !! id;
            if negb (bool_decide (k = b64_encode key)) then None
            else let '(k', etags) := default (b64_encode key, ∅) (s3_inflight s !! id) in
                 match etags !! n with
                 | Some _ => None
                 | None => Some (AnUnit, {| s3_objects := s3_objects s; s3_uploads := <[id := (k, <[n := data]> parts)]> (s3_uploads s);
                                            s3_inflight := <[id := (k', <[n := sc_etag c data]> etags)]> (s3_inflight s) |})
                 end)
| sc_commit key id :                                                      (* s3.rs:134-164 *)
    s3_call c s (SoCommit key id)
      ('(k, etags) ← s3_inflight s !! id;
       '(k', parts) ← s3_uploads s !! id;
       if negb (bool_decide (k = k')) then None
       else d ← s3_complete c parts (merge_sort by_number (map_to_list etags));
            Some (AnUnit, {| s3_objects := <[k := d]> (s3_objects s); s3_uploads := base.delete id (s3_uploads s); s3_inflight := base.delete id (s3_inflight s) |}))
| sc_inspect key :                                                        (* s3.rs:166-179 *)
    s3_call c s (SoInspect key) (d ← s3_objects s !! b64_encode key; Some (AnSize (blen d), s))
| sc_read key start fin :                                                 (* s3.rs:181-200 *)
    s3_call c s (SoRead key start fin)
      (d ← s3_objects s !! b64_encode key; l ← s3_get d start (default (2 ^ 64 - 1) fin); Some (AnData l, s))
| sc_delete key :                                                         (* s3.rs:202-211 *)
    s3_call c s (SoDelete key) (Some (AnUnit, {| s3_objects := base.delete (b64_encode key) (s3_objects s); s3_uploads := s3_uploads s; s3_inflight := s3_inflight s |})).
Definition s3_store (c : s3cfg) : adapter s3st := s3_call c.
