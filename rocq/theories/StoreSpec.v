(** What the calls of the [Store] trait are to do (C64). *)
From stdpp Require Import base numbers list option gmap functions.
From Verif Require Import Bytes StoreModel.
Open Scope N_scope.

(** A key has nothing, or an upload that is under way, or an object. *)
Inductive kstate := KAbsent | KUpload (tok size : N) (parts : gmap N (list N)) | KStored (data : list N).

Definition op_key (op : sop) : list N :=
  match op with SoCreate k _ | SoWrite k _ _ _ | SoCommit k _ | SoInspect k | SoRead k _ _ | SoDelete k => k end.

(** Where the parts of an object of [size] bytes begin. *)
Definition tiles (chunk size : N) : list N := (fun k => N.of_nat k * chunk) <$> seq 0 (N.to_nat ((size + chunk - 1) / chunk)).
(** The bytes of an upload are its parts one after the other. *)
Definition upload_data (chunk size : N) (parts : gmap N (list N)) : list N :=
  tiles chunk size ≫= (fun off => default [] (parts !! off)).

(** The calls a client makes in their turn: an upload is begun where there is nothing,
    each part is written once, in any order, and all before the commit; what is stored
    is read within its size. *)
Definition allowed (chunk : N) (st : kstate) (op : sop) : Prop :=
  match op, st with
  | SoCreate key size, KAbsent => Forall is_byte key /\ size < 2 ^ 64
  | SoWrite _ tok off data, KUpload tok' size parts =>
      tok = tok' /\ off ∈ tiles chunk size /\ parts !! off = None /\ blen data = N.min chunk (size - off)
  | SoCommit _ tok, KUpload tok' size parts => tok = tok' /\ forall off, off ∈ tiles chunk size -> is_Some (parts !! off)
  | SoInspect _, KStored _ | SoDelete _, KStored _ => True
  | SoRead _ start fin, KStored data => start <= default (blen data) fin <= blen data
  | _, _ => False
  end.
(** The answer a call must get. *)
Definition right (st : kstate) (op : sop) (ans : sans) : Prop :=
  match op, st with
  | SoCreate _ _, _ => exists tok, ans = AnToken tok
  | SoInspect _, KStored data => ans = AnSize (blen data)
  | SoRead _ start fin, KStored data => ans = AnData (bytes_from data start (default (blen data) fin - start))
  | _, _ => ans = AnUnit
  end.
(** What the key has after the call. *)
Definition next (chunk : N) (st : kstate) (op : sop) (ans : sans) : kstate :=
  match op, st, ans with
  | SoCreate _ size, _, AnToken tok => KUpload tok size ∅
  | SoWrite _ _ off data, KUpload tok size parts, _ => KUpload tok size (<[off := data]> parts)
  | SoCommit _ _, KUpload _ size parts, _ => KStored (upload_data chunk size parts)
  | SoDelete _, _, _ => KAbsent
  | _, _, _ => st
  end.

(** A history in which every call is made in its turn, and what each key has at its
    end.  [ok] stands for what is asked of the calls besides. *)
Inductive follows (chunk : N) (ok : kstate -> sop -> Prop) : list (sop * sans) -> (list N -> kstate) -> Prop :=
| fo_nil : follows chunk ok [] (fun _ => KAbsent)
| fo_snoc h F op ans : follows chunk ok h F -> allowed chunk (F (op_key op)) op -> ok (F (op_key op)) op ->
    follows chunk ok (h ++ [(op, ans)]) (<[op_key op := next chunk (F (op_key op)) op ans]> F).

(** After every such history every such call has an outcome, and each possible one is
    a good answer. *)
Definition answers {S} (A : adapter S) (s0 : S) (chunk : N) (ok : kstate -> sop -> Prop) (good : kstate -> sop -> sans -> Prop) : Prop :=
  forall h s F op, runs A s0 h s -> follows chunk ok h F -> allowed chunk (F (op_key op)) op -> ok (F (op_key op)) op ->
    (exists out, A s op out) /\
    forall out, A s op out -> exists ans s', out = Some (ans, s') /\ good (F (op_key op)) op ans.
Definition keeps_contract {S} (A : adapter S) (s0 : S) (chunk : N) (ok : kstate -> sop -> Prop) : Prop := answers A s0 chunk ok right.

(** ** What is asked besides, of each adapter *)
(** RocksDB and kv: an object has a byte, and not more than the store takes. *)
Definition map_ok (limit : option N) (st : kstate) (op : sop) : Prop :=
  match op with SoCreate _ size => 0 < size /\ match limit with Some x => size <= x | None => True end | _ => True end.
(** Files. *)
(** A read returns something where there is something. *)
Record reads_some (c : fscfg) : Prop := { rs_some : forall m, 0 < m -> exists n, fc_may c m n; rs_le : forall m n, fc_may c m n -> 0 < m -> 0 < n <= m }.
(** And as much as it can, up to [cap]. *)
Definition reads_whole (c : fscfg) (cap : N) : Prop := forall m n, fc_may c m n -> n = N.min m cap.
(** A key has a byte and not more than fit in a name; a range that does not end with
    the file is read in one go. *)
Definition fs_ok (c : fscfg) (st : kstate) (op : sop) : Prop :=
  match op, st with
  | SoCreate key _, _ => key <> [] /\ (length key <= 191)%nat
  | SoRead _ start fin, KStored d => default (blen d) fin = blen d \/ exists cap, reads_whole c cap /\ default (blen d) fin - start <= cap
  | _, _ => True
  end.
(** S3: an object has a byte and not more than the parts hold; it is read from a byte
    it has to its end. *)
Definition s3_ok (c : s3cfg) (st : kstate) (op : sop) : Prop :=
  match op, st with
  | SoCreate _ size, _ => 0 < size <= sc_parts c * sc_part c
  | SoRead _ start fin, KStored d => default (blen d) fin = blen d /\ start < blen d
  | _, _ => True
  end.
(** S3 beyond that: a range from a byte the object has, and what comes of it. *)
Definition s3_wide (c : s3cfg) (st : kstate) (op : sop) : Prop :=
  match op, st with
  | SoCreate _ size, _ => 0 < size <= sc_parts c * sc_part c
  | SoRead _ start fin, KStored d => start < blen d
  | _, _ => True
  end.
Definition s3_right (st : kstate) (op : sop) (ans : sans) : Prop :=
  match op, st with
  | SoRead _ start fin, KStored d => ans = AnData (bytes_from d start (N.min (default (blen d) fin) (blen d - 1) - start + 1))
  | _, _ => right st op ans
  end.
