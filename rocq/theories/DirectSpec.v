(** What a direct partition is supposed to do, without pages, devices, indexes
    or locks.

    The state is a set of open uploads and a map from keys to committed objects.
    A call makes visible steps (its return, items of a read stream) and at most
    one or two internal steps at which it takes effect. *)
From stdpp Require Import base numbers list option gmap sets functions.
From Verif Require Import Util PageIOModel PageIOSpec DirectModel.
Open Scope N_scope.

(** One part of an upload (the bytes of one large page).  [pt_writers]: calls
    that have started writing the part and not finished.  [pt_clean]: there is
    one such call and no other was active since it started.  [pt_data]: the
    bytes, if they are determined. *)
Record part := { pt_writers : nat; pt_clean : bool; pt_data : option (list N) }.

Record upload := {
  up_key : list N; up_size : N; up_created : N;
  up_open : bool;                  (* no commit has taken it *)
  up_parts : N -> part;            (* by offset *)
}.
Record cobj := { co_id : N; co_size : N; co_created : N; co_bytes : N -> N }.

Record sstate := {
  ss_up : gmap N upload;                    (* by token *)
  ss_com : gmap (list N) cobj;              (* by key *)
  ss_ids : gset N;                          (* tokens and ids ever returned *)
}.
Definition ss_empty : sstate := {| ss_up := ∅; ss_com := ∅; ss_ids := ∅ |}.

(** Calls. *)
Inductive sproc :=
| SCall (op : dop)                              (* made, nothing happened yet *)
| SWriting (tok offset len : N) (st : list item)
| SWrote (st : list item)                       (* written, not returned *)
| SCommitting (tok : N) (if_not_exists : bool)  (* upload taken *)
| SPublished (tok id : N) (replaced : option N) (* visible, not returned *)
| SDiscarded                                    (* the key existed; not returned *)
| SDeleted (id : N)                             (* removed, not returned *)
| SReading (key : list N) (id pos fin buffer : N)
| SDone.

(** ** Parts *)
Definition set_parts (u : upload) (f : N -> part) : upload :=
  {| up_key := up_key u; up_size := up_size u; up_created := up_created u; up_open := up_open u; up_parts := f |}.
Definition set_part (u : upload) (offset : N) (p : part) : upload := set_parts u (<[offset := p]> (up_parts u)).
(** A write of the part begins: its contents are undetermined from now on. *)
Definition part_start (p : part) : part :=
  {| pt_writers := S (pt_writers p); pt_clean := bool_decide (pt_writers p = 0%nat); pt_data := None |}.
(** A write ends without having succeeded. *)
Definition part_abort (p : part) : part :=
  {| pt_writers := pred (pt_writers p); pt_clean := false; pt_data := None |}.
(** A write that delivered [data] succeeds; if it was alone the part now has
    these bytes. *)
Definition part_finish (p : part) (data : list N) : part :=
  {| pt_writers := pred (pt_writers p); pt_clean := false; pt_data := if pt_clean p then Some data else None |}.
Definition part_new : part := {| pt_writers := 0; pt_clean := false; pt_data := None |}.

(** ** State changes *)
Definition new_upload (key : list N) (size created : N) : upload :=
  {| up_key := key; up_size := size; up_created := created; up_open := true; up_parts := fun _ => part_new |}.
Definition set_up (S : sstate) (m : gmap N upload) : sstate := {| ss_up := m; ss_com := ss_com S; ss_ids := ss_ids S |}.
Definition set_scom (S : sstate) (m : gmap (list N) cobj) : sstate := {| ss_up := ss_up S; ss_com := m; ss_ids := ss_ids S |}.
Definition add_id (S : sstate) (id : N) : sstate := {| ss_up := ss_up S; ss_com := ss_com S; ss_ids := {[id]} ∪ ss_ids S |}.
Definition closed (u : upload) : upload :=
  {| up_key := up_key u; up_size := up_size u; up_created := up_created u; up_open := false; up_parts := up_parts u |}.
(** Change a part of an upload, if the upload still exists. *)
Definition on_part (S : sstate) (tok offset : N) (f : part -> part) : sstate :=
  set_up S (alter (fun u => set_part u offset (f (up_parts u offset))) tok (ss_up S)).
Definition is_open (S : sstate) (tok : N) (u : upload) : Prop := ss_up S !! tok = Some u /\ up_open u = true.
Definition not_open (S : sstate) (tok : N) : Prop := forall u, ~ is_open S tok u.
(** The committed object under a key, if it has the wanted id. *)
Definition sfind (S : sstate) (key : list N) (id : option N) (co : cobj) : Prop :=
  ss_com S !! key = Some co /\ (forall i, id = Some i -> i = co_id co).
(** [bytes] agrees with the determined parts of the upload. *)
Definition extends (u : upload) (bytes : N -> N) : Prop :=
  forall offset l i b, pt_data (up_parts u offset) = Some l -> l !! i = Some b -> bytes (offset + N.of_nat i) = b.

Inductive write_error (S : sstate) (tok len : N) (st : list item) : op_err -> Prop :=
| wr_stream : Fail ∈ st -> write_error S tok len st DataStreamError
| wr_length : N.of_nat (length (stream_bytes st)) <> len -> write_error S tok len st DataStreamLengthMismatch
| wr_closed : not_open S tok -> write_error S tok len st ObjectNotFound.

(** One step of a call; [all] are all calls. *)
Inductive sstep (lpage : N) (S : sstate) (all : list sproc) : sproc -> sstate -> sproc -> option vis -> Prop :=
(** create: a fresh token for an empty upload; running out of space is a panic *)
| ss_create key size created tok :
    tok ∉ ss_ids S ->
    sstep lpage S all (SCall (OCreate key size))
      (add_id (set_up S (<[tok := new_upload key size created]> (ss_up S))) tok) SDone (Some (VRet (RCreated tok)))
| ss_create_panic key size : sstep lpage S all (SCall (OCreate key size)) S SDone (Some (VRet RPanicked))
(** write *)
| ss_write_closed tok offset len st :
    not_open S tok ->
    sstep lpage S all (SCall (OWrite tok offset len st)) S SDone (Some (VRet (RFailed ObjectNotFound)))
| ss_write_bad tok offset len st u e :
    is_open S tok u -> part_error lpage (up_size u) offset len e ->
    sstep lpage S all (SCall (OWrite tok offset len st)) S SDone (Some (VRet (RFailed e)))
| ss_write_start tok offset len st u :
    is_open S tok u -> valid_part lpage (up_size u) offset len ->
    sstep lpage S all (SCall (OWrite tok offset len st)) (on_part S tok offset part_start) (SWriting tok offset len st) None
(** a write only succeeds if its bytes were all there before a commit published
    the upload *)
| ss_write_done tok offset len st :
    no_fail st -> N.of_nat (length (stream_bytes st)) = len -> is_Some (ss_up S !! tok) \/ len = 0 ->
    sstep lpage S all (SWriting tok offset len st)
      (on_part S tok offset (fun p => part_finish p (stream_bytes st))) (SWrote st) None
| ss_write_return st : sstep lpage S all (SWrote st) S SDone (Some (VRet RWritten))
| ss_write_fail tok offset len st e :
    write_error S tok len st e ->
    sstep lpage S all (SWriting tok offset len st) (on_part S tok offset part_abort) SDone (Some (VRet (RFailed e)))
(** an empty item in the stream may make the call panic *)
| ss_write_panic tok offset len st :
    Data [] ∈ st ->
    sstep lpage S all (SWriting tok offset len st) (on_part S tok offset part_abort) SDone (Some (VRet RPanicked))
| ss_wrote_panic st : Data [] ∈ st -> sstep lpage S all (SWrote st) S SDone (Some (VRet RPanicked))
(** commit *)
| ss_commit_closed tok ine :
    not_open S tok -> sstep lpage S all (SCall (OCommit tok ine)) S SDone (Some (VRet (RFailed ObjectNotFound)))
| ss_commit_take tok ine u :
    is_open S tok u ->
    sstep lpage S all (SCall (OCommit tok ine)) (set_up S (<[tok := closed u]> (ss_up S))) (SCommitting tok ine) None
| ss_publish tok ine u id bytes :
    ss_up S !! tok = Some u -> (ine = true -> ss_com S !! up_key u = None) -> id ∉ ss_ids S -> extends u bytes ->
    sstep lpage S all (SCommitting tok ine)
      (add_id (set_scom (set_up S (delete tok (ss_up S)))
         (<[up_key u := {| co_id := id; co_size := up_size u; co_created := up_created u; co_bytes := bytes |}]> (ss_com S))) id)
      (SPublished tok id (co_id <$> ss_com S !! up_key u)) None
| ss_discard tok u co :
    ss_up S !! tok = Some u -> ss_com S !! up_key u = Some co ->
    sstep lpage S all (SCommitting tok true) (set_up S (delete tok (ss_up S))) SDiscarded None
| ss_commit_return tok id replaced :
    sstep lpage S all (SPublished tok id replaced) S SDone (Some (VRet (RCommitted (Some id))))
| ss_discard_return : sstep lpage S all SDiscarded S SDone (Some (VRet (RCommitted None)))
(** replacing an object whose own commit has not returned yet may panic, after
    the replacement took effect *)
| ss_commit_panic tok id old tok' x :
    SPublished tok' old x ∈ all -> sstep lpage S all (SPublished tok id (Some old)) S SDone (Some (VRet RPanicked))
(** delete *)
| ss_delete_nf key id :
    (forall co, ~ sfind S key id co) ->
    sstep lpage S all (SCall (ODelete key id)) S SDone (Some (VRet (RFailed ObjectNotFound)))
| ss_delete key id co :
    sfind S key id co ->
    sstep lpage S all (SCall (ODelete key id)) (set_scom S (delete key (ss_com S))) (SDeleted (co_id co)) None
| ss_delete_return id : sstep lpage S all (SDeleted id) S SDone (Some (VRet RDeleted))
| ss_delete_panic id tok x :
    SPublished tok id x ∈ all -> sstep lpage S all (SDeleted id) S SDone (Some (VRet RPanicked))
(** inspect *)
| ss_inspect_nf key id :
    (forall co, ~ sfind S key id co) ->
    sstep lpage S all (SCall (OInspect key id)) S SDone (Some (VRet (RFailed ObjectNotFound)))
| ss_inspect key id co :
    sfind S key id co ->
    sstep lpage S all (SCall (OInspect key id)) S SDone (Some (VRet (RInspected (co_id co) (co_size co) (co_created co))))
(** read *)
| ss_read_nf key id start fin buffer :
    (forall co, ~ sfind S key id co) ->
    sstep lpage S all (SCall (ORead key id start fin buffer)) S SDone (Some (VRet (RFailed ObjectNotFound)))
| ss_read_range key id start fin buffer co :
    sfind S key id co -> default (co_size co) fin < start \/ co_size co < default (co_size co) fin ->
    sstep lpage S all (SCall (ORead key id start fin buffer)) S SDone (Some (VRet (RFailed RangeOutOfBounds)))
| ss_read key id start fin buffer co :
    sfind S key id co -> start <= default (co_size co) fin <= co_size co ->
    sstep lpage S all (SCall (ORead key id start fin buffer)) S
      (SReading key (co_id co) start (default (co_size co) fin) buffer)
      (Some (VRet (RReading (co_id co) (co_size co) start (default (co_size co) fin))))
(** the bytes of the object, for as long as it is the one under its key *)
| ss_chunk key id pos fin buffer data :
    (0 < length data)%nat -> N.of_nat (length data) <= buffer -> pos + N.of_nat (length data) <= fin ->
    (forall co i b, ss_com S !! key = Some co -> co_id co = id -> data !! i = Some b -> co_bytes co (pos + N.of_nat i) = b) ->
    sstep lpage S all (SReading key id pos fin buffer) S
      (SReading key id (pos + N.of_nat (length data)) fin buffer) (Some (VChunk data))
| ss_read_end key id fin buffer : sstep lpage S all (SReading key id fin fin buffer) S SDone (Some (VEnd RDone)).

(** The specification as a whole. *)
Record ssys := { z_state : sstate; z_procs : list sproc }.
Inductive spec_step (lpage : N) : ssys -> label -> ssys -> Prop :=
| spec_call z op :
    spec_step lpage z (LCall (length (z_procs z)) op) {| z_state := z_state z; z_procs := z_procs z ++ [SCall op] |}
| spec_proc z i s S' s' v :
    z_procs z !! i = Some s -> sstep lpage (z_state z) (z_procs z) s S' s' v ->
    spec_step lpage z (match v with Some v => LVis i v | None => LTau end) {| z_state := S'; z_procs := <[i := s']> (z_procs z) |}.
Inductive spec_steps (lpage : N) : ssys -> list label -> ssys -> Prop :=
| spec_nil z : spec_steps lpage z [] z
| spec_snoc z ls z1 l z2 : spec_steps lpage z ls z1 -> spec_step lpage z1 l z2 -> spec_steps lpage z (ls ++ [l]) z2.

(** What can be seen of a history. *)
Definition is_visible (l : label) : bool := match l with LTau => false | _ => true end.
Definition visible (ls : list label) : list label := List.filter is_visible ls.
(** Restrictions on the arguments of calls: offsets for which 64-bit additions do
    not wrap around, and read buffers that are not empty. *)
Definition valid_op (lpage : N) (op : dop) : Prop :=
  match op with
  | OWrite _ offset _ _ => offset + 2 ^ lpage < 2 ^ 64
  | ORead _ _ _ _ buffer => 0 < buffer
  | _ => True
  end.
Definition valid_calls (lpage : N) (ls : list label) : Prop := forall i op, LCall i op ∈ ls -> valid_op lpage op.
