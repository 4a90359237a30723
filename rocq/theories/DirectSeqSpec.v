(** What a direct partition does when calls are made one after another: a map
    from keys to the last committed object, and a set of open uploads. *)
From stdpp Require Import base numbers list option gmap sets functions.
From Verif Require Import Util BuddyModel PageIOModel PageIOSpec TuplesModel TuplesSpec DirectModel DirectSpec.
Open Scope N_scope.

(** An open upload; [qu_parts offset] are the bytes last written to the part at
    [offset], if a write of it succeeded. *)
Record qupload := { qu_key : list N; qu_size : N; qu_created : N; qu_parts : N -> option (list N) }.
Record qstate := {
  q_up : gmap N qupload;            (* by token *)
  q_com : gmap (list N) cobj;       (* by key *)
  q_ids : gset N;                   (* tokens and ids returned so far *)
}.
Definition q_empty : qstate := {| q_up := ∅; q_com := ∅; q_ids := ∅ |}.

Definition q_new (Q : qstate) (tok : N) (key : list N) (size created : N) : qstate :=
  {| q_up := <[tok := {| qu_key := key; qu_size := size; qu_created := created; qu_parts := fun _ => None |}]> (q_up Q);
     q_com := q_com Q; q_ids := {[tok]} ∪ q_ids Q |}.
Definition q_part (Q : qstate) (tok : N) (u : qupload) (offset : N) (d : option (list N)) : qstate :=
  {| q_up := <[tok := {| qu_key := qu_key u; qu_size := qu_size u; qu_created := qu_created u;
                         qu_parts := <[offset := d]> (qu_parts u) |}]> (q_up Q);
     q_com := q_com Q; q_ids := q_ids Q |}.
Definition q_drop (Q : qstate) (tok : N) : qstate :=
  {| q_up := delete tok (q_up Q); q_com := q_com Q; q_ids := q_ids Q |}.
Definition q_publish (Q : qstate) (tok : N) (u : qupload) (id : N) (bytes : N -> N) : qstate :=
  {| q_up := delete tok (q_up Q);
     q_com := <[qu_key u := {| co_id := id; co_size := qu_size u; co_created := qu_created u; co_bytes := bytes |}]> (q_com Q);
     q_ids := {[id]} ∪ q_ids Q |}.
Definition q_remove (Q : qstate) (key : list N) : qstate :=
  {| q_up := q_up Q; q_com := delete key (q_com Q); q_ids := q_ids Q |}.
Definition q_find (Q : qstate) (key : list N) (id : option N) (co : cobj) : Prop :=
  q_com Q !! key = Some co /\ (forall i, id = Some i -> i = co_id co).
(** [bytes] has every byte that was written. *)
Definition has_written (u : qupload) (bytes : N -> N) : Prop :=
  forall offset l i b, qu_parts u offset = Some l -> l !! i = Some b -> bytes (offset + N.of_nat i) = b.

(** The bytes [start, fin). *)
Definition byte_range (f : N -> N) (start fin : N) : list N := (fun i => f (start + N.of_nat i)) <$> seq 0 (N.to_nat (fin - start)).

(** [answers lpage Q op vs Q']: in state [Q] the call [op] may produce [vs] and
    leave the state [Q']. *)
Inductive answers (lpage : N) (Q : qstate) : dop -> list vis -> qstate -> Prop :=
| an_create key size created tok :
    tok ∉ q_ids Q ->
    answers lpage Q (OCreate key size) [VRet (RCreated tok)] (q_new Q tok key size created)
(* out of space *)
| an_create_panic key size : answers lpage Q (OCreate key size) [VRet RPanicked] Q
| an_write_closed tok offset len st :
    q_up Q !! tok = None ->
    answers lpage Q (OWrite tok offset len st) [VRet (RFailed ObjectNotFound)] Q
| an_write_bad tok offset len st u e :
    q_up Q !! tok = Some u -> part_error lpage (qu_size u) offset len e ->
    answers lpage Q (OWrite tok offset len st) [VRet (RFailed e)] Q
| an_write tok offset len st u :
    q_up Q !! tok = Some u -> valid_part lpage (qu_size u) offset len ->
    no_fail st -> N.of_nat (length (stream_bytes st)) = len ->
    answers lpage Q (OWrite tok offset len st) [VRet RWritten] (q_part Q tok u offset (Some (stream_bytes st)))
| an_write_stream tok offset len st u :
    q_up Q !! tok = Some u -> valid_part lpage (qu_size u) offset len -> Fail ∈ st ->
    answers lpage Q (OWrite tok offset len st) [VRet (RFailed DataStreamError)] (q_part Q tok u offset None)
| an_write_length tok offset len st u :
    q_up Q !! tok = Some u -> valid_part lpage (qu_size u) offset len -> N.of_nat (length (stream_bytes st)) <> len ->
    answers lpage Q (OWrite tok offset len st) [VRet (RFailed DataStreamLengthMismatch)] (q_part Q tok u offset None)
(* an empty item in the stream may make the call panic *)
| an_write_panic tok offset len st u d :
    q_up Q !! tok = Some u -> valid_part lpage (qu_size u) offset len -> Data [] ∈ st ->
    d = None \/ (d = Some (stream_bytes st) /\ no_fail st /\ N.of_nat (length (stream_bytes st)) = len) ->
    answers lpage Q (OWrite tok offset len st) [VRet RPanicked] (q_part Q tok u offset d)
| an_commit_closed tok ine :
    q_up Q !! tok = None -> answers lpage Q (OCommit tok ine) [VRet (RFailed ObjectNotFound)] Q
| an_commit tok ine u id bytes :
    q_up Q !! tok = Some u -> (ine = true -> q_com Q !! qu_key u = None) -> id ∉ q_ids Q -> has_written u bytes ->
    answers lpage Q (OCommit tok ine) [VRet (RCommitted (Some id))] (q_publish Q tok u id bytes)
| an_discard tok u co :
    q_up Q !! tok = Some u -> q_com Q !! qu_key u = Some co ->
    answers lpage Q (OCommit tok true) [VRet (RCommitted None)] (q_drop Q tok)
| an_delete_nf key id :
    (forall co, ~ q_find Q key id co) -> answers lpage Q (ODelete key id) [VRet (RFailed ObjectNotFound)] Q
| an_delete key id co :
    q_find Q key id co -> answers lpage Q (ODelete key id) [VRet RDeleted] (q_remove Q key)
| an_inspect_nf key id :
    (forall co, ~ q_find Q key id co) -> answers lpage Q (OInspect key id) [VRet (RFailed ObjectNotFound)] Q
| an_inspect key id co :
    q_find Q key id co -> answers lpage Q (OInspect key id) [VRet (RInspected (co_id co) (co_size co) (co_created co))] Q
| an_read_nf key id start fin buffer :
    (forall co, ~ q_find Q key id co) -> answers lpage Q (ORead key id start fin buffer) [VRet (RFailed ObjectNotFound)] Q
| an_read_range key id start fin buffer co :
    q_find Q key id co -> default (co_size co) fin < start \/ co_size co < default (co_size co) fin ->
    answers lpage Q (ORead key id start fin buffer) [VRet (RFailed RangeOutOfBounds)] Q
| an_read key id start fin buffer co chunks :
    q_find Q key id co -> start <= default (co_size co) fin <= co_size co ->
    concat chunks = byte_range (co_bytes co) start (default (co_size co) fin) ->
    answers lpage Q (ORead key id start fin buffer)
      (VRet (RReading (co_id co) (co_size co) start (default (co_size co) fin)) :: map VChunk chunks ++ [VEnd RDone]) Q.

(** A history of calls made one after another. *)
Inductive seq_run (lpage : N) : nat -> list label -> qstate -> Prop :=
| seq_nil : seq_run lpage 0 [] q_empty
| seq_call n ls Q op vs Q' :
    seq_run lpage n ls Q -> answers lpage Q op vs Q' ->
    seq_run lpage (S n) (ls ++ LCall n op :: map (LVis n) vs) Q'.

(** The last thing a call does. *)
Definition is_final (v : vis) : bool :=
  match v with VRet (RReading _ _ _ _) | VChunk _ => false | _ => true end.
Definition finished (ls : list label) (i : nat) : Prop := exists v, LVis i v ∈ ls /\ is_final v = true.
(** Every call begins after all earlier ones have finished. *)
Definition one_after_another (ls : list label) : Prop :=
  forall ls1 i op ls2, ls = ls1 ++ LCall i op :: ls2 -> forall j op', LCall j op' ∈ ls1 -> finished ls1 j.
Definition all_finished (ls : list label) : Prop := forall j op, LCall j op ∈ ls -> finished ls j.

(** ** A freshly formatted partition *)
Record fresh_partition (c : dcfg) (pages : list (list N)) (y : dsys) : Prop := {
  (* objects.rs:48-57: formatting writes zeros over the index area *)
  fp_zero : Forall (Forall (fun b => b = 0)) pages;
  fp_tup : exists init, opens (dc_spage c) pages init (h_tup (y_sh y));
  fp_alloc : allocator_new (dc_base c) (dc_heap c) (dc_spage c) (dc_lpage c) (2 ^ 32) DirRight = Ok (h_alloc (y_sh y));
  fp_objs : h_objs (y_sh y) = [];
  fp_com : h_com (y_sh y) = ∅;
  fp_inc : h_inc (y_sh y) = ∅;
  fp_met : h_met (y_sh y) = met_zero;
  fp_used : h_used (y_sh y) = ∅;
  fp_procs : y_procs y = [];
}.

(** No call panicked so far. *)
Definition no_panics (ls : list label) : Prop := forall i, LVis i (VRet RPanicked) ∉ ls.
(** No call is under way. *)
Definition quiescent (y : dsys) : Prop := forall p, p ∈ y_procs y -> p = PDone.
