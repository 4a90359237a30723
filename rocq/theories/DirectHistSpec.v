(** Reading the history of a direct partition: which bytes a read has returned
    and which writes went into an object.  [ls] is the list of what happened, in
    order. *)
From stdpp Require Import base numbers list option gmap.
From Verif Require Import PageIOModel PageIOSpec DirectModel.
Open Scope N_scope.

(** The bytes call [i] has returned from its read stream. *)
Fixpoint delivered (i : nat) (ls : list label) : list N :=
  match ls with
  | [] => []
  | LVis j (VChunk data) :: ls => (if (j =? i)%nat then data else []) ++ delivered i ls
  | _ :: ls => delivered i ls
  end.
(** Call [i] was told that it reads object [id] from byte [start]. *)
Definition reads (ls : list label) (i : nat) (id start : N) : Prop :=
  exists size fin, LVis i (VRet (RReading id size start fin)) ∈ ls.
(** Some call was told about object [id]. *)
Definition seen (ls : list label) (id : N) : Prop :=
  exists i, (exists size created, LVis i (VRet (RInspected id size created)) ∈ ls) \/ (exists start, reads ls i id start).
(** Object [id] can be found under a key. *)
Definition still_there (y : dsys) (id : N) : Prop :=
  exists key r ob, h_com (y_sh y) !! key = Some r /\ h_objs (y_sh y) !! r = Some ob /\ b_id ob = id.

(** Call [i] wrote [data] to the part at [offset] of upload [tok], successfully. *)
Definition wrote_part (ls : list label) (i : nat) (tok offset : N) (data : list N) : Prop :=
  exists len st, LCall i (OWrite tok offset len st) ∈ ls /\ LVis i (VRet RWritten) ∈ ls /\ data = stream_bytes st.
(** No part of an upload is written by two calls. *)
Definition parts_written_once (ls : list label) : Prop :=
  forall i j tok offset len st len' st',
    LCall i (OWrite tok offset len st) ∈ ls -> LCall j (OWrite tok offset len' st') ∈ ls -> i = j.
(** Upload [tok] was committed and became object [id]. *)
Definition committed_as (ls : list label) (tok id : N) : Prop :=
  exists j ine, LCall j (OCommit tok ine) ∈ ls /\ LVis j (VRet (RCommitted (Some id))) ∈ ls.

(** [data] are the bytes of [f] from [start] on. *)
Definition bytes_at (f : N -> N) (start : N) (data : list N) : Prop :=
  forall k b, data !! k = Some b -> f (start + N.of_nat k) = b.

(** The stored byte [i] of an object. *)
Definition stored_byte (c : dcfg) (y : dsys) (ob : dobj) (i : N) : option N :=
  a ← locate (default [] (data_pages c (b_meta ob))) i; Some (h_dev (y_sh y) a).
