(** What an export has to yield. *)
From stdpp Require Import base numbers list option gmap sorting.
From Verif Require Import Util PageIOModel TuplesModel DirectModel DirectSpec DirectSeqSpec DirectRestartSpec ExportModel.
Open Scope N_scope.

Definition marker_lt (m1 m2 : marker) : Prop := marker_le m1 m2 /\ m1 <> m2.
(** Strictly increasing markers. *)
Definition increasing (l : list marker) : Prop := forall i j m1 m2, (i < j)%nat -> l !! i = Some m1 -> l !! j = Some m2 -> marker_lt m1 m2.

(** The exported object is the committed object [co] with key [key]. *)
Record is_object (x : xobj) (key : list N) (co : cobj) : Prop := {
  io_id : xo_id x = co_id co;
  io_key : xo_key x = key;
  io_size : xo_size x = co_size co;
  io_created : xo_created x = co_created co;
  io_bytes : concat (xo_chunks x) = byte_range (co_bytes co) 0 (co_size co);
}.

(** [rows] with the objects they read are the objects of the partitions [Ss] at
    or after [offset], each once and in order. *)
Definition exports (Ss : list sstate) (offset : marker) (rows : list (marker * xobj)) : Prop :=
  increasing rows.*1 /\
  (forall m x, (m, x) ∈ rows -> marker_le offset m /\
     exists S key co, Ss !! k_part m = Some S /\ ss_com S !! key = Some co /\ k_id m = co_id co /\ is_object x key co) /\
  (forall i S key co, Ss !! i = Some S -> ss_com S !! key = Some co -> marker_le offset {| k_id := co_id co; k_part := i |} ->
     exists x, ({| k_id := co_id co; k_part := i |}, x) ∈ rows /\ is_object x key co).

(** The same when the processes were killed during commits and deletes: an object
    that was being removed may be exported too, with what it had when its key
    had it; one that was being published may not be exported.  A partition is
    given by its state and by the objects its keys have had. *)
Definition exports_crash (ws : list (ssys * (list N -> cobj -> Prop))) (offset : marker) (rows : list (marker * xobj)) : Prop :=
  increasing rows.*1 /\
  (forall m x, (m, x) ∈ rows -> marker_le offset m /\
     exists z had key co, ws !! k_part m = Some (z, had) /\ k_id m = co_id co /\ is_object x key co /\
       (ss_com (z_state z) !! key = Some co \/ removing z (co_id co) /\ had key co)) /\
  (forall i z had key co, ws !! i = Some (z, had) -> ss_com (z_state z) !! key = Some co -> marker_le offset {| k_id := co_id co; k_part := i |} ->
     (exists x, ({| k_id := co_id co; k_part := i |}, x) ∈ rows /\ is_object x key co) \/ publishing z (co_id co)).
