(** What the blobd-direct store of the benchmark does (C67). *)
From stdpp Require Import base numbers list option gmap.
From Verif Require Import StoreModel StoreSpec.
Open Scope N_scope.

(** Every outcome of a call made in its turn is the right answer, or the refusal of a
    creation. *)
Definition right_while_room {S} (A : adapter S) (s0 : S) (chunk : N) (ok : kstate -> sop -> Prop) : Prop :=
  forall h s F op, runs A s0 h s -> follows chunk ok h F -> allowed chunk (F (op_key op)) op -> ok (F (op_key op)) op ->
    forall out, A s op out ->
      (exists ans s', out = Some (ans, s') /\ right (F (op_key op)) op ans) \/
      (out = None /\ exists key size, op = SoCreate key size).
(** What a direct store asks besides: the last part, were it whole, ends below 2^64. *)
Definition direct_ok (chunk : N) (st : kstate) (op : sop) : Prop :=
  match op, st with SoWrite _ _ _ _, KUpload _ size _ => size + chunk <= 2 ^ 64 | _, _ => True end.
