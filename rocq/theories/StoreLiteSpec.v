(** What the blobd-lite store of the benchmark does (C66). *)
From stdpp Require Import base numbers list option gmap.
From Verif Require Import StoreModel StoreSpec.
Open Scope N_scope.

(** As [keeps_contract], except that a creation may be refused - there is no room for
    it.  Object ids are 128 bits long and never given twice, so there is an outcome as
    long as there are ids left. *)
Definition keeps_contract_while_room {S} (A : adapter S) (s0 : S) (chunk : N) (ok : kstate -> sop -> Prop) : Prop :=
  forall h s F op, runs A s0 h s -> follows chunk ok h F -> allowed chunk (F (op_key op)) op -> ok (F (op_key op)) op ->
    (N.of_nat (length h) < 2 ^ 128 -> exists out, A s op out) /\
    forall out, A s op out ->
      (exists ans s', out = Some (ans, s') /\ right (F (op_key op)) op ans) \/
      (out = None /\ exists key size, op = SoCreate key size).
(** What a lite store asks besides: the lengths fit the fields of the record; a range
    has a byte. *)
Definition lite_ok (st : kstate) (op : sop) : Prop :=
  match op, st with
  | SoCreate key size, _ => N.of_nat (length key) < 2 ^ 16 /\ size < 2 ^ 40
  | SoRead _ start fin, KStored d => start < default (blen d) fin
  | _, _ => True
  end.
