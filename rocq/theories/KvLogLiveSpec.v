(** What the log of libblobd-kv has left to do when nothing new arrives. *)
From stdpp Require Import base numbers list option.
From Verif Require Import KvLogModel KvLogSpec.
Open Scope N_scope.

(** Steps of batches that have been cut: a device write ends, the completer receives
    it, advances the tail, inserts and acknowledges an operation. *)
Definition going_on (c : lconf) (e : levent) : Prop :=
  match e with EFinish _ | EHand _ | EComplete _ | EApply => valid_levent c e | _ => False end.

(** [comes_to c P y]: from [y] on, however these steps are scheduled, [P] is reached:
    there always is a step until then, and every choice of steps gets there. *)
Inductive comes_to (c : lconf) (P : lstate -> Prop) : lstate -> Prop :=
| ct_now y : P y -> comes_to c P y
| ct_steps y :
    (exists e y', going_on c e /\ lstep c y e = Some y') ->
    (forall e y', going_on c e -> lstep c y e = Some y' -> comes_to c P y') ->
    comes_to c P y.
