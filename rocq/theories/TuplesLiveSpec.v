(** The flusher of the direct object index on its own. *)
From stdpp Require Import base numbers list.
From Verif Require Import TuplesModel.

(** [flusher n y y']: it makes [n] steps, in any order it may, while no call is made. *)
Inductive flusher : nat -> tsys -> tsys -> Prop :=
| fl_none y : flusher 0 y y
| fl_more n y y1 y2 : flusher n y y1 -> tstep y1 None y2 -> flusher (S n) y y2.
