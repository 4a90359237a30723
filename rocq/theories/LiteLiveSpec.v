(** What is left to do without any new call: the journal of the lite store on its own,
    and the lite store's calls that have begun. *)
From stdpp Require Import base numbers list option.
From Verif Require Import JournalModel LiteModel.
Open Scope N_scope.

(** [flushes c n s s']: the journal's tasks make [n] steps, in any order they may, and
    nothing is committed meanwhile. *)
Inductive flushes (c : jconf) : nat -> jstate -> jstate -> Prop :=
| fs_none s : flushes c 0 s s
| fs_more n s s1 e s2 : flushes c n s s1 -> (forall t seen, e <> JCommit t seen) -> jstep c s1 e = Some s2 -> flushes c (S n) s s2.

(** Steps of calls that have begun, and of the journal's tasks. *)
Definition going_on (e : levent) : Prop :=
  match e with LCreateWrite _ | LCreateLink _ _ | LFinish _ | LJ _ => True | _ => False end.

(** [comes_to c P s]: from [s] on, however the steps that are left are scheduled, [P]
    is reached if no new call is made: there always is a step until then, and every
    choice of steps gets there. *)
Inductive comes_to (c : liconf) (P : lstate -> Prop) : lstate -> Prop :=
| ct_now s : P s -> comes_to c P s
| ct_steps s :
    (exists e s' obs, going_on e /\ lstep c s e = Some (s', obs)) ->
    (forall e s' obs, going_on e -> lstep c s e = Some (s', obs) -> comes_to c P s') ->
    comes_to c P s.

(** The journal has nothing left to do: nothing queued, nothing being written, nobody
    waiting. *)
Definition nothing_left (j : jstate) : Prop := js_flusher j = FIdle /\ js_queue j = [] /\ pj_signals (js_pending j) = [].

(** As [comes_to], along steps in which no call panics. *)
Inductive comes_to_or_panics (c : liconf) (P : lstate -> Prop) : lstate -> Prop :=
| cp_now s : P s -> comes_to_or_panics c P s
| cp_steps s :
    (exists e s' obs, going_on e /\ lstep c s e = Some (s', obs) /\ OPanic ∉ obs) ->
    (forall e s' obs, going_on e -> lstep c s e = Some (s', obs) -> OPanic ∉ obs -> comes_to_or_panics c P s') ->
    comes_to_or_panics c P s.
(** Every call has returned, or panics as it is about to return. *)
Definition all_end (c : liconf) (s : lstate) : Prop :=
  forall i cl, ls_calls s !! i = Some cl -> cl = LDone \/ exists s', lstep c s (LFinish i) = Some (s', [OPanic]).
