(** Performing device writes one after another. *)
From stdpp Require Import base numbers list option.
From Verif Require Import Util PageIOModel JournalModel.
Open Scope N_scope.

Definition apply_writes (d : device) (ws : list (N * list N)) : device :=
  fold_left (fun d w => dev_write d (fst w) (snd w)) ws d.

(** Two writes touch no common byte. *)
Definition writes_disjoint (w1 w2 : N * list N) : Prop :=
  forall x, ~ ((fst w1 <= x < fst w1 + N.of_nat (length (snd w1))) /\
               (fst w2 <= x < fst w2 + N.of_nat (length (snd w2)))).

(** The non-empty transactions committed by a history, in order. *)
Definition committed (es : list jevent) : list txn :=
  omap (fun e => match e with JCommit t _ => match t with [] => None | _ => Some t end | _ => None end) es.

(** The device after the first [k] transactions, executed one by one. *)
Definition after_txns (d : device) (ts : list txn) (k : nat) : device :=
  apply_writes d (concat (take k ts)).

(** Every encoded transaction fits an otherwise empty journal. *)
Definition fits (c : jconf) (t : txn) : Prop :=
  36 + N.of_nat (length (concat (map (jc_encode c) t))) <= jc_cap c.

(** Byte [x] is outside the journal's region. *)
Definition outside_journal (c : jconf) (x : N) : Prop :=
  x < jc_off c \/ jc_off c + jc_cap c <= x.
