(** Specification for the object index of libblobd-direct. *)
From stdpp Require Import base numbers list option gmap.
From Verif Require Import Bytes TuplesModel.
Open Scope N_scope.

(** A valid index entry: incomplete or committed, and every field fits its width. *)
Definition valid_entry (t : tuple) : Prop :=
  (t_state t = 1 \/ t_state t = 2) /\ t_id t < 2 ^ 128 /\ t_off t < 2 ^ 48 /\ t_pow2 t < 256.

(** The index as users think of it: a map from object id to entry. *)
Notation index := (gmap N tuple).
Definition apply_call (m : index) (c : tcall) : index :=
  match c with
  | CInsert o => <[t_id o := o]> m
  | CUpdate cur new st =>
      match m !! cur with
      | Some t => <[new := {| t_state := st; t_id := new; t_off := t_off t; t_pow2 := t_pow2 t |}]> (delete cur m)
      | None => m
      end
  | CDelete id => delete id m
  end.
Definition after_calls (m : index) (cs : list tcall) : index := fold_left apply_call cs m.
Definition index_of (init : list (list tuple)) : index :=
  list_to_map ((fun t => (t_id t, t)) <$> concat init).

(** The ids a call is about, and the ids it introduces. *)
Definition touched (c : tcall) : list N :=
  match c with CInsert o => [t_id o] | CUpdate cur new _ => [cur; new] | CDelete id => [id] end.
Definition introduced (c : tcall) : list N :=
  match c with CInsert o => [t_id o] | CUpdate _ new _ => [new] | CDelete _ => [] end.
Definition valid_call (c : tcall) : Prop :=
  match c with
  | CInsert o => valid_entry o
  | CUpdate _ new st => new < 2 ^ 128 /\ (st = 1 \/ st = 2)
  | CDelete _ => True
  end.
Definition is_delete (c : tcall) : bool := match c with CDelete _ => true | _ => false end.

(** Opening a store whose index area consists of [pages], each holding [2^spage]
    bytes and parsing to the entries [init]. *)
Definition opens (spage : N) (pages : list (list N)) (init : list (list tuple)) (y : tsys) : Prop :=
  Forall (fun p => N.of_nat (length p) = 2 ^ spage /\ Forall is_byte p) pages /\
  load_area spage (concat pages) = Some init /\
  tuples_new spage init = Some (sy_state y) /\
  sy_flush y = TIdle /\ sy_disk y = pages /\ sy_calls y = 0%nat /\ sy_acked y = [].

(** Any interleaving of calls with the background flush. *)
Inductive runs : tsys -> list tcall -> tsys -> Prop :=
| runs_nil y : runs y [] y
| runs_call y cs y1 c y2 : runs y cs y1 -> tstep y1 (Some c) y2 -> runs y (cs ++ [c]) y2
| runs_flush y cs y1 y2 : runs y cs y1 -> tstep y1 None y2 -> runs y cs y2.

(** Entry [t] with id [id] is in index page [b], in memory or on the device. *)
Definition in_memory (s : tstate) (b : nat) (id : N) (t : tuple) : Prop :=
  exists m, ts_bundles s !! b = Some m /\ m !! id = Some t.
Definition on_device (disk : list (list N)) (b : nat) (id : N) (t : tuple) : Prop :=
  exists page l, disk !! b = Some page /\ parse_bundle page = Some l /\ t ∈ l /\ t_id t = id.
(** Ids are never reused: they are drawn at random from 128 bits. *)
Definition fresh_ids (init : list (list tuple)) (cs : list tcall) : Prop :=
  NoDup ((t_id <$> concat init) ++ concat (introduced <$> cs)).
