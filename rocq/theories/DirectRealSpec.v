(** Time in histories of calls that run concurrently: which calls overlap, and
    which of them may change what is stored under a key.  [ls] is the list of
    what happened, in order. *)
From stdpp Require Import base numbers list option gmap.
From Verif Require Import PageIOModel PageIOSpec DirectModel DirectSpec DirectSeqSpec DirectHistSpec.
Open Scope N_scope.

(** [a] happens before [b]. *)
Definition precedes {A} (ls : list A) (a b : A) : Prop := exists l1 l2 l3, ls = l1 ++ a :: l2 ++ b :: l3.
(** Call [j] has ended before [a], or is made after [b]: it does not overlap the
    time from [a] to [b]. *)
Definition apart (ls : list label) (j : nat) (op : dop) (a b : label) : Prop :=
  (exists v, is_final v = true /\ precedes ls (LVis j v) a) \/ precedes ls b (LCall j op).
(** Upload [tok] was created for this key and size. *)
Definition created_as (ls : list label) (tok : N) (key : list N) (size : N) : Prop :=
  exists i, LCall i (OCreate key size) ∈ ls /\ LVis i (VRet (RCreated tok)) ∈ ls.
(** Call [j] may change what is stored under [key]: it deletes it or commits an
    upload created for it, and was not answered with an error. *)
Definition may_change (ls : list label) (key : list N) (j : nat) (op : dop) : Prop :=
  match op with
  | ODelete k _ => k = key
  | OCommit tok _ => exists size, created_as ls tok key size
  | _ => False
  end /\ (forall e, LVis j (VRet (RFailed e)) ∉ ls).
(** [data] were written to the part at [offset] of upload [tok] by a call that
    returned before [a]; no other call that wrote this part overlaps the time
    from the beginning of that call to [b]. *)
Definition settled_part (ls : list label) (tok offset : N) (data : list N) (a b : label) : Prop :=
  exists i len st, let w := LCall i (OWrite tok offset len st) in
    w ∈ ls /\ precedes ls (LVis i (VRet RWritten)) a /\ stream_bytes st = data /\
    forall j len' st', LCall j (OWrite tok offset len' st') ∈ ls -> j <> i -> apart ls j (OWrite tok offset len' st') w b.
(** All that became visible of call [i]. *)
Fixpoint vis_of (i : nat) (ls : list label) : list vis :=
  match ls with
  | [] => []
  | LVis j v :: ls => (if (j =? i)%nat then [v] else []) ++ vis_of i ls
  | _ :: ls => vis_of i ls
  end.
