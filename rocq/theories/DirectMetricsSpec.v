(** What the counters of a direct partition should be. *)
From stdpp Require Import base numbers list option gmap.
From Verif Require Import Util TuplesModel DirectModel DirectSpaceSpec.
Open Scope N_scope.

(** The sum of a quantity over the objects that exist ([existing]: uploads and
    committed objects). *)
Definition total_of (f : dobj -> N) (h : shared) : Z :=
  foldr (fun r n => n + match h_objs h !! r with Some ob => Z.of_N (f ob) | None => 0 end)%Z 0%Z (existing h).

(** How many answers of a kind a history contains. *)
Fixpoint zsum {A} (f : A -> Z) (l : list A) : Z := match l with [] => 0 | x :: l => f x + zsum f l end.
Definition count (f : dresp -> bool) (ls : list label) : Z :=
  zsum (fun l => match l with LVis _ (VRet r) => if f r then 1 else 0 | _ => 0 end)%Z ls.
Definition is_created (r : dresp) : bool := match r with RCreated _ => true | _ => false end.
Definition is_written (r : dresp) : bool := match r with RWritten => true | _ => false end.
Definition is_committed (r : dresp) : bool := match r with RCommitted _ => true | _ => false end.
Definition is_deleted (r : dresp) : bool := match r with RDeleted => true | _ => false end.
Definition is_inspected (r : dresp) : bool := match r with RInspected _ _ _ => true | _ => false end.
Definition is_reading (r : dresp) : bool := match r with RReading _ _ _ _ => true | _ => false end.

(** Two of the records the opening kept are committed objects with one key. *)
Definition duplicate_keys (h : shared) : Prop :=
  exists i j ob ob', i <> j /\ h_objs h !! i = Some ob /\ h_objs h !! j = Some ob' /\
    b_state ob = ds_committed /\ b_state ob' = ds_committed /\ m_key (b_meta ob) = m_key (b_meta ob').
