(** A libblobd-direct store made of several partitions.

    Models libblobd-direct/src/lib.rs:229-330: the routing of calls to partitions
    and [list_objects], on top of the model of one partition (DirectModel.v).

    Simplifications.
    - Each partition has a device of its own (backing_store/mod.rs:46-97
      [PartitionStore] adds the partition's offset and asserts that accesses stay
      inside it; see ShareModel.v).
    - An [IncompleteToken] (incomplete_token.rs) is opaque to clients and holds the
      object id and the partition; here it is the id, and a call with a token made
      by the store goes to the partition that made it.  A token the store did not
      make goes to any partition (one that names no partition panics; left out).
    - Random ids do not repeat in the whole store, nor hit a number that a client
      has used as a token before. *)
From stdpp Require Import base numbers list option gmap sets.
From Verif Require Import Util PageIOModel DirectModel.
Open Scope N_scope.

(** [cc_hash] is xxh3 [hash64] (any function). *)
Record ccfg := { cc_parts : list dcfg; cc_hash : list N -> N }.

(** lib.rs:240-244 [get_partition_index_by_object_key]. *)
Definition partition_of (cc : ccfg) (key : list N) : nat := N.to_nat (cc_hash cc key mod N.of_nat (length (cc_parts cc))).

(** [k_calls]: for each call, its partition and its number there.  [k_seen]:
    tokens that clients have passed. *)
Record csys := { k_parts : list dsys; k_calls : list (nat * nat); k_seen : gset N }.

Definition op_token (op : dop) : option N :=
  match op with OWrite tok _ _ _ | OCommit tok _ => Some tok | _ => None end.
Definition op_key (op : dop) : option (list N) :=
  match op with OCreate key _ | ODelete key _ | OInspect key _ | ORead key _ _ _ _ => Some key | _ => None end.
(** lib.rs:246-329: which partition a call goes to. *)
Definition goes_to (cc : ccfg) (k : csys) (op : dop) (p : nat) : Prop :=
  match op_key op, op_token op with
  | Some key, _ => p = partition_of cc key
  | _, Some tok => forall q y, k_parts k !! q = Some y -> tok ∈ h_used (y_sh y) -> q = p
  | _, _ => False
  end.
Definition seen_after (k : csys) (op : dop) : gset N :=
  match op_token op with Some tok => {[tok]} ∪ k_seen k | None => k_seen k end.

Inductive cstep (cc : ccfg) : csys -> label -> csys -> Prop :=
| cstep_call k op p y c i y' :
    goes_to cc k op p -> k_parts k !! p = Some y -> cc_parts cc !! p = Some c -> dstep c y (LCall i op) y' ->
    cstep cc k (LCall (length (k_calls k)) op)
      {| k_parts := <[p := y']> (k_parts k); k_calls := k_calls k ++ [(p, i)]; k_seen := seen_after k op |}
| cstep_part k p y c l y' l' :
    k_parts k !! p = Some y -> cc_parts cc !! p = Some c -> dstep c y l y' ->
    (forall id, id ∈ h_used (y_sh y') -> id ∉ h_used (y_sh y) ->
       id ∉ k_seen k /\ forall q yq, k_parts k !! q = Some yq -> id ∉ h_used (y_sh yq)) ->
    match l with
    | LCall _ _ => False
    | LVis i v => exists j, k_calls k !! j = Some (p, i) /\ l' = LVis j v
    | LTau => l' = LTau
    end ->
    cstep cc k l' {| k_parts := <[p := y']> (k_parts k); k_calls := k_calls k; k_seen := k_seen k |}.

Inductive csteps (cc : ccfg) : csys -> list label -> csys -> Prop :=
| csteps_nil k : csteps cc k [] k
| csteps_snoc k ls k1 l k2 : csteps cc k ls k1 -> cstep cc k1 l k2 -> csteps cc k (ls ++ [l]) k2.

(** lib.rs:219-224 [BlobdListObjectsOutputObject]. *)
Record listed := { li_key : list N; li_created : N; li_size : N; li_id : N }.
(** lib.rs:284-298 [list_objects], with nothing else running. *)
Definition list_partition (h : shared) : list listed :=
  omap (fun r => ob ← h_objs h !! r;
                 Some {| li_key := m_key (b_meta ob); li_created := m_created (b_meta ob);
                         li_size := m_size (b_meta ob); li_id := b_id ob |})
    (map_to_list (h_com h)).*2.
Definition list_objects (k : csys) : list listed := k_parts k ≫= fun y => list_partition (y_sh y).
