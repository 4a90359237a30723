(** Partitions of a direct store that lie on shared devices.

    Models libblobd-direct/src/backing_store/mod.rs:33-97 [PartitionStore] and
    lib.rs:125-175 [BlobdLoader::new]: several partitions of the configuration may
    name the same file; accesses of a partition are moved by its offset.

    Simplifications.
    - The index area of a partition is not on the shared device here (it is a
      device of its own in TuplesModel.v); only the heap is.
    - [PartitionStore] panics on an access that ends beyond the partition.  Here a
      write there has no effect (PropertiesShare.v proves that there are none) and
      a read there gives arbitrary bytes. *)
From stdpp Require Import base numbers list option gmap sets.
From Verif Require Import Util PageIOModel DirectModel ClusterModel.
Open Scope N_scope.

(** lib.rs:71-79 [BlobdCfgPartition]: the file (a number), [offset] and [len]. *)
Record place := { pl_dev : nat; pl_off : N; pl_len : N }.
(** [g_phys]: the bytes of each file. *)
Record gsys := { g_k : csys; g_phys : nat -> N -> N }.

(** mod.rs:55-64 [read_at]: what a partition finds at address [a] of its device. *)
Definition sees (pl : place) (phys : nat -> N -> N) (d : device) : Prop :=
  forall a, a < pl_len pl -> d a = phys (pl_dev pl) (pl_off pl + a).
(** mod.rs:66-79 [write_at]: the file after the partition has changed its device
    to [d]. *)
Definition stores (pl : place) (phys : nat -> N -> N) (d : device) : nat -> N -> N :=
  fun f x => if (f =? pl_dev pl)%nat && (pl_off pl <=? x) && (x <? pl_off pl + pl_len pl) then d (x - pl_off pl) else phys f x.

Inductive gstep (cc : ccfg) (pls : list place) : gsys -> label -> gsys -> Prop :=
| gstep_call g i op k' :
    cstep cc (g_k g) (LCall i op) k' -> gstep cc pls g (LCall i op) {| g_k := k'; g_phys := g_phys g |}
(** A step of partition [p], which finds [d] on its device; random ids and labels
    as in [cstep_part]. *)
| gstep_part g p pl y c d l y' l' :
    k_parts (g_k g) !! p = Some y -> cc_parts cc !! p = Some c -> pls !! p = Some pl ->
    sees pl (g_phys g) d ->
    dstep c {| y_sh := set_dev (y_sh y) d; y_procs := y_procs y |} l y' ->
    (forall id, id ∈ h_used (y_sh y') -> id ∉ h_used (y_sh y) ->
       id ∉ k_seen (g_k g) /\ forall q yq, k_parts (g_k g) !! q = Some yq -> id ∉ h_used (y_sh yq)) ->
    match l with
    | LCall _ _ => False
    | LVis i v => exists j, k_calls (g_k g) !! j = Some (p, i) /\ l' = LVis j v
    | LTau => l' = LTau
    end ->
    gstep cc pls g l'
      {| g_k := {| k_parts := <[p := y']> (k_parts (g_k g)); k_calls := k_calls (g_k g); k_seen := k_seen (g_k g) |};
         g_phys := stores pl (g_phys g) (h_dev (y_sh y')) |}.

Inductive gsteps (cc : ccfg) (pls : list place) : gsys -> list label -> gsys -> Prop :=
| gsteps_nil g : gsteps cc pls g [] g
| gsteps_snoc g ls g1 l g2 : gsteps cc pls g ls g1 -> gstep cc pls g1 l g2 -> gsteps cc pls g (ls ++ [l]) g2.
