(** Vocabulary for the properties of a store with several partitions. *)
From stdpp Require Import base numbers list option gmap sets.
From Verif Require Import Util BuddyModel TuplesSpec DirectModel DirectBase DirectSpec DirectSeqSpec ClusterModel.
Open Scope N_scope.

(** At least one partition; all have the same large page size. *)
Record cluster_ok (cc : ccfg) (lpage : N) : Prop := {
  ko_some : cc_parts cc <> [];
  ko_parts : forall p c, cc_parts cc !! p = Some c -> cfg_ok c /\ dc_lpage c = lpage;
}.
(** A freshly formatted and opened store. *)
Record fresh_cluster (cc : ccfg) (k : csys) : Prop := {
  kf_parts : length (k_parts k) = length (cc_parts cc);
  kf_fresh : forall p c y, cc_parts cc !! p = Some c -> k_parts k !! p = Some y -> exists pages, fresh_partition c pages y;
  kf_calls : k_calls k = [];
  kf_seen : k_seen k = ∅;
}.
(** What listing has to show of a committed object. *)
Definition listed_of (x : list N * cobj) : listed :=
  {| li_key := fst x; li_created := co_created (snd x); li_size := co_size (snd x); li_id := co_id (snd x) |}.
