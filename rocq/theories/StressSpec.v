(** What can be read off a run of the stress tester. *)
From stdpp Require Import base numbers list option.
From Verif Require Import Util PageIOModel DirectModel DirectSpec DirectSeqSpec StressModel.
Open Scope N_scope.

(** The bytes of object [k], and those from [a] up to [b] (without [b]). *)
Definition ob_data (g : stcfg) (k : nat) : list N := take (N.to_nat (ob_len g k)) (drop (N.to_nat (ob_offset g k)) (sg_pool g)).
Definition slice (data : list N) (a b : N) : list N := take (N.to_nat (b - a)) (drop (N.to_nat a) data).
(** main.rs needs more random bytes than a key or an object can have, at least two
    different lengths to choose from, and sizes that fit 64 bits; [lpage] is the
    binary logarithm of the size of a large page of the store. *)
Record stress_cfg (g : stcfg) (lpage : N) : Prop := {
  sc_lpage : sg_lpage g = 2 ^ lpage;
  sc_max : 1 < sg_max g <= pool_size g;
  sc_key : 1 < sg_key_max g <= pool_size g;
  sc_fits : sg_max g + 2 ^ lpage < 2 ^ 64;
  sc_count : N.of_nat (sg_objects g) < 2 ^ 64;
}.

(** What call [i] returned: its return, and the items of its stream. *)
Definition results (ls : list label) (i : nat) : list vis :=
  omap (fun l => match l with LVis j v => if decide (j = i) then Some v else None | _ => None end) ls.
(** Call [i] was [op], has ended, and returned [vs]. *)
Definition did (ls : list label) (i : nat) (op : dop) (vs : list vis) : Prop :=
  LCall i op ∈ ls /\ results ls i = vs /\ finished ls i.
Definition some_call (ls : list label) (op : dop) (vs : list vis) : Prop := exists i, did ls i op vs.

(** Object [k] was created, written part by part, committed, found with the size it
    was created with; each of its bytes was read, with the same value; it was deleted. *)
Record tested (g : stcfg) (ls : list label) (k : nat) (key : list N) (tok id : N) : Prop := {
  te_create : some_call ls (OCreate key (ob_len g k)) [VRet (RCreated tok)];
  te_write : forall j, j * sg_lpage g < ob_len g k ->
    let part := slice (ob_data g k) (j * sg_lpage g) (N.min (j * sg_lpage g + sg_lpage g) (ob_len g k)) in
    some_call ls (OWrite tok (j * sg_lpage g) (N.of_nat (length part)) [Data part]) [VRet RWritten];
  te_commit : some_call ls (OCommit tok false) [VRet (RCommitted (Some id))];
  te_inspect : exists created, some_call ls (OInspect key (Some id)) [VRet (RInspected id (ob_len g k) created)];
  te_read : forall p, p < ob_len g k -> exists a fin x y z w chunks, a <= p < fin /\
    some_call ls (ORead key (Some id) a (Some fin) 16384) (VRet (RReading x y z w) :: map VChunk chunks ++ [VEnd RDone]) /\
    concat chunks = slice (ob_data g k) a fin;
  te_delete : some_call ls (ODelete key (Some id)) [VRet RDeleted];
}.
