(** What the benchmark does and what it can notice (C65). *)
From stdpp Require Import base numbers option gmap list.
From Verif Require Import Util Bytes StoreModel StoreSpec BenchModel.
Open Scope N_scope.

(** A run from the creation of the objects.  Keys have eight bytes; [start + read_size]
    does not wrap. *)
Record bench_ok (g : bcfg) : Prop := {
  bo_pool : blen (bc_pool g) = bc_size g;
  bo_size : bc_size g < 2 ^ 64;
  bo_count : N.of_nat (bc_count g) <= 2 ^ 64;
  bo_chunk : 0 < bc_chunk g;
  bo_read : 0 < bc_read g;
  bo_all : bc_skip_creation g = false;
}.
(** What is read of an object: somewhere, up to 4000 bytes; and all of it, by [bc_read]
    at a time. *)
Definition asks (g : bcfg) (start e : N) : Prop :=
  picked g start /\ e = start + N.min 4000 (bc_size g) \/
  start ∈ tiles (bc_read g) (bc_size g) /\ e = N.min (bc_size g) (start + bc_read g).
(** The store takes what the benchmark asks. *)
Record takes (g : bcfg) (ok : kstate -> sop -> Prop) : Prop := {
  tk_create : forall i, ok KAbsent (SoCreate (bkey i) (bc_size g));
  tk_write : forall i tok parts off data, ok (KUpload tok (bc_size g) parts) (SoWrite (bkey i) tok off data);
  tk_commit : forall i tok parts, ok (KUpload tok (bc_size g) parts) (SoCommit (bkey i) tok);
  tk_inspect : forall i, ok (KStored (bc_pool g)) (SoInspect (bkey i));
  tk_read : forall i start e, asks g start e -> ok (KStored (bc_pool g)) (SoRead (bkey i) start (Some e));
  tk_delete : forall i, ok (KStored (bc_pool g)) (SoDelete (bkey i));
}.
(** Right, except that of what is read any number of bytes may be given. *)
Definition right_but_length (st : kstate) (op : sop) (ans : sans) : Prop :=
  match op, st with
  | SoRead _ start fin, KStored data => exists n, start + n <= blen data /\ ans = AnData (bytes_from data start n)
  | _, _ => right st op ans
  end.
(** The calls made for one object, from first to last. *)
Definition life (g : bcfg) (i : nat) (tok rnd : N) : list sop :=
  [SoCreate (bkey i) (bc_size g)] ++
  ((fun off => SoWrite (bkey i) tok off (bytes_from (bc_pool g) off (N.min (bc_size g - off) (bc_chunk g)))) <$> tiles (bc_chunk g) (bc_size g)) ++
  [SoCommit (bkey i) tok; SoInspect (bkey i); SoRead (bkey i) rnd (Some (rnd + N.min 4000 (bc_size g)))] ++
  ((fun start => SoRead (bkey i) start (Some (N.min (bc_size g) (start + bc_read g)))) <$> tiles (bc_read g) (bc_size g)) ++
  (if bc_skip_deletion g then [] else [SoDelete (bkey i)]).
(** The number of steps of a run: a call each, and six or seven changes of phase. *)
Definition run_length (g : bcfg) : nat :=
  bc_count g * (5 + length (tiles (bc_chunk g) (bc_size g)) + length (tiles (bc_read g) (bc_size g)) - (if bc_skip_deletion g then 1 else 0)) + (if bc_skip_deletion g then 6 else 7).
