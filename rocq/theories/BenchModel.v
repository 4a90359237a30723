(** The benchmark: benchmark-runner/src/main.rs:378-735, over any store.

    Clocks, latencies, caches and the report are left out.  The tasks of a phase run in
    any order and between one another's calls, which includes every order in which
    [for_each_concurrent] may run them; a call takes effect at one moment; a stream of
    chunks is taken as one chunk (the chunks are compared one after another with what
    follows in the pool, so the split makes no difference). *)
From stdpp Require Import base numbers option gmap list.
From Verif Require Import Util Bytes StoreModel.
Open Scope N_scope.

(** [bc_pool] is [rand_pool], main.rs:303-306; [bc_chunk] is [store.write_chunk_size()]. *)
Record bcfg := { bc_count : nat; bc_size : N; bc_chunk : N; bc_read : N; bc_pool : list N; bc_skip_creation : bool; bc_skip_deletion : bool }.
Inductive bphase := PCreate | PWrite | PCommit | PInspect | PRandom | PRead | PDelete | PDone.
Global Instance bphase_dec : EqDecision bphase. Proof. solve_decision. Defined.

(** [create_u64_be(i)]: main.rs:395 and elsewhere *)
Definition bkey (i : nat) : list N := be_bytes 8 (N.of_nat i).
(** [(0..size).step_by(k)]: main.rs:436, 640.  [step_by(0)] panics. *)
Definition stepped (size k : N) : list N := (fun j => N.of_nat j * k) <$> seq 0 (N.to_nat ((size + k - 1) / k)).
(** The calls of the task of object [i] in a phase; [tok] is its token, [rnd] its
    [random_offset].  [start + read_size] is taken not to wrap. *)
Definition calls (g : bcfg) (p : bphase) (i : nat) (tok rnd : N) : list sop :=
  match p with
  | PCreate => [SoCreate (bkey i) (bc_size g)]                                                     (* 386-406 *)
  | PWrite => (fun off => SoWrite (bkey i) tok off (bytes_from (bc_pool g) off (N.min (bc_size g - off) (bc_chunk g))))
                <$> stepped (bc_size g) (bc_chunk g)                                               (* 428-453 *)
  | PCommit => [SoCommit (bkey i) tok]                                                             (* 477-496 *)
  | PInspect => [SoInspect (bkey i)]                                                               (* 518-536 *)
  | PRandom => [SoRead (bkey i) rnd (Some (rnd + N.min 4000 (bc_size g)))]                         (* 560-605 *)
  | PRead => (fun start => SoRead (bkey i) start (Some (start + (N.min (bc_size g) (start + bc_read g) - start))))
               <$> stepped (bc_size g) (bc_read g)                                                 (* 630-673 *)
  | PDelete => [SoDelete (bkey i)]                                                                 (* 697-715 *)
  | PDone => []
  end.
(** main.rs:569-573 *)
Definition picked (g : bcfg) (rnd : N) : Prop := if 4000 <? bc_size g then rnd < bc_size g - 4000 else rnd = 0.
(** The [if]s at main.rs:378 and 691. *)
Definition first_phase (g : bcfg) : bphase := if bc_skip_creation g then PInspect else PCreate.
Definition next_phase (g : bcfg) (p : bphase) : bphase :=
  match p with
  | PCreate => PWrite | PWrite => PCommit | PCommit => PInspect | PInspect => PRandom | PRandom => PRead
  | PRead => if bc_skip_deletion g then PDone else PDelete
  | PDelete | PDone => PDone
  end.
(** main.rs:595, 662: [assert_eq!(chunk, rand_pool[offset..offset + chunk.len()])].  No
    other answer is looked at. *)
Definition accepts (g : bcfg) (op : sop) (ans : sans) : Prop :=
  match op, ans with
  | SoRead _ start _, AnData l => start + blen l <= blen (bc_pool g) /\ l = bytes_from (bc_pool g) start (blen l)
  | SoRead _ _ _, _ => False
  | SoCreate _ _, AnToken _ => True
  | SoCreate _ _, _ => False
  | _, _ => True
  end.

(** [b_todo]: the calls each task of this phase has yet to make; [b_tokens]:
    [incomplete_tokens]; [b_hist]: the calls made and their answers. *)
Record bstate (St : Type) := BS { b_phase : bphase; b_todo : list (list sop); b_tokens : gmap nat N; b_store : St; b_hist : list (sop * sans) }.
Arguments BS {St}. Arguments b_phase {St}. Arguments b_todo {St}. Arguments b_tokens {St}. Arguments b_store {St}. Arguments b_hist {St}.
Definition keep_token (i : nat) (op : sop) (ans : sans) (tokens : gmap nat N) : gmap nat N :=    (* 400 *)
  match op, ans with SoCreate _ _, AnToken tok => <[i := tok]> tokens | _, _ => tokens end.
(** Every object has its task; only those of the phases 428 and 477 need its token. *)
Definition begins (g : bcfg) (p : bphase) (tokens : gmap nat N) (todo : list (list sop)) : Prop :=
  length todo = bc_count g /\
  forall i l, todo !! i = Some l -> exists tok rnd, (p = PWrite \/ p = PCommit -> tokens !! i = Some tok) /\ picked g rnd /\ l = calls g p i tok rnd.
Inductive bstep {St} (g : bcfg) (A : adapter St) : bstate St -> bstate St -> Prop :=
| bs_call p todo tokens s h i op rest ans s' :
    todo !! i = Some (op :: rest) -> A s op (Some (ans, s')) -> accepts g op ans ->
    bstep g A (BS p todo tokens s h) (BS p (<[i := rest]> todo) (keep_token i op ans tokens) s' (h ++ [(op, ans)]))
| bs_phase p todo tokens s h todo' :
    p <> PDone -> Forall (fun l => l = []) todo -> begins g (next_phase g p) tokens todo' ->
    bstep g A (BS p todo tokens s h) (BS (next_phase g p) todo' tokens s h).
(** A call that panics, never ends, or whose data is not what the pool has. *)
Definition bfails {St} (g : bcfg) (A : adapter St) (b : bstate St) : Prop :=
  exists i op rest, b_todo b !! i = Some (op :: rest) /\
    (A (b_store b) op None \/ exists ans s', A (b_store b) op (Some (ans, s')) /\ ~ accepts g op ans).
Inductive breach {St} (g : bcfg) (A : adapter St) (s0 : St) : nat -> bstate St -> Prop :=
| br_start todo : begins g (first_phase g) ∅ todo -> breach g A s0 0 (BS (first_phase g) todo ∅ s0 [])
| br_step n b b' : breach g A s0 n b -> bstep g A b b' -> breach g A s0 (S n) b'.
