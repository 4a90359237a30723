(** The stress tester (stochastic-stresser/src/main.rs) running on the direct store
    through the adapter store/src/direct.rs.

    Left out: progress counters and logging; the number of workers (any number
    of tasks may be running at the same time); the decimal text form of object ids
    (store/src/direct.rs:159, 167, 173, 183, 199 [to_string] and [parse], each other's
    inverse); numbers beyond 64 bits. *)
From stdpp Require Import base numbers list option.
From Verif Require Import Util Bytes PageIOModel DirectModel DirectSpec DirectSeqSpec.
Open Scope N_scope.

(** main.rs:70-103 [Config] and 206-217: what the objects are made from.
    [sg_hash] stands for [hash64_with_seed] with the four seeds. *)
Record stcfg := {
  sg_objects : nat;                (* object_count *)
  sg_lpage : N;                    (* lpage_size *)
  sg_max : N;                      (* maximum_object_size *)
  sg_key_max : N;                  (* object_key_len_max *)
  sg_pool : list N;                (* the random bytes, main.rs:111-118 *)
  sg_hash : nat -> N -> N;
}.
Definition pool_size (g : stcfg) : N := N.of_nat (length (sg_pool g)).
(** main.rs:120-124 [Pool::get]; [None] when the slice is out of bounds. *)
Definition pool_get (g : stcfg) (offset len : N) : option (list N) :=
  if offset + len <=? pool_size g then Some (take (N.to_nat len) (drop (N.to_nat offset) (sg_pool g))) else None.
(** main.rs:126-130 [get_then_prefix] *)
Definition get_then_prefix (g : stcfg) (offset len prefix : N) : option (list N) :=
  bytes ← pool_get g offset len; Some (le_bytes 8 prefix ++ bytes).
(** main.rs:271-280, 250-253: object [k] *)
Definition ob_key_len (g : stcfg) (k : nat) : N := sg_hash g 0 (N.of_nat k) mod (sg_key_max g - 1) + 1.
Definition ob_key_offset (g : stcfg) (k : nat) : N := sg_hash g 1 (N.of_nat k) mod (pool_size g - ob_key_len g k).
Definition ob_len (g : stcfg) (k : nat) : N := sg_hash g 2 (N.of_nat k) mod (sg_max g - 1) + 1.
Definition ob_offset (g : stcfg) (k : nat) : N := sg_hash g 3 (N.of_nat k) mod (pool_size g - ob_len g k).
Definition ob_key (g : stcfg) (k : nat) : option (list N) := get_then_prefix g (ob_key_offset g k) (ob_key_len g k) (N.of_nat k).

(** main.rs:133-182 [Task]: what is to be done next with an object *)
Inductive task :=
| TCreate
| TWrite (tok chunk_offset : N)
| TCommit (tok : N)
| TInspect (id : option N)
| TRead (id : option N) (chunk_offset : N)
| TDelete (id : option N).

(** main.rs:378-383 *)
Definition chunk_len (g : stcfg) (k : nat) (offset : N) : N :=
  if offset + sg_lpage g <=? ob_len g k then sg_lpage g else ob_len g k - offset.
(** The call a task makes on the store, [None] when the worker panics before it.
    main.rs:342-540 with the adapter direct.rs:116-204; [fin] is the random end of a
    read (main.rs:482). *)
Definition task_call (g : stcfg) (k : nat) (t : task) (fin : N) : option dop :=
  key ← ob_key g k;
  match t with
  | TCreate => Some (OCreate key (ob_len g k))                         (* main.rs:350-355, direct.rs:116-128 *)
  | TWrite tok off =>                                                  (* main.rs:384-391, direct.rs:130-144 *)
      data ← pool_get g (ob_offset g k + off) (chunk_len g k off);
      Some (OWrite tok off (N.of_nat (length data)) [Data data])
  | TCommit tok => Some (OCommit tok false)                            (* main.rs:424-430, direct.rs:146-161 *)
  | TInspect id => Some (OInspect key id)                              (* main.rs:451-456, direct.rs:163-176 *)
  | TRead id off => if off <? ob_len g k then Some (ORead key id off (Some fin) 16384) else None  (* main.rs:482-491, direct.rs:178-193 *)
  | TDelete id => Some (ODelete key id)                                (* main.rs:530-535, direct.rs:195-204 *)
  end.
(** main.rs:482 [gen_range(chunk_offset + 1..=data_len)] *)
Definition picks (g : stcfg) (k : nat) (t : task) (fin : N) : Prop :=
  match t with TRead _ off => off < ob_len g k -> off < fin <= ob_len g k | _ => True end.

(** What becomes of a task when its call has finished: the next task of the object,
    none, or the worker panics because an assertion or an [unwrap] failed. *)
Inductive outcome := Next (t : task) | Over | Panic.
(** main.rs:492-498: the chunks of a read *)
Fixpoint check_chunks (g : stcfg) (k : nat) (off fin : N) (chunks : list (list N)) : option N :=
  match chunks with
  | [] => Some off
  | chunk :: chunks =>
      let len := N.of_nat (length chunk) in
      expected ← pool_get g (ob_offset g k + off) len;
      if decide (chunk = expected) then if off + len <=? fin then check_chunks g k (off + len) fin chunks else None else None
  end.
(** The items of a stream, if it ended without an error (direct.rs:191). *)
Fixpoint stream_of (vs : list vis) : option (list (list N)) :=
  match vs with
  | [VEnd RDone] => Some []
  | VChunk chunk :: vs => chunks ← stream_of vs; Some (chunk :: chunks)
  | _ => None
  end.
Definition after (g : stcfg) (k : nat) (t : task) (fin : N) (vs : list vis) : outcome :=
  match t, vs with
  | TCreate, [VRet (RCreated tok)] => Next (TWrite tok 0)                                   (* main.rs:357-367 *)
  | TWrite tok off, [VRet RWritten] =>                                                       (* main.rs:392-414 *)
      if off + sg_lpage g <? ob_len g k then Next (TWrite tok (off + sg_lpage g)) else Next (TCommit tok)
  | TCommit tok, [VRet (RCommitted (Some id))] => Next (TInspect (Some id))                 (* main.rs:431-441 *)
  | TInspect id, [VRet (RInspected oid size _)] =>                                          (* main.rs:457-470 *)
      if decide (Some oid = id) then if size =? ob_len g k then Next (TRead id 0) else Panic else Panic
  | TRead id off, VRet (RReading _ _ _ _) :: vs =>                                          (* main.rs:492-522 *)
      match chunks ← stream_of vs; check_chunks g k off fin chunks with
      | Some off' => if off' =? fin then if fin <? ob_len g k then Next (TRead id off') else Next (TDelete id) else Panic
      | None => Panic
      end
  | TDelete _, [VRet RDeleted] => Over                                                       (* main.rs:536-538 *)
  | _, _ => Panic
  end.

(** The state of an object: its task is in the queue, a worker has made call [i] for it
    and has [seen] so far, all is done, or the worker panicked. *)
Inductive tstate := TQueued (t : task) | TRunning (i : nat) (t : task) (fin : N) (seen : list vis) | TOver | TFailed.
Definition state_of (o : outcome) : tstate := match o with Next t => TQueued t | Over => TOver | Panic => TFailed end.

(** What the workers do (main.rs:320-543) and what the store does, interleaved. *)
Inductive stress (g : stcfg) : list label -> list tstate -> Prop :=
| st_start : stress g [] (replicate (sg_objects g) (TQueued TCreate))                       (* main.rs:261-298 *)
| st_call ls ts k t fin i op :
    stress g ls ts -> ts !! k = Some (TQueued t) -> picks g k t fin -> task_call g k t fin = Some op ->
    (forall op', LCall i op' ∉ ls) ->
    stress g (ls ++ [LCall i op]) (<[k := TRunning i t fin []]> ts)
| st_panic ls ts k t fin :
    stress g ls ts -> ts !! k = Some (TQueued t) -> picks g k t fin -> task_call g k t fin = None ->
    stress g ls (<[k := TFailed]> ts)
| st_item ls ts k t fin i seen v :
    stress g ls ts -> ts !! k = Some (TRunning i t fin seen) -> is_final v = false ->
    stress g (ls ++ [LVis i v]) (<[k := TRunning i t fin (seen ++ [v])]> ts)
| st_end ls ts k t fin i seen v :
    stress g ls ts -> ts !! k = Some (TRunning i t fin seen) -> is_final v = true ->
    stress g (ls ++ [LVis i v]) (<[k := state_of (after g k t fin (seen ++ [v]))]> ts)
| st_tau ls ts : stress g ls ts -> stress g (ls ++ [LTau]) ts.

(** main.rs:238-239: the tester runs on a formatted partition. *)
Inductive stress_direct (g : stcfg) (c : dcfg) (pages : list (list N)) (ls : list label) (ts : list tstate) : Prop :=
| stress_direct_intro y0 y : fresh_partition c pages y0 -> dsteps c y0 ls y -> stress g ls ts -> stress_direct g c pages ls ts.

(** store/src/kv.rs:136-146 [write_object] of the kv adapter, for the part of object [k]
    at [offset] (main.rs:378-391): the key and the value given to the store; [None]
    when [assert_eq!(input.offset, 0)] panics. *)
Definition kv_adapter_write (g : stcfg) (k : nat) (offset : N) : option (list N * list N) :=
  key ← ob_key g k; data ← pool_get g (ob_offset g k + offset) (chunk_len g k offset);
  if offset =? 0 then Some (key, data) else None.
