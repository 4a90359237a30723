(** The adapter of the benchmark for libblobd-direct (store/src/direct.rs), over the
    model of a partition (DirectModel.v) and the choice of a partition. *)
From stdpp Require Import base numbers list option gmap.
From Verif Require Import Util Bytes BuddyModel PageIOModel TuplesModel DirectModel DirectSpec DirectSeqSpec StoreModel.
Open Scope N_scope.

(** direct.rs:110-112 [write_chunk_size]. *)
Definition direct_chunk (c : dcfg) : N := 2 ^ dc_lpage c.

(** direct.rs:116-204: the call of the library a call of the trait makes.  A part is a
    stream of one chunk; a commit replaces; the callers of the benchmark give no object
    id (benchmark-runner/src/main.rs:527, 579, 645, 706). *)
Definition direct_call (op : sop) (d : dop) : Prop :=
  match op with
  | SoCreate key size => d = OCreate key size
  | SoWrite _ tok off data => d = OWrite tok off (blen data) [Data data]
  | SoCommit _ tok => d = OCommit tok false
  | SoInspect key => d = OInspect key None
  | SoRead key start fin => exists buffer, 0 < buffer /\ d = ORead key None start fin buffer
  | SoDelete key => d = ODelete key None
  end.
(** The same lines: what is made of what the call shows; every error is unwrapped, and
    so is the id of a commit (direct.rs:159). *)
Fixpoint stream_data (vs : list vis) : option (list N) :=
  match vs with
  | [VEnd RDone] => Some []
  | VChunk d :: vs => (d ++.) <$> stream_data vs
  | _ => None
  end.
Definition direct_answer (vs : list vis) : option sans :=
  match vs with
  | [VRet (RCreated tok)] => Some (AnToken tok)
  | [VRet RWritten] | [VRet (RCommitted (Some _))] | [VRet RDeleted] => Some AnUnit
  | [VRet (RInspected _ size _)] => Some (AnSize size)
  | VRet (RReading _ _ _ _) :: vs => AnData <$> stream_data vs
  | _ => None
  end.
(** A call of one partition runs to its end, together with whatever the index flusher and
    the device do then; or it fails, when what it shows is an error or a panic. *)
Definition partition_store (c : dcfg) : adapter dsys := fun y op out =>
  exists d ls y' vs, direct_call op d /\ dsteps c y ls y' /\
    visible ls = LCall (length (y_procs y)) d :: map (LVis (length (y_procs y))) vs /\ (exists v, v ∈ vs /\ is_final v = true) /\
    out = (fun a => (a, y')) <$> direct_answer vs.

(** ** libblobd-direct/src/lib.rs:226-330: a store of several partitions *)
(** create_object.rs:133-137: a token has the index of the partition besides the id; here
    it is the number [id * count + index]. *)
Definition join_token (count index id : N) : N := id * count + index.
(** lib.rs:248-252: the partition of a key is given by its hash; lib.rs:254-330: writes
    and commits go to the partition of the token, all other calls to that of the key. *)
Definition shard_op (count : N) (hash : list N -> N) (op : sop) : N * sop :=
  match op with
  | SoWrite key tok off data => (tok mod count, SoWrite key (tok / count) off data)
  | SoCommit key tok => (tok mod count, SoCommit key (tok / count))
  | SoCreate key _ | SoInspect key | SoRead key _ _ | SoDelete key => (hash key mod count, op)
  end.
Definition shard_answer (count index : N) (a : sans) : sans :=
  match a with AnToken id => AnToken (join_token count index id) | _ => a end.
(** The partitions share nothing but the configuration. *)
Definition sharded {St} (hash : list N -> N) (A : nat -> adapter St) : adapter (list St) := fun ss op out =>
  let '(p, op') := shard_op (N.of_nat (length ss)) hash op in
  exists s out', ss !! N.to_nat p = Some s /\ A (N.to_nat p) s op' out' /\
    out = (fun '(a, s') => (shard_answer (N.of_nat (length ss)) p a, <[N.to_nat p := s']> ss)) <$> out'.
Definition direct_store (hash : list N -> N) (c : nat -> dcfg) : adapter (list dsys) := sharded hash (fun p => partition_store (c p)).
