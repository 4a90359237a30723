(** The adapter of the benchmark for libblobd-lite (store/src/lite.rs), over the model
    of a whole lite store (LiteModel.v). *)
From stdpp Require Import base numbers list option gmap.
From Verif Require Import Util Bytes BuddyModel PageIOModel JournalModel LiteModel LiteSpec StoreModel.
Open Scope N_scope.

(** lite.rs:90-92 [write_chunk_size]. *)
Definition lite_chunk (c : liconf) : N := 2 ^ li_lpage c.

(** The operation of the library a call of the trait makes: lite.rs:96-111, 113-131,
    133-151, 153-168, 170-186, 188-199.  The object has no associated data; a part is a
    stream of one chunk; the callers of the benchmark give no object id
    (benchmark-runner/src/main.rs:527, 579, 645, 706).  The library picks the id and the
    time of a creation. *)
Definition lite_event (op : sop) (e : levent) : Prop :=
  match op with
  | SoCreate key size => exists id ms, id < 2 ^ 128 /\ ms < 2 ^ 48 /\ e = LCreate key size [] id ms
  | SoWrite key tok off data => exists fuel steps, e = LWrite key tok off (blen data) [Data data] fuel steps
  | SoCommit key tok => exists fuel seen, e = LCommit key tok fuel seen
  | SoInspect key => exists fuel, e = LInspect key None fuel
  | SoRead key start fin => exists fuel steps, e = LRead key None start fin fuel steps
  | SoDelete key => exists fuel seen, e = LDelete key None fuel seen
  end.
(** The same lines: what is made of the result; every error is unwrapped. *)
Definition lite_answer (o : lobs) : option sans :=
  match o with
  | OCreate _ _ id => Some (AnToken id)
  | OWrite _ _ _ _ _ WOk => Some AnUnit
  | OCommit _ _ true => Some AnUnit
  | OInspect _ _ (Some (_, size)) => Some (AnSize size)
  | ORead _ _ _ _ (RBytes l) => Some (AnData l)
  | ODelete _ _ true => Some AnUnit
  | _ => None
  end.
(** What goes on besides: the later steps of calls, and the journal. *)
Definition background (e : levent) : Prop :=
  match e with LCreateWrite _ | LCreateLink _ _ | LFinish _ | LJ _ => True | _ => False end.

(** A call: its operation is started and runs until nothing is in progress, together
    with what the journal does then and until the next call.  Or there is an error or a
    panic. *)
Definition lite_store (c : liconf) : adapter lstate := fun s op out =>
  idle s /\ exists e es s' obs, lite_event op e /\ Forall background es /\ lrun c s (e :: es) = Some (s', obs) /\
    ((exists o a, obs = [o] /\ lite_answer o = Some a /\ idle s' /\ out = Some (a, s')) \/
     (exists o, o ∈ obs /\ lite_answer o = None /\ out = None)).
