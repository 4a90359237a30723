(** The object index ("tuples") of libblobd-direct.

    Models libblobd-direct/src/object/mod.rs:28-37,64-96 and
    libblobd-direct/src/tuples.rs. *)
From stdpp Require Import base numbers list option gmap sets fin_sets.
From Verif Require Import Util Bytes.
Open Scope N_scope.

(** object/mod.rs:28-37 [ObjectState]; 0 is [_EndOfBundleTuples]. *)
Definition ds_end : N := 0.
Definition ds_incomplete : N := 1.
Definition ds_committed : N := 2.
Definition state_from_u8 (b : N) : option N :=
  if b <=? 2 then Some b else None.

(** object/mod.rs:70-76 [ObjectTuple]. *)
Record tuple := { t_state : N; t_id : N; t_off : N; t_pow2 : N }.

(** object/mod.rs:64-68. *)
Definition tup_off_state : N := 0.
Definition tup_off_id : N := tup_off_state + 1.
Definition tup_off_meta : N := tup_off_id + 16.
Definition tup_off_pow2 : N := tup_off_meta + 6.
Definition tup_len : N := tup_off_pow2 + 1.

(** object/mod.rs:79-85 [serialise] into the 24-byte slice [out]. *)
Definition tuple_serialise (out : list N) (t : tuple) : option (list N) :=
  if negb (N.of_nat (length out) =? tup_len) then None else
  out ← buf_write out tup_off_state [t_state t];
  out ← buf_write out tup_off_id (le_bytes 16 (t_id t));
  out ← buf_write out tup_off_meta (le_bytes 6 (t_off t));
  buf_write out tup_off_pow2 [t_pow2 t].

(** object/mod.rs:87-95 [deserialise]. *)
Definition tuple_deserialise (raw : list N) : option tuple :=
  if negb (N.of_nat (length raw) =? tup_len) then None else
  st ← (be_val <$> buf_read raw tup_off_state 1) ≫= state_from_u8;
  id ← le_val <$> buf_read raw tup_off_id 16;
  off ← le_val <$> buf_read raw tup_off_meta 6;
  pow2 ← be_val <$> buf_read raw tup_off_pow2 1;
  Some {| t_state := st; t_id := id; t_off := off; t_pow2 := pow2 |}.

(** tuples.rs:177-180: the loop writing tuples into [page], tuple [i] at
    [i * 24]. *)
Fixpoint serialise_from (page : list N) (i : N) (ts : list tuple) : option (list N) :=
  match ts with
  | [] => Some page
  | t :: ts =>
      out ← buf_read page (i * tup_len) tup_len;
      out ← tuple_serialise out t;
      page ← buf_write page (i * tup_len) out;
      serialise_from page (i + 1) ts
  end.
(** tuples.rs:174-184.  [page] is the uninitialised buffer. *)
Definition serialise_bundle (max : N) (page : list N) (ts : list tuple) : option (list N) :=
  page ← serialise_from page 0 ts;
  let n := N.of_nat (length ts) in
  if n <? max then buf_write page (n * tup_len) [ds_end] else Some page.

(** [slice.chunks_exact(n)]. *)
Fixpoint chunks_exact (fuel : nat) (n : nat) (l : list N) : list (list N) :=
  match fuel with
  | O => []
  | S fuel => if (length l <? n)%nat then [] else take n l :: chunks_exact fuel n (drop n l)
  end.
(** tuples.rs:220-227: the loop over one bundle.  [None]: panic. *)
Fixpoint parse_chunks (cs : list (list N)) : option (list tuple) :=
  match cs with
  | [] => Some []
  | c :: cs =>
      st ← head c ≫= state_from_u8;
      if st =? ds_end then Some [] else
      t ← tuple_deserialise c;
      ts ← parse_chunks cs;
      Some (t :: ts)
  end.
Definition parse_bundle (raw : list N) : option (list tuple) :=
  parse_chunks (chunks_exact (length raw) (N.to_nat tup_len) raw).
(** tuples.rs:210-229 [load_tuples_from_raw_tuples_area], the tuples of every
    bundle in order (objects.rs:86-91). *)
Definition load_area (spage : N) (raw : list N) : option (list (list tuple)) :=
  if negb (N.of_nat (length raw) mod 2 ^ spage =? 0) then None else
  mapM parse_bundle (chunks_exact (length raw) (N.to_nat (2 ^ spage)) raw).

(** ** tuples.rs: the in-memory state *)
(** tuples.rs:28-46 [TuplesState], [Tuples].  A signal is named by the number of
    the call that created it. *)
Record tstate := {
  ts_id2b : gmap N nat;
  ts_bundles : list (gmap N tuple);
  ts_free : gset nat;
  ts_dirty : gset nat;
  ts_fad : gset nat;             (* free_and_dirty_bundles *)
  ts_signals : list nat;
  ts_max : N;
}.

(** [RoaringBitmap::min]. *)
Definition bm_min (s : gset nat) : option nat :=
  match elements s with
  | [] => None
  | x :: l => Some (fold_left Nat.min l x)
  end.

(** tuples.rs:49-71 [new].  The u16 and u32 conversions panic out of range. *)
Fixpoint tuples_load (bid : nat) (max : N) (init : list (list tuple)) (s : tstate) : option tstate :=
  match init with
  | [] => Some s
  | l :: init =>
      if (max <? N.of_nat (length l)) || (2 ^ 32 <=? N.of_nat bid) then None else
      '(id2b, m) ← fold_left (fun acc t =>
            '(id2b, m) ← acc;
            match id2b !! t_id t, m !! t_id t with
            | None, None => Some (<[t_id t := bid]> id2b, <[t_id t := t]> m)
            | _, _ => None
            end) l (Some (ts_id2b s, ∅ : gmap N tuple));
      tuples_load (S bid) max init
        {| ts_id2b := id2b; ts_bundles := ts_bundles s ++ [m];
           ts_free := if N.of_nat (length l) <? max then {[bid]} ∪ ts_free s else ts_free s;
           ts_dirty := ts_dirty s; ts_fad := ts_fad s; ts_signals := ts_signals s; ts_max := max |}
  end.
Definition tuples_new (spage : N) (init : list (list tuple)) : option tstate :=
  let max := 2 ^ spage / tup_len in
  if 2 ^ 16 <=? max then None else
  tuples_load 0 max init
    {| ts_id2b := ∅; ts_bundles := []; ts_free := ∅; ts_dirty := ∅; ts_fad := ∅; ts_signals := []; ts_max := max |}.

(** tuples.rs:73-97 [insert_object], up to the await; [k] names the signal.
    [None]: panic ("run out of space for tuples" or an assertion). *)
Definition insert_object (s : tstate) (k : nat) (o : tuple) : option tstate :=
  bid ← match bm_min (ts_fad s) with Some b => Some b | None => bm_min (ts_free s) end;
  match ts_id2b s !! t_id o with Some _ => None | None =>
  bundle ← ts_bundles s !! bid;
  match bundle !! t_id o with Some _ => None | None =>
  let bundle := <[t_id o := o]> bundle in
  let len := N.of_nat (size bundle) in
  if ts_max s <? len then None else
  Some {| ts_id2b := <[t_id o := bid]> (ts_id2b s);
          ts_bundles := <[bid := bundle]> (ts_bundles s);
          ts_free := if len =? ts_max s then ts_free s ∖ {[bid]} else ts_free s;
          ts_dirty := {[bid]} ∪ ts_dirty s;
          ts_fad := if len =? ts_max s then ts_fad s ∖ {[bid]} else {[bid]} ∪ ts_fad s;
          ts_signals := ts_signals s ++ [k]; ts_max := ts_max s |}
  end end.

(** tuples.rs:99-128 [update_object_id_and_state]. *)
Definition update_object (s : tstate) (k : nat) (cur new : N) (st : N) : option tstate :=
  bid ← ts_id2b s !! cur;
  let id2b := delete cur (ts_id2b s) in
  bundle ← ts_bundles s !! bid;
  let bundle_len := N.of_nat (size bundle) in
  t ← bundle !! cur;
  let bundle := delete cur bundle in
  match bundle !! new, id2b !! new with
  | None, None =>
      Some {| ts_id2b := <[new := bid]> id2b;
              ts_bundles := <[bid := <[new := {| t_state := st; t_id := new; t_off := t_off t; t_pow2 := t_pow2 t |}]> bundle]> (ts_bundles s);
              ts_free := ts_free s;
              ts_dirty := {[bid]} ∪ ts_dirty s;
              ts_fad := if bundle_len <? ts_max s then {[bid]} ∪ ts_fad s else ts_fad s;
              ts_signals := ts_signals s ++ [k]; ts_max := ts_max s |}
  | _, _ => None
  end.

(** tuples.rs:130-145 [delete_object]. *)
Definition delete_object (s : tstate) (k : nat) (id : N) : option (tstate * tuple) :=
  bid ← ts_id2b s !! id;
  bundle ← ts_bundles s !! bid;
  t ← bundle !! id;
  Some ({| ts_id2b := delete id (ts_id2b s);
           ts_bundles := <[bid := delete id bundle]> (ts_bundles s);
           ts_free := ts_free s;
           ts_dirty := {[bid]} ∪ ts_dirty s;
           ts_fad := {[bid]} ∪ ts_fad s;
           ts_signals := ts_signals s ++ [k]; ts_max := ts_max s |}, t).

(** ** tuples.rs:148-195: the background loop, interleaved with the calls *)
Inductive tflush :=
  | TIdle
  | TWriting (changes : list (nat * list tuple)) (signals : list nat).

Record tsys := {
  sy_state : tstate;
  sy_flush : tflush;
  sy_disk : list (list N);       (* the pages of the index area, one per bundle *)
  sy_calls : nat;                (* number of calls so far *)
  sy_acked : list nat;           (* calls whose await has returned *)
}.

Inductive tcall :=
  | CInsert (o : tuple)
  | CUpdate (cur new st : N)
  | CDelete (id : N).
Definition call_exec (s : tstate) (k : nat) (c : tcall) : option tstate :=
  match c with
  | CInsert o => insert_object s k o
  | CUpdate cur new st => update_object s k cur new st
  | CDelete id => fst <$> delete_object s k id
  end.

(** One step.  [None] as a call's result is a panic: no step.  The order of a
    HashMap's values is arbitrary; writing one bundle is one step, and pages
    that are being written complete in any order. *)
Inductive tstep : tsys -> option tcall -> tsys -> Prop :=
| tstep_call y c s' :
    call_exec (sy_state y) (sy_calls y) c = Some s' ->
    tstep y (Some c) {| sy_state := s'; sy_flush := sy_flush y; sy_disk := sy_disk y;
                 sy_calls := S (sy_calls y); sy_acked := sy_acked y |}
| tstep_snapshot y changes :
    sy_flush y = TIdle ->
    (* lines 152-169: one entry per dirty bundle with its tuples in some order *)
    (forall b, b ∈ changes.*1 <-> b ∈ ts_dirty (sy_state y)) -> NoDup (changes.*1) -> changes <> [] ->
    (forall b l, (b, l) ∈ changes -> exists m, ts_bundles (sy_state y) !! b = Some m /\
        Permutation l (map_to_list m).*2) ->
    tstep y None {| sy_state := {| ts_id2b := ts_id2b (sy_state y); ts_bundles := ts_bundles (sy_state y);
                       ts_free := ts_free (sy_state y); ts_dirty := ∅; ts_fad := ∅;
                       ts_signals := []; ts_max := ts_max (sy_state y) |};
               sy_flush := TWriting changes (ts_signals (sy_state y));
               sy_disk := sy_disk y; sy_calls := sy_calls y; sy_acked := sy_acked y |}
| tstep_write y c1 b l c2 signals junk old page :
    sy_flush y = TWriting (c1 ++ (b, l) :: c2) signals ->
    sy_disk y !! b = Some old -> length junk = length old -> Forall is_byte junk ->
    serialise_bundle (ts_max (sy_state y)) junk l = Some page ->
    tstep y None {| sy_state := sy_state y; sy_flush := TWriting (c1 ++ c2) signals;
               sy_disk := <[b := page]> (sy_disk y); sy_calls := sy_calls y; sy_acked := sy_acked y |}
| tstep_signal y signals :
    sy_flush y = TWriting [] signals ->
    tstep y None {| sy_state := sy_state y; sy_flush := TIdle; sy_disk := sy_disk y;
               sy_calls := sy_calls y; sy_acked := sy_acked y ++ signals |}.
