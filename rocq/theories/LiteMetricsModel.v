(** The counters of libblobd-lite/src/metrics.rs that count objects, on top of
    LiteModel.v.  They are wrapping u64 atomics: an integer here, of which a caller
    sees [reported].  ([allocated_bytes] is in the allocator, BuddyModel.v; the
    lock timings are not modelled.) *)
From stdpp Require Import base numbers option list.
From Verif Require Import Util BuddyModel MetaModel LiteModel.
Open Scope N_scope.

Record lmetrics := { lm_count : Z; lm_data : Z; lm_meta : Z; lm_incomplete : Z }.
Definition reported (z : Z) : N := Z.to_N (z mod 2 ^ 64).
Definition lm_zero : lmetrics := {| lm_count := 0; lm_data := 0; lm_meta := 0; lm_incomplete := 0 |}.
Definition lm_add (m : lmetrics) (k data meta : Z) : lmetrics :=
  {| lm_count := lm_count m + k; lm_data := lm_data m + data; lm_meta := lm_meta m + meta; lm_incomplete := lm_incomplete m |}.

(** The store, for each call what a create call will add (its object's size and
    its record's length), and the counters. *)
Record mstate := { ms_s : lstate; ms_new : list (option (N * N)); ms_met : lmetrics }.

(** The object a step unlinks (commit_object.rs:62-66, delete_object.rs:28-34). *)
Definition unlinked (c : liconf) (s : lstate) (e : levent) : option found :=
  match e with
  | LCommit key id fuel _ =>
      match find_for_commit c (now s) key fuel id with
      | WkDone (Some _, Some ex) => if li_versioning c then None else Some ex
      | _ => None
      end
  | LDelete key oid fuel _ =>
      match find_object c (now s) key fuel st_committed oid with WkDone f => f | _ => None end
  | _ => None
  end.
(** bucket.rs:245-250: the end of [delete_object].  [metadata_size] is [1 <<
    metadata_size_pow2] (object.rs:176-178). *)
Definition count_unlink (m : lmetrics) (f : found) : option lmetrics :=
  size ← meta_size (f_raw f); pow2 ← meta_size_pow2 (f_raw f);
  Some (lm_add m (-1) (- Z.of_N size) (- Z.of_N (2 ^ pow2))).

(** One step with its counters: create_object.rs:130-136 when a create call ends
    ([meta_size] there is the length of the record), bucket.rs:245-250 when an
    object is unlinked.  A call that panics counts nothing. *)
Definition mstep (c : liconf) (ms : mstate) (e : levent) : option (mstate * list lobs) :=
  '(s', obs) ← lstep c (ms_s ms) e;
  let new :=
    match drop (length (ls_calls (ms_s ms))) (ls_calls s') with
    | [LNew r raw _ _] => ms_new ms ++ [Some (cr_size r, N.of_nat (length raw))]
    | [_] => ms_new ms ++ [None]
    | _ => ms_new ms
    end in
  let met :=
    match e, obs with
    | _, [OPanic] => Some (ms_met ms)
    | LFinish i, _ =>
        match ms_new ms !! i with
        | Some (Some (size, len)) => Some (lm_add (ms_met ms) 1 (Z.of_N size) (Z.of_N len))
        | _ => Some (ms_met ms)
        end
    | _, _ => match unlinked c (ms_s ms) e with Some f => count_unlink (ms_met ms) f | None => Some (ms_met ms) end
    end in
  m ← met; Some ({| ms_s := s'; ms_new := new; ms_met := m |}, obs).
Fixpoint mrun (c : liconf) (ms : mstate) (es : list levent) : option (mstate * list lobs) :=
  match es with
  | [] => Some (ms, [])
  | e :: es => '(ms, o) ← mstep c ms e; '(ms, o') ← mrun c ms es; Some (ms, o ++ o')
  end.
(** A new store (metrics.rs:22-34). *)
Definition m_init (s : lstate) : mstate := {| ms_s := s; ms_new := []; ms_met := lm_zero |}.
