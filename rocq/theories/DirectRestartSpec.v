(** What opening a direct partition again has to restore, wherever the process
    was killed.

    Uploads survive with what had been written of them; parts being written are
    undetermined.  A commit or delete whose call had not returned may have
    happened or not, and an object it was removing may be back. *)
From stdpp Require Import base numbers list option gmap sets functions.
From Verif Require Import DirectModel DirectSpec.
Open Scope N_scope.

(** The writers of a part are gone; it has the bytes it had if these were
    determined. *)
Definition reopened_part (p : part) : part := {| pt_writers := 0; pt_clean := false; pt_data := pt_data p |}.
Definition reopened_upload (u : upload) : upload :=
  {| up_key := up_key u; up_size := up_size u; up_created := up_created u; up_open := true;
     up_parts := fun off => reopened_part (up_parts u off) |}.

(** A call that has not returned is removing object [id], or has published it. *)
Definition removing (z : ssys) (id : N) : Prop :=
  (exists tok new, SPublished tok new (Some id) ∈ z_procs z) \/ SDeleted id ∈ z_procs z.
(** ... from upload [tok]. *)
Definition publishing_from (z : ssys) (tok id : N) : Prop := exists replaced, SPublished tok id replaced ∈ z_procs z.
Definition publishing (z : ssys) (id : N) : Prop := exists tok, publishing_from z tok id.

(** Two descriptions of the same object. *)
Definition same_object (co co' : cobj) : Prop :=
  co_id co' = co_id co /\ co_size co' = co_size co /\ co_created co' = co_created co /\
  forall i, i < co_size co -> co_bytes co' i = co_bytes co i.

(** The part at [off] of an upload of which every byte has been written. *)
Definition whole_part (lpage size : N) (bytes : N -> N) (off : N) : part :=
  {| pt_writers := 0; pt_clean := false;
     pt_data := if (off mod 2 ^ lpage =? 0) && (off <? size)
                then Some ((fun i => bytes (off + N.of_nat i)) <$> seq 0 (N.to_nat (N.min (2 ^ lpage) (size - off)))) else None |}.
(** An open upload with all the bytes of object [co]. *)
Definition restores (lpage : N) (u : upload) (key : list N) (co : cobj) : Prop :=
  up_key u = key /\ up_size u = co_size co /\ up_created u = co_created co /\ up_open u = true /\
  forall off, up_parts u off = whole_part lpage (co_size co) (co_bytes co) off.

(** An upload that is there again although it was not an upload any more.  [had
    key co]: at some moment before, [key] had [co]. *)
Inductive leftover (lpage : N) (had : list N -> cobj -> Prop) (z : ssys) (S' : sstate) (tok : N) (u : upload) : Prop :=
(** its creation has not returned *)
| lo_create : SCall (OCreate (up_key u) (up_size u)) ∈ z_procs z -> tok ∉ ss_ids (z_state z) ->
    u = new_upload (up_key u) (up_size u) (up_created u) -> leftover lpage had z S' tok u
(** its commit has not returned: it is not committed and has all its bytes *)
| lo_commit co : publishing_from z tok (co_id co) -> had (up_key u) co -> restores lpage u (up_key u) co ->
    (forall k co', ss_com S' !! k = Some co' -> co_id co' <> co_id co) -> leftover lpage had z S' tok u
(** its commit gave way to an existing object and has not returned *)
| lo_discard co : SDiscarded ∈ z_procs z -> restores lpage u (up_key u) co -> leftover lpage had z S' tok u.

Record crash (lpage : N) (had : list N -> cobj -> Prop) (z : ssys) (S' : sstate) : Prop := {
  (** every upload is there *)
  cr_up : forall tok u, ss_up (z_state z) !! tok = Some u -> ss_up S' !! tok = Some (reopened_upload u);
  cr_up_new : forall tok u, ss_up S' !! tok = Some u -> ss_up (z_state z) !! tok = None -> leftover lpage had z S' tok u;
  (** a committed object was there, or the key had it before and it is being
      removed *)
  cr_com : forall key co, ss_com S' !! key = Some co ->
    ss_com (z_state z) !! key = Some co \/ (removing z (co_id co) /\ exists co0, had key co0 /\ same_object co0 co);
  (** a committed object is there; or one that is being removed and has a greater
      id is; or its commit has not returned and it is an upload again *)
  cr_com_kept : forall key co, ss_com (z_state z) !! key = Some co ->
    ss_com S' !! key = Some co \/
    (exists co', ss_com S' !! key = Some co' /\ removing z (co_id co') /\ co_id co < co_id co') \/
    (exists tok u, publishing_from z tok (co_id co) /\ ss_up S' !! tok = Some u /\ restores lpage u key co);
  (** if an object and the one it replaces are both gone, the commit of the one
      replaced has not returned either *)
  cr_com_both : forall key co, ss_com (z_state z) !! key = Some co -> ss_com S' !! key = None ->
    exists tok replaced, SPublished tok (co_id co) replaced ∈ z_procs z /\ forall id, replaced = Some id -> publishing z id;
  cr_ids : ss_ids (z_state z) ⊆ ss_ids S' /\ (forall tok, is_Some (ss_up S' !! tok) -> tok ∈ ss_ids S') /\
    (forall key co, ss_com S' !! key = Some co -> co_id co ∈ ss_ids S');
}.

(** No call that removes or publishes an object is under way. *)
Definition calm (z : ssys) : Prop :=
  forall s, s ∈ z_procs z -> match s with SPublished _ _ _ | SDiscarded | SDeleted _ => False | _ => True end.
(** Then nothing is lost, nothing comes back, and the only new uploads are those
    of creations that have not returned. *)
Record clean_crash (z : ssys) (S' : sstate) : Prop := {
  cc_com : ss_com S' = ss_com (z_state z);
  cc_up : forall tok u, ss_up (z_state z) !! tok = Some u -> ss_up S' !! tok = Some (reopened_upload u);
  cc_up_new : forall tok u, ss_up S' !! tok = Some u -> ss_up (z_state z) !! tok = None ->
    u = new_upload (up_key u) (up_size u) (up_created u) /\ SCall (OCreate (up_key u) (up_size u)) ∈ z_procs z /\ tok ∉ ss_ids (z_state z);
  cc_ids : ss_ids (z_state z) ⊆ ss_ids S' /\ (forall tok, is_Some (ss_up S' !! tok) -> tok ∈ ss_ids S') /\
    (forall key co, ss_com S' !! key = Some co -> co_id co ∈ ss_ids S');
}.

(** Of a history: every commit and delete has returned. *)
Definition settled_history (ls : list label) : Prop :=
  forall i op, LCall i op ∈ ls -> match op with OCommit _ _ | ODelete _ _ => exists r, LVis i (VRet r) ∈ ls | _ => True end.

(** Several sessions, the process being killed between them. *)
Inductive spec_sessions (lpage : N) : ssys -> list (list label) -> ssys -> Prop :=
| ses_one z ls z' : spec_steps lpage z ls z' -> spec_sessions lpage z [ls] z'
| ses_next z hs z1 S' ls z2 :
    spec_sessions lpage z hs z1 -> clean_crash z1 S' ->
    spec_steps lpage {| z_state := S'; z_procs := [] |} ls z2 -> spec_sessions lpage z (hs ++ [ls]) z2.
(** At some moment of the last of these sessions [key] had [co]. *)
Definition once_committed (lpage : N) (z0 : ssys) (hs : list (list label)) (z : ssys) (key : list N) (co : cobj) : Prop :=
  exists hs0 ls1 ls2 zm, hs = hs0 ++ [ls1 ++ ls2] /\ spec_sessions lpage z0 (hs0 ++ [ls1]) zm /\ spec_steps lpage zm ls2 z /\
    ss_com (z_state zm) !! key = Some co.
