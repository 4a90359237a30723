(** What a libblobd-lite store does when [versioning] is on: the committed objects
    of a key are all kept, and one found without naming an id is the one created
    last (not the one committed last, see C48).  No chains, overlay, journal or
    pages. *)
From stdpp Require Import base numbers option gmap list.
From Verif Require Import Util PageIOModel PageIOSpec LiteModel LiteSpec.
Open Scope N_scope.

Record version := { v_key : list N; v_obj : sobj; v_com : bool }.
Definition v_id (v : version) : N := so_id (v_obj v).
(** All objects, committed or not, the one created last first. *)
Notation vstore := (list version).

Definition v_is (key : list N) (com : bool) (oid : option N) (v : version) : bool :=
  bool_decide (v_key v = key) && Bool.eqb (v_com v) com && id_ok oid (v_id v).
(** The first that fits. *)
Definition v_find (vs : vstore) (key : list N) (oid : option N) : option version := List.find (v_is key true oid) vs.
Definition v_incomplete (vs : vstore) (key : list N) (id : N) : option version := List.find (v_is key false (Some id)) vs.
Definition v_update (vs : vstore) (id : N) (f : version -> version) : vstore :=
  (fun v => if v_id v =? id then f v else v) <$> vs.
Definition v_mark (v : version) : version := {| v_key := v_key v; v_obj := v_obj v; v_com := true |}.
Definition v_with (v : version) (o : sobj) : version := {| v_key := v_key v; v_obj := o; v_com := v_com v |}.

Inductive vstep (lpage : N) (vs : vstore) : lobs -> vstore -> Prop :=
| VCreate key size id :
    (forall v, v ∈ vs -> v_id v <> id) ->
    vstep lpage vs (OCreate key size id)
      ({| v_key := key; v_obj := {| so_id := id; so_size := size; so_bytes := fun _ => None |}; v_com := false |} :: vs)
| VTooLarge key size assoc :
    2 ^ lpage < 39 + N.of_nat (length key) + 6 * (size / 2 ^ lpage + 24) + N.of_nat (length assoc) ->
    vstep lpage vs (OTooLarge key size assoc) vs
| VFull key size : vstep lpage vs (OFull key size) vs
| VCommit key id v :
    v_incomplete vs key id = Some v ->
    vstep lpage vs (OCommit key id true) (v_update vs id v_mark)
| VCommitFail key id :
    v_incomplete vs key id = None -> vstep lpage vs (OCommit key id false) vs
| VDelete key oid v :
    v_find vs key oid = Some v ->
    vstep lpage vs (ODelete key oid true) (filter (fun v' => v_id v' <> v_id v) vs)
| VDeleteFail key oid :
    v_find vs key oid = None -> vstep lpage vs (ODelete key oid false) vs
| VInspect key oid :
    vstep lpage vs (OInspect key oid ((fun v => (v_id v, so_size (v_obj v))) <$> v_find vs key oid)) vs
| VWrite key id offset len stream v :
    v_incomplete vs key id = Some v -> valid_part lpage (so_size (v_obj v)) offset len ->
    no_fail stream -> N.of_nat (length (stream_bytes stream)) = len ->
    vstep lpage vs (OWrite key id offset len stream WOk)
      (v_update vs id (fun v => v_with v (put (v_obj v) offset (stream_bytes stream))))
| VWriteBad key id offset len stream e v :
    v_incomplete vs key id = Some v -> part_error lpage (so_size (v_obj v)) offset len e ->
    vstep lpage vs (OWrite key id offset len stream (WErr e)) vs
| VWriteStream key id offset len stream r v :
    v_incomplete vs key id = Some v -> valid_part lpage (so_size (v_obj v)) offset len -> stream_fault stream len r ->
    vstep lpage vs (OWrite key id offset len stream r)
      (v_update vs id (fun v => v_with v (spoil lpage (v_obj v) offset)))
| VWriteFail key id offset len stream :
    v_incomplete vs key id = None ->
    vstep lpage vs (OWrite key id offset len stream (WErr ObjectNotFound)) vs
| VRead key oid start fin v l :
    v_find vs key oid = Some v ->
    start < default (so_size (v_obj v)) fin <= so_size (v_obj v) ->
    N.of_nat (length l) = default (so_size (v_obj v)) fin - start ->
    (forall i b, start <= i < default (so_size (v_obj v)) fin -> so_bytes (v_obj v) i = Some b -> l !! N.to_nat (i - start) = Some b) ->
    vstep lpage vs (ORead key oid start fin (RBytes l)) vs
| VReadRange key oid start fin v :
    v_find vs key oid = Some v ->
    ~ (start < default (so_size (v_obj v)) fin <= so_size (v_obj v)) ->
    vstep lpage vs (ORead key oid start fin RRange) vs
| VReadFail key oid start fin :
    v_find vs key oid = None -> vstep lpage vs (ORead key oid start fin RNotFound) vs.

Inductive vsteps (lpage : N) : vstore -> list lobs -> vstore -> Prop :=
| vsteps_nil vs : vsteps lpage vs [] vs
| vsteps_cons vs o vs1 os vs2 : vstep lpage vs o vs1 -> vsteps lpage vs1 os vs2 -> vsteps lpage vs (o :: os) vs2.
