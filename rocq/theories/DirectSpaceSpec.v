(** Space and index entries of the objects of a direct partition. *)
From stdpp Require Import base numbers list option gmap.
From Verif Require Import Util BuddyModel BuddySpec TuplesModel TuplesSpec DirectModel.
Open Scope N_scope.

(** The objects that exist: uploads and committed objects. *)
Definition existing (h : shared) : list nat := (map_to_list (h_inc h)).*2 ++ (map_to_list (h_com h)).*2.
(** The space of an object: the pages of its data, and the page the index
    records for its metadata record (offset and exponent). *)
Definition space_of (c : dcfg) (ob : dobj) : list page := default [] (data_pages c (b_meta ob)) ++ [b_mpage ob].
Definition all_space (c : dcfg) (h : shared) : list page :=
  existing h ≫= fun r => match h_objs h !! r with Some ob => space_of c ob | None => [] end.
(** The recorded page is the one an allocation for the record gets. *)
Definition record_exact (c : dcfg) (ob : dobj) : Prop := fits_exactly (dc_spage c) (b_msize ob) (snd (b_mpage ob)).

(** The index entry of an object. *)
Definition entry (ob : dobj) (state : N) : tuple :=
  {| t_state := state; t_id := b_id ob; t_off := fst (b_mpage ob); t_pow2 := snd (b_mpage ob) |}.
(** Entry [t] with id [id] is in the index. *)
Definition indexed (h : shared) (id : N) (t : tuple) : Prop := exists b, in_memory (sy_state (h_tup h)) b id t.
