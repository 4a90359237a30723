(** Opening a partition of libblobd-direct: objects.rs:66-205.

    The index entries on the device are parsed (TuplesModel), the metadata record
    each names is read and decoded, the two maps of objects are filled and the
    pages of every object that is kept are marked in a new allocator. *)
From stdpp Require Import base numbers list option gmap sets fin_sets.
From Verif Require Import Util Bytes BuddyModel BuddySpec LayoutModel PageIOModel TuplesModel TuplesSpec TokenModel DirectModel.
Open Scope N_scope.

(** ** rmp-serde, decoding *)
(** [n] bytes, big endian. *)
Definition mp_be (n : nat) (l : list N) : option (N * list N) :=
  if (n <=? length l)%nat then Some (be_val (take n l), drop n l) else None.
(** An unsigned integer.  The signed forms, which the encoder never writes for
    the values in a record, are not modelled and fail. *)
Definition mp_get_uint (l : list N) : option (N * list N) :=
  match l with
  | [] => None
  | b :: r =>
      if b <? 128 then Some (b, r)
      else if b =? 204 then mp_be 1 r
      else if b =? 205 then mp_be 2 r
      else if b =? 206 then mp_be 4 r
      else if b =? 207 then mp_be 8 r
      else None
  end.
Definition mp_get_array (l : list N) : option (N * list N) :=
  match l with
  | [] => None
  | b :: r =>
      if (144 <=? b) && (b <? 160) then Some (b - 144, r)
      else if b =? 220 then mp_be 2 r
      else if b =? 221 then mp_be 4 r
      else None
  end.
Fixpoint mp_get_uints (n : nat) (l : list N) : option (list N * list N) :=
  match n with
  | O => Some ([], l)
  | S n => '(x, l) ← mp_get_uint l; '(xs, l) ← mp_get_uints n l; Some (x :: xs, l)
  end.
(** [Vec<u64>].  Every element takes a byte, so an array longer than the rest of
    the input fails. *)
Definition mp_get_vec (l : list N) : option (list N * list N) :=
  '(n, l) ← mp_get_array l;
  if N.of_nat (length l) <? n then None else mp_get_uints (N.to_nat n) l.
(** [Vec<u8>]. *)
Definition mp_get_vec_u8 (l : list N) : option (list N * list N) :=
  '(xs, l) ← mp_get_vec l;
  if forallb (fun x => x <? 256) xs then Some (xs, l) else None.
(** objects.rs:117-120: [ObjectMetadata::deserialize] and the number of bytes it
    consumed.  [None]: the [unwrap] panics.  A struct written as a map is not
    modelled and fails. *)
Definition meta_decode (l : list N) : option (dmeta * N) :=
  '(n, r) ← mp_get_array l;
  if negb (n =? 5) then None else
  '(size, r) ← mp_get_uint r;
  '(created, r) ← mp_get_uint r;
  '(key, r) ← mp_get_vec_u8 r;
  '(lpages, r) ← mp_get_vec r;
  '(tails, r) ← mp_get_vec r;
  Some ({| m_size := size; m_created := created; m_key := key; m_lpages := lpages; m_tails := tails |},
        N.of_nat (length l - length r)).

(** ** objects.rs:98-186: one index entry *)
Definition met_loaded (msize size : N) : dmetrics :=
  {| mt_create := 0; mt_write := 0; mt_commit := 0; mt_delete := 0; mt_inspect := 0; mt_read := 0;
     mt_incomplete := 0; mt_committed := 0; mt_meta_bytes := Z.of_N msize; mt_data_bytes := Z.of_N size |}.
(** 158-184: mark its pages, count its bytes. *)
Definition load_keep (c : dcfg) (h : shared) (ob : dobj) : option shared :=
  dp ← data_pages c (b_meta ob);
  match mark_all (h_alloc h) (b_mpage ob :: dp) with
  | Ok a => Some (bump (set_alloc h a) (met_loaded (b_msize ob) (m_size (b_meta ob))))
  | _ => None
  end.
Definition load_add (h : shared) (ob : dobj) : shared := set_objs h (h_objs h ++ [ob]).
(** [None]: panic. *)
Definition load1 (c : dcfg) (h : shared) (t : tuple) : option shared :=
  '(m, msize) ← meta_decode (dev_read (h_dev h) (t_off t) (2 ^ t_pow2 t));
  let ob := {| b_id := t_id t; b_state := t_state t; b_readers := 0; b_meta := m; b_msize := msize;
               b_mpage := (t_off t, t_pow2 t) |} in
  let r := length (h_objs h) in
  if t_state t =? ds_incomplete then
    (* 128-130 *)
    match h_inc h !! t_id t with
    | Some _ => None
    | None => load_keep c (set_inc (load_add h ob) (<[t_id t := r]> (h_inc h))) ob
    end
  else if t_state t =? ds_committed then
    match h_com h !! m_key m with
    | Some r' =>
        (* 133-149: two committed objects with the same key *)
        ob' ← h_objs h !! r';
        if b_id ob' =? t_id t then None
        else if t_id t <? b_id ob' then Some h
        else load_keep c (set_com (load_add h ob) (<[m_key m := r]> (h_com h))) ob
    | None =>
        load_keep c (set_com (load_add h ob) (<[m_key m := r]> (h_com h))) ob
    end
  else None.
Fixpoint load_all (c : dcfg) (h : shared) (l : list tuple) : option shared :=
  match l with [] => Some h | t :: l => h ← load1 c h t; load_all c h l end.

(** 187-197: the counts. *)
Definition met_counts (h : shared) : dmetrics :=
  {| mt_create := 0; mt_write := 0; mt_commit := 0; mt_delete := 0; mt_inspect := 0; mt_read := 0;
     mt_incomplete := Z.of_nat (size (h_inc h)); mt_committed := Z.of_nat (size (h_com h));
     mt_meta_bytes := 0; mt_data_bytes := 0 |}.
(** 74-83: the state before the first entry.  [used] are the ids drawn before. *)
Definition load_start (d : device) (a : Allocator) (t : tsys) (used : gset N) : shared :=
  {| h_alloc := a; h_dev := d; h_tup := t; h_objs := []; h_com := ∅; h_inc := ∅; h_met := met_zero; h_used := used |}.

(** The partition [y] is abandoned as it is and opened again; [None]: opening
    panics.  The loop over the entries runs for many index pages at once; what an
    iteration does after its one await is one step, so that the entries are
    processed in some order [order]. *)
Definition opening (c : dcfg) (y : dsys) (t : tsys) (order : list tuple) : option dsys :=
  match allocator_new (dc_base c) (dc_heap c) (dc_spage c) (dc_lpage c) (2 ^ 32) DirRight with
  | Ok a =>
      h ← load_all c (load_start (h_dev (y_sh y)) a t (h_used (y_sh y))) order;
      Some {| y_sh := bump h (met_counts h); y_procs := [] |}
  | _ => None
  end.
(** [t] is the index loaded from the device as [y] left it. *)
Definition loadable (c : dcfg) (y : dsys) (init : list (list tuple)) (t : tsys) (order : list tuple) : Prop :=
  opens (dc_spage c) (sy_disk (h_tup (y_sh y))) init t /\ order ≡ₚ concat init.
Definition reopened (c : dcfg) (y y' : dsys) : Prop :=
  exists init t order, loadable c y init t order /\ opening c y t order = Some y'.
