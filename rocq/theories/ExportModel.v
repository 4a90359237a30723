(** libblobd-direct/src/exporter.rs: exporting the committed objects of a stopped
    store. *)
From stdpp Require Import base numbers list option gmap sorting.
From Verif Require Import Util Bytes LayoutModel PageIOModel TuplesModel DirectModel DirectLoadModel.
Open Scope N_scope.

(** exporter.rs:23-43 [BlobdExporterMarker] and its order: by object, then by
    partition. *)
Record marker := { k_id : N; k_part : nat }.
Definition marker_le (m1 m2 : marker) : Prop :=
  k_id m1 < k_id m2 \/ (k_id m1 = k_id m2 /\ (k_part m1 <= k_part m2)%nat).
Global Instance marker_le_dec m1 m2 : Decision (marker_le m1 m2).
Proof. unfold marker_le. apply _. Defined.

(** A partition: its index area (tuples.rs:198-203) and its device. *)
Record xpart := { xp_area : list N; xp_dev : device }.

(** exporter.rs:54-58 [BlobdExporterEntry]; [pages] is the configuration. *)
Record xentry := { x_tuple : tuple; x_dev : device }.
Definition xrow : Type := marker * xentry.
Definition row_le (r1 r2 : xrow) : Prop := marker_le (fst r1) (fst r2).
Global Instance row_le_dec r1 r2 : Decision (row_le r1 r2).
Proof. unfold row_le. apply _. Defined.

(** exporter.rs:137-150: the entries of one index area. *)
Definition part_rows (spage : N) (offset : marker) (i : nat) (p : xpart) : option (list xrow) :=
  bundles ← load_area spage (xp_area p);
  Some (omap (fun t =>
    let m := {| k_id := t_id t; k_part := i |} in
    if bool_decide (marker_le offset m) && (t_state t =? ds_committed)
    then Some (m, {| x_tuple := t; x_dev := xp_dev p |}) else None) (concat bundles)).
(** exporter.rs:117-156 [BlobdExporter::new].  [arrival] is the order in which the
    areas were read.  Simplification: [sort_unstable_by_key] is a merge sort; which
    algorithm is used matters only for equal markers. *)
Definition exporter_new (spage : N) (parts : list xpart) (offset : marker) (arrival : list nat) : option (list xrow) :=
  rows ← mapM (fun i => p ← parts !! i; part_rows spage offset i p) arrival;
  Some (merge_sort row_le (concat rows)).

(** exporter.rs:45-52 [BlobdExportedObject], with the chunks of its stream. *)
Record xobj := { xo_id : N; xo_key : list N; xo_size : N; xo_created : N; xo_chunks : list (list N) }.
(** exporter.rs:88-97: the stream. *)
Fixpoint x_stream (d : device) (rem : N) (reads : list (N * N)) : list (list N) :=
  match reads with
  | [] => []
  | (offset, len) :: reads => take (N.to_nat rem) (dev_read d offset len) :: x_stream d (rem - len) reads
  end.
(** exporter.rs:61-107 [BlobdExporterEntry::read]; [None]: panic.  [data_pages]
    (DirectModel) pairs the large pages and the tail pages with their sizes, as
    lines 80-86 do. *)
Definition x_read (c : dcfg) (e : xentry) : option xobj :=
  let t := x_tuple e in
  '(m, _) ← meta_decode (dev_read (x_dev e) (t_off t) (2 ^ t_pow2 t));
  pages ← data_pages c m;
  Some {| xo_id := t_id t; xo_key := m_key m; xo_size := m_size m; xo_created := m_created m;
          xo_chunks := x_stream (x_dev e) (m_size m) ((fun ap => (fst ap, 2 ^ snd ap)) <$> pages) |}.

(** exporter.rs:158-165: [pop] and [take]. *)
Definition x_pop (rows : list xrow) : option (xrow * list xrow) :=
  match rows with [] => None | r :: rows => Some (r, rows) end.
Definition x_take (rows : list xrow) : list xrow := rows.
(** Popping [n] entries. *)
Fixpoint x_pops (n : nat) (rows : list xrow) : list xrow * list xrow :=
  match n with
  | O => ([], rows)
  | S n => match x_pop rows with None => ([], []) | Some (r, rows) => let '(l, rest) := x_pops n rows in (r :: l, rest) end
  end.
