(** Vocabulary for the page I/O theorems: which device byte holds byte [i] of an
    object. *)
From stdpp Require Import base numbers list option.
From Verif Require Import Util LayoutModel PageIOModel.
Open Scope N_scope.

(** The device address of logical byte [i] of the data laid out over pages
    (address, size exponent), one page after the other. *)
Fixpoint locate (ps : list (N * N)) (i : N) : option N :=
  match ps with
  | [] => None
  | (a, p) :: ps => if i <? 2 ^ p then Some (a + i) else locate ps (i - 2 ^ p)
  end.

(** [addr] belongs to page [(a, p)]. *)
Definition in_page (ap : N * N) (addr : N) : Prop := fst ap <= addr < fst ap + 2 ^ snd ap.

(** No two entries of the list share a byte. *)
Definition disjoint_pages (ps : list (N * N)) : Prop :=
  forall i j p q x, i <> j -> ps !! i = Some p -> ps !! j = Some q -> in_page p x -> in_page q x -> False.

(** [ps] are the pages of object [o]: its large pages, then its tail pages with
    the sizes [calc_object_layout] gives (see C05), as handed out by the
    allocator (C01): pairwise disjoint and starting on small-page boundaries. *)
Record object_pages (f : flavour) (spage lpage : N) (o : obj) (ps : list (N * N)) : Prop := {
  op_small : spage <= lpage;
  op_large : lpage < 32;
  op_ratio : lpage <= spage + 24;
  op_limit : o_size o / 2 ^ lpage < count_limit f;
  op_layout : exists t tails,
    calc_object_layout spage lpage (count_limit f) (o_size o) = Some (N.of_nat (length (o_lpages o)), t) /\
    (forall idx, tps_get t idx = Some (tails !! N.to_nat idx)) /\
    length (o_tails o) = length tails /\
    ps = map (fun a => (a, lpage)) (o_lpages o) ++ zip (o_tails o) tails;
  op_disjoint : disjoint_pages ps;
  op_aligned : forall a p, (a, p) ∈ ps -> a mod 2 ^ spage = 0;
}.

(** Bytes a stream delivers before it ends or fails. *)
Fixpoint stream_bytes (s : list item) : list N :=
  match s with
  | Data b :: s => b ++ stream_bytes s
  | _ => []
  end.
Definition no_fail (s : list item) : Prop := Fail ∉ s.
Definition no_empty (s : list item) : Prop := Data [] ∉ s.

(** The logical bytes of part [offset]: [offset, min (offset+large page, size)). *)
Definition in_part (lpage size offset i : N) : Prop := offset <= i < N.min (offset + 2 ^ lpage) size.
(** The request names a whole part of an object of that size. *)
Definition valid_part (lpage size offset len : N) : Prop :=
  offset mod 2 ^ lpage = 0 /\ offset + len = N.min (offset + 2 ^ lpage) size.
(** Which error an ill-formed part gets. *)
Definition part_error (lpage size offset len : N) (e : op_err) : Prop :=
  match e with
  | UnalignedWrite => offset mod 2 ^ lpage <> 0
  | RangeOutOfBounds => size < offset + len
  | InexactWriteLength => offset + len <> N.min (offset + 2 ^ lpage) size
  | _ => False
  end.
(** What a stream can be refused for.  (An empty item after the last byte makes
    the call panic, see C10.) *)
Inductive stream_fault (stream : list item) (len : N) : wresult -> Prop :=
| sf_fails : Fail ∈ stream -> stream_fault stream len (WErr DataStreamError)
| sf_length : N.of_nat (length (stream_bytes stream)) <> len -> stream_fault stream len (WErr DataStreamLengthMismatch)
| sf_empty : Data [] ∈ stream -> stream_fault stream len WPanic.
