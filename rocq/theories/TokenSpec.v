(** What the token properties mean: a history of requests to the HTTP server,
    and which of its outputs a client has seen. *)
From stdpp Require Import base numbers list option.
From Verif Require Import Util Bytes PageIOModel TokenModel.
Open Scope N_scope.

(** What happened at the server, oldest first.  [GaveToken] is an access token
    handed to a client by a holder of the secret; the others are requests that
    were answered with success. *)
Inductive hevent :=
  | GaveToken (a : action) (expires : N)
  | Created (it : itoken) (size : N)
  | Wrote (now : N) (key t tok : list N) (offset len : N)
  | Committed (now : N) (key t tok receipts : list N).

Section Trace.
  Variable mac : list N -> list N.
  (** Whether authentication is enabled, and the large page size as a power. *)
  Variable auth : bool.
  Variable lpage : N.

  (** The successful event [e] can happen after [tr]. *)
  Definition succeeds (tr : list hevent) (e : hevent) : Prop :=
    match e with
    | GaveToken a expires => True
    | Created it size =>
        (* a new object: the identifier was not used before *)
        (forall size', Created it size' ∉ tr)
        /\ it_object it < 2 ^ 128 /\ it_partition it < 2 ^ 64 /\ size < 2 ^ 64
    | Wrote now key t tok offset len =>
        exists it size, endpoint_write mac auth now key t tok = WriteProceeds it
        (* the store knows the object and accepts the range (C09, C10) *)
        /\ Created it size ∈ tr /\ offset < 2 ^ 64 /\ write_check lpage size offset len = None
    | Committed now key t tok receipts =>
        exists it size, endpoint_commit mac auth (2 ^ lpage) now key t tok receipts = CommitProceeds it
        /\ Created it size ∈ tr
    end.

  (** The messages whose MAC the client learns from the answer to [e]. *)
  Definition discloses (e : hevent) (m : list N) : Prop :=
    match e with
    | GaveToken a expires => m = auth_msg a expires
    | Created it size => m = pair_msg it size
    | Wrote now key t tok offset len =>
        exists it, endpoint_write mac auth now key t tok = WriteProceeds it /\ m = pair_msg it (offset / 2 ^ lpage)
    | Committed _ _ _ _ _ => False
    end.
  Definition disclosed (tr : list hevent) (m : list N) : Prop := exists e, e ∈ tr /\ discloses e m.

  (** The ideal of an unforgeable MAC: a client can show the MAC of a message
      only if it has been told it.  [x] is the string the client sends where
      the server expects a MAC. *)
  Definition unforged (tr : list hevent) (x : list N) : Prop :=
    forall m, mac m = x -> disclosed tr m.
  Definition honest (tr : list hevent) (e : hevent) : Prop :=
    match e with
    | Wrote _ _ _ tok _ _ => forall raw, b64_decode tok = Some raw -> unforged tr (take 32 raw)
    | Committed _ _ _ tok receipts =>
        (forall raw, b64_decode tok = Some raw -> unforged tr (take 32 raw))
        /\ (forall r x, r ∈ split_commas receipts -> b64_decode r = Some x -> unforged tr x)
    | _ => True
    end.

  (** The histories of a server with clients that cannot forge MACs. *)
  Inductive history : list hevent -> Prop :=
    | history_nil : history []
    | history_snoc tr e : history tr -> succeeds tr e -> honest tr e -> history (tr ++ [e]).

  (** Part [i] of the upload [it] was written, in full, by a successful request. *)
  Definition part_written (tr : list hevent) (it : itoken) (size i : N) : Prop :=
    exists now key t tok, Wrote now key t tok (i * 2 ^ lpage) (N.min (2 ^ lpage) (size - i * 2 ^ lpage)) ∈ tr
      /\ endpoint_write mac auth now key t tok = WriteProceeds it.
End Trace.

(** The parts of an object of [size] bytes: those that contain a byte of it. *)
Definition is_part (lpage size i : N) : Prop := i * 2 ^ lpage < size.

(** What a client computes from an upload token it was given for an object of
    [size] bytes and a receipt for part 0: the token's serialised pair with
    the size replaced by 0, behind the receipt's MAC. *)
Definition forge (size : N) (tok receipt : list N) : option (list N) :=
  raw ← b64_decode tok;
  m ← b64_decode receipt;
  let data := drop 32 raw in
  Some (b64_encode (m ++ take (length data - length (mp_uint size)) data ++ [0])).
