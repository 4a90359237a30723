(** "blobc put": the command that uploads a file.

    Models blobc/src/put.rs and the requests of blobd-client-rs/src/lib.rs it makes.
    The client is taken from the side of the server: which requests it sends, and
    what it does with the answers. *)
From stdpp Require Import base numbers list option.
From Verif Require Import Util Bytes PageIOModel PageIOSpec TokenModel TokenProofs HttpModel ServerModel ServerSpec.
Open Scope N_scope.

(** put.rs:23 [TILE_SIZE]. *)
Definition tile_size : N := 1024 * 1024 * 16.

(** blobd-client-rs/src/lib.rs:78-95 [build_url] and [generate_token_query_param]: a
    request of the client for [key], with a token that expires at [expires], which
    the server handles at [now]. *)
Definition client_rq (mac : list N -> list N) (key : list N) (a : action) (expires now : N) (m : hmethod) : request :=
  {| rq_path := url_path (build_path rust_must key); rq_t := auth_token_new mac a expires; rq_now := now; rq_method := m |}.
(** lib.rs:172-197 [create_object]. *)
Definition create_rq (mac : list N -> list N) (key : list N) (size expires now : N) : request :=
  client_rq mac key (CreateObject key size) expires now (HPost size []).
(** lib.rs:199-222 [commit_object]: the receipts are joined with commas. *)
Definition commit_rq (mac : list N -> list N) (key tok : list N) (receipts : list (list N)) (expires now : N) : request :=
  client_rq mac key (CommitObject key) expires now (HPut tok (join_commas receipts)).

(** What was read from the file by one read: [tl_body] are the pieces in which the
    server gets it, [tl_receipt] is the receipt the client got. *)
Record tile := { tl_body : list item; tl_receipt : list N; tl_expires : N; tl_now : N }.
Definition tile_bytes (t : tile) : list N := stream_bytes (tl_body t).
(** put.rs:34-40 and lib.rs:314-347 [write_object]: tile [i] is written at [i * TILE_SIZE]. *)
Definition tile_rq (mac : list N -> list N) (key tok : list N) (i : nat) (t : tile) : request :=
  client_rq mac key (WriteObject key) (tl_expires t) (tl_now t)
    (HPatch tok (N.of_nat i * tile_size) (N.of_nat (length (tile_bytes t))) (tl_body t)).

(** put.rs:11-58: [blobc put] of a file of [size] bytes under [key] succeeded, having
    read [tiles] from the file.  It creates an upload, writes the tiles in any order, and
    commits the upload with the receipts in the order of the tiles; each request
    succeeds (otherwise the client panics).  [mid] are all requests handled in
    between, among them those of other clients; none of these writes to the upload,
    whose token they do not have. *)
Inductive successful_put (s : server) (key : list N) (size : N) (tiles : list tile) : history -> Prop :=
| successful_put_intro tok e1 n1 mid e2 n2 :
    (forall i t, tiles !! i = Some t -> (tile_rq (sv_mac s) key tok i t, RespReceipt 202 (tl_receipt t)) ∈ mid) ->
    (forall rq r tok' offset len body, (rq, r) ∈ mid -> rq_method rq = HPatch tok' offset len body -> upload_of s tok' = upload_of s tok ->
       exists i t, tiles !! i = Some t /\ (rq, r) = (tile_rq (sv_mac s) key tok i t, RespReceipt 202 (tl_receipt t))) ->
    successful_put s key size tiles
      ([(create_rq (sv_mac s) key size e1 n1, RespUpload 202 tok)] ++ mid ++
       [(commit_rq (sv_mac s) key tok (map tl_receipt tiles) e2 n2, Resp 201)]).

(** The bytes read from the file.  tokio-sync-read-stream: a read of nothing ends the
    stream. *)
Definition file_read (tiles : list tile) : list N := concat (map tile_bytes tiles).
Definition no_empty_tile (tiles : list tile) : Prop := forall t, t ∈ tiles -> tile_bytes t <> [].
(** Every read of the file filled the buffer, except for the last. *)
Definition full_reads (tiles : list tile) : Prop :=
  forall i t, tiles !! i = Some t ->
    N.of_nat (length (tile_bytes t)) <= tile_size /\ (S i < length tiles -> N.of_nat (length (tile_bytes t)) = tile_size)%nat.

(** The receipts of different parts of an upload differ: the keyed hash has no
    collision among them. *)
Definition distinct_receipts (s : server) (tok : list N) (size : N) : Prop :=
  forall it p q, upload_of s tok = Some it -> p * 2 ^ sv_lpage s < size -> q * 2 ^ sv_lpage s < size ->
    write_receipt (sv_mac s) it p = write_receipt (sv_mac s) it q -> p = q.
