(** What the HTTP server must do, as a keyed object store.

    The state ([qstate], DirectSeqSpec.v) is the open uploads and the committed
    object of every key.  Requests are handled one at a time. *)
From stdpp Require Import base numbers list option gmap sets.
From Verif Require Import Util Bytes PageIOModel PageIOSpec TokenModel TokenProofs HttpModel BatchProofs DirectModel DirectSpec DirectSeqSpec ServerModel.
Open Scope N_scope.

(** What a request needs permission for. *)
Definition needs (rq : request) : option action :=
  let key := parse_key (rq_path rq) in
  if decide (rq_path rq = [47]) then match rq_method rq with HPost _ _ => Some BatchCreateObjects | _ => None end
  else match rq_method rq with
  | HGet _ => Some (ReadObject key)
  | HHead => Some (InspectObject key)
  | HPost size _ => Some (CreateObject key size)
  | HPut _ _ => Some (CommitObject key)
  | HPatch _ _ _ _ => Some (WriteObject key)
  | HDelete => Some (DeleteObject key)
  | HOther => None
  end.
(** Authentication is off, or the request has an unexpired token for the action. *)
Definition permitted (s : server) (rq : request) (a : action) : Prop :=
  sv_auth s = false \/ exists e, e < 2 ^ 64 /\ rq_now rq < e /\ rq_t rq = auth_token_new (sv_mac s) a e.

(** The contents of a committed object. *)
Definition content (o : cobj) : list N := byte_range (co_bytes o) 0 (co_size o).
(** The upload an upload token names, and the size the server signed with it. *)
Definition names (s : server) (tok : list N) (id size : N) : Prop :=
  parse_upload_token (sv_mac s) tok = Some (Itoken id 0, size).
(** A receipt for every part, in order, of an object of this size. *)
Definition receipts_for (s : server) (receipts : list N) (id size : N) : Prop :=
  forall part, part * 2 ^ sv_lpage s < size ->
    split_commas receipts !! N.to_nat part = Some (write_receipt (sv_mac s) (Itoken id 0) part).

(** Open uploads other than those with new ids are as before. *)
Definition keeps_uploads (Q Q' : qstate) : Prop :=
  q_ids Q ⊆ q_ids Q' /\ forall id, id ∈ q_ids Q -> q_up Q' !! id = q_up Q !! id.
(** A batch: the objects framed in the body are stored in order.  [Some n] is the
    answer that [n] were stored, [None] that there was no answer.  It stops
    where the body does not continue with a whole frame, or without an answer
    when the store has no room. *)
Inductive batch_stores : qstate -> list N -> option N -> qstate -> Prop :=
| bs_object Q key data tail o Q1 r Q' :
    valid_entry (key, data) ->
    q_com Q1 = <[key := o]> (q_com Q) -> content o = data -> co_id o ∉ q_ids Q -> co_id o ∈ q_ids Q1 -> keeps_uploads Q Q1 ->
    batch_stores Q1 tail r Q' ->
    batch_stores Q (entry_bytes (key, data) ++ tail) (N.succ <$> r) Q'
| bs_end Q bytes Q' :
    (forall e tail, valid_entry e -> bytes <> entry_bytes e ++ tail) ->
    q_com Q' = q_com Q -> keeps_uploads Q Q' -> batch_stores Q bytes (Some 0) Q'
| bs_no_room Q bytes : batch_stores Q bytes None Q.

(** One request and its answer. *)
Inductive serves (s : server) (Q : qstate) : request -> response -> qstate -> Prop :=
| sv_method rq : needs rq = None -> serves s Q rq (Resp 405) Q
| sv_denied rq a : needs rq = Some a -> ~ permitted s rq a -> serves s Q rq (Resp 401) Q
(** POST: a new upload, unless there is no room. *)
| sv_create rq key size id created body :
    needs rq = Some (CreateObject key size) -> permitted s rq (CreateObject key size) -> rq_method rq = HPost size body ->
    id ∉ q_ids Q -> id < 2 ^ 128 ->
    serves s Q rq (RespUpload 202 (upload_token (sv_mac s) (Itoken id 0) size)) (q_new Q id key size created)
| sv_no_room rq key size :
    needs rq = Some (CreateObject key size) -> permitted s rq (CreateObject key size) -> serves s Q rq Aborted Q
(** PATCH *)
| sv_write rq key tok offset len body id size u :
    needs rq = Some (WriteObject key) -> permitted s rq (WriteObject key) -> rq_method rq = HPatch tok offset len body ->
    names s tok id size -> q_up Q !! id = Some u -> valid_part (sv_lpage s) (qu_size u) offset len ->
    no_fail body -> N.of_nat (length (stream_bytes body)) = len ->
    serves s Q rq (RespReceipt 202 (write_receipt (sv_mac s) (Itoken id 0) (offset / 2 ^ sv_lpage s)))
      (q_part Q id u offset (Some (stream_bytes body)))
| sv_write_bad rq key tok offset len body id size u e :
    needs rq = Some (WriteObject key) -> permitted s rq (WriteObject key) -> rq_method rq = HPatch tok offset len body ->
    names s tok id size -> q_up Q !! id = Some u -> part_error (sv_lpage s) (qu_size u) offset len e ->
    serves s Q rq (Resp 416) Q
| sv_write_body rq key tok offset len body id size u code :
    needs rq = Some (WriteObject key) -> permitted s rq (WriteObject key) -> rq_method rq = HPatch tok offset len body ->
    names s tok id size -> q_up Q !! id = Some u -> valid_part (sv_lpage s) (qu_size u) offset len ->
    (code = 408 /\ Fail ∈ body) \/ (code = 416 /\ N.of_nat (length (stream_bytes body)) <> len) ->
    serves s Q rq (Resp code) (q_part Q id u offset None)
| sv_write_abort rq key tok offset len body id size u d :
    needs rq = Some (WriteObject key) -> permitted s rq (WriteObject key) -> rq_method rq = HPatch tok offset len body ->
    names s tok id size -> q_up Q !! id = Some u -> valid_part (sv_lpage s) (qu_size u) offset len -> Data [] ∈ body ->
    d = None \/ d = Some (stream_bytes body) ->
    serves s Q rq Aborted (q_part Q id u offset d)
| sv_write_gone rq key tok offset len body :
    needs rq = Some (WriteObject key) -> permitted s rq (WriteObject key) -> rq_method rq = HPatch tok offset len body ->
    parse_upload_token (sv_mac s) tok = None \/ (exists id size, names s tok id size /\ q_up Q !! id = None) ->
    serves s Q rq (Resp 404) Q
(** PUT *)
| sv_commit rq key tok receipts id size u oid bytes :
    needs rq = Some (CommitObject key) -> permitted s rq (CommitObject key) -> rq_method rq = HPut tok receipts ->
    names s tok id size -> receipts_for s receipts id size -> q_up Q !! id = Some u -> oid ∉ q_ids Q -> has_written u bytes ->
    serves s Q rq (Resp 201) (q_publish Q id u oid bytes)
| sv_commit_unproved rq key tok receipts id size :
    needs rq = Some (CommitObject key) -> permitted s rq (CommitObject key) -> rq_method rq = HPut tok receipts ->
    names s tok id size -> ~ receipts_for s receipts id size ->
    serves s Q rq (Resp 412) Q
| sv_commit_gone rq key tok receipts :
    needs rq = Some (CommitObject key) -> permitted s rq (CommitObject key) -> rq_method rq = HPut tok receipts ->
    parse_upload_token (sv_mac s) tok = None \/ (exists id size, names s tok id size /\ receipts_for s receipts id size /\ q_up Q !! id = None) ->
    serves s Q rq (Resp 404) Q
(** A token signed by the server that names a partition it does not have (no
    create request returns one). *)
| sv_foreign rq a tok it size :
    needs rq = Some a -> permitted s rq a ->
    (exists offset len body, rq_method rq = HPatch tok offset len body) \/ (exists receipts, rq_method rq = HPut tok receipts) ->
    parse_upload_token (sv_mac s) tok = Some (it, size) -> it_partition it <> 0 ->
    serves s Q rq Aborted Q
| sv_foreign_unproved rq a tok receipts it size :
    needs rq = Some a -> permitted s rq a ->
    rq_method rq = HPut tok receipts ->
    parse_upload_token (sv_mac s) tok = Some (it, size) -> it_partition it <> 0 ->
    serves s Q rq (Resp 412) Q
(** GET: see C41 for [endpoint_read]. *)
| sv_get rq key range :
    needs rq = Some (ReadObject key) -> permitted s rq (ReadObject key) -> rq_method rq = HGet range ->
    serves s Q rq
      match endpoint_read (content <$> q_com Q !! key) range with
      | Status code => Resp code
      | Body code cl cr body => RespBody code cl cr (default 0 (co_id <$> q_com Q !! key)) body
      end Q
(** HEAD *)
| sv_head rq key :
    needs rq = Some (InspectObject key) -> permitted s rq (InspectObject key) ->
    serves s Q rq
      match q_com Q !! key with
      | Some o => RespObject 200 (dec (co_size o)) (co_id o)
      | None => Resp 404
      end Q
(** DELETE *)
| sv_delete rq key o :
    needs rq = Some (DeleteObject key) -> permitted s rq (DeleteObject key) -> q_com Q !! key = Some o ->
    serves s Q rq (Resp 200) (q_remove Q key)
| sv_delete_nothing rq key :
    needs rq = Some (DeleteObject key) -> permitted s rq (DeleteObject key) -> q_com Q !! key = None ->
    serves s Q rq (Resp 404) Q
(** POST / *)
| sv_batch rq size body r Q' :
    needs rq = Some BatchCreateObjects -> permitted s rq BatchCreateObjects -> rq_method rq = HPost size body ->
    batch_stores Q (concat body) r Q' ->
    serves s Q rq (match r with Some n => RespCount 200 n | None => Aborted end) Q'.

(** A history of requests handled one after another, with their answers. *)
Inductive serves_all (s : server) : qstate -> list (request * response) -> qstate -> Prop :=
| sa_nil Q : serves_all s Q [] Q
| sa_cons Q rq r Q1 h Q2 : serves s Q rq r Q1 -> serves_all s Q1 h Q2 -> serves_all s Q ((rq, r) :: h) Q2.

(** ** The server running on a partition *)
(** Requests the model covers: part offsets for which 64-bit additions do not wrap
    around (C09), sizes of 64 bits, bodies made of bytes. *)
Definition request_ok (s : server) (rq : request) : Prop :=
  match rq_method rq with
  | HPatch _ offset _ _ => offset + 2 ^ sv_lpage s < 2 ^ 64
  | HPost size body => size < 2 ^ 64 /\ Forall is_byte (concat body)
  | _ => True
  end.
(** The visible history of calls made one after another, numbered from [n]. *)
Fixpoint call_labels (n : nat) (cs : list (dop * list vis)) : list label :=
  match cs with
  | [] => []
  | (op, vs) :: cs => LCall n op :: map (LVis n) vs ++ call_labels (S n) cs
  end.
(** Calls that have finished. *)
Definition over (c : dop * list vis) : Prop := exists v, v ∈ snd c /\ is_final v = true.
(** A formatted partition serves the requests of [h], one after another, with the
    answers of [h]: the visible steps of the partition are those of the calls the
    handlers make, in order. *)
Inductive server_run (s : server) (c : dcfg) (pages : list (list N)) (h : list (request * response)) : Prop :=
| server_run_intro y0 ls y css :
    fresh_partition c pages y0 -> dsteps c y0 ls y -> sv_lpage s = dc_lpage c ->
    Forall2 (fun x cs => runs (handle s (fst x)) cs (snd x)) h css ->
    Forall over (concat css) ->
    visible ls = call_labels 0 (concat css) -> server_run s c pages h.

(** ** Histories *)
Notation history := (list (request * response)).
(** A request of [h] created the upload [tok] for this key and size. *)
Definition upload_for (h : history) (tok key : list N) (size : N) : Prop :=
  exists rq, (rq, RespUpload 202 tok) ∈ h /\ needs rq = Some (CreateObject key size).
(** The upload a token names. *)
Definition upload_of (s : server) (tok : list N) : option itoken := fst <$> parse_upload_token (sv_mac s) tok.
(** [bytes] were written to the part at [offset], and no request in [h] wrote to it
    afterwards. *)
Definition last_written (s : server) (h : history) (tok : list N) (offset : N) (bytes : list N) : Prop :=
  exists h1 rq receipt h2 len body,
    h = h1 ++ (rq, RespReceipt 202 receipt) :: h2 /\ rq_method rq = HPatch tok offset len body /\ stream_bytes body = bytes /\
    forall rq' r tok' len' body', (rq', r) ∈ h2 -> rq_method rq' = HPatch tok' offset len' body' -> upload_of s tok' <> upload_of s tok.
(** A request with this answer, after the history [before], does not change what is
    stored under [key]. *)
Definition untouched (before : history) (key : list N) (rq : request) (r : response) : Prop :=
  (needs rq = Some (DeleteObject key) -> r <> Resp 200) /\
  (forall tok receipts, rq_method rq = HPut tok receipts -> r = Resp 201 ->
     exists key' size, upload_for before tok key' size /\ key' <> key) /\
  (forall size body es tail, needs rq = Some BatchCreateObjects -> rq_method rq = HPost size body ->
     Forall valid_entry es -> concat body = concat (map entry_bytes es) ++ tail -> key ∉ map fst es).
Definition leaves_alone (before : history) (key : list N) (h : history) : Prop :=
  forall h1 rq r h2, h = h1 ++ (rq, r) :: h2 -> untouched (before ++ h1) key rq r.
(** The answers to GET and HEAD for an object with these bytes. *)
Definition get_answer (oid : N) (data : list N) (range : option (list N)) : response :=
  match endpoint_read (Some data) range with
  | Status code => Resp code
  | Body code cl cr body => RespBody code cl cr oid body
  end.
Definition answers_with (s : server) (key data : list N) (rq : request) (r : response) : Prop :=
  exists oid,
    (forall range, needs rq = Some (ReadObject key) -> permitted s rq (ReadObject key) -> rq_method rq = HGet range -> r = get_answer oid data range) /\
    (needs rq = Some (InspectObject key) -> permitted s rq (InspectObject key) -> r = RespObject 200 (dec (N.of_nat (length data))) oid).
