(** The HTTP server as a whole: routing, the seven endpoints, and the calls they
    make on the store.

    Models blobd/src/{server,main}.rs and blobd/src/endpoint/*.rs.  main.rs:49-54
    opens one partition, so the store is one partition of libblobd-direct
    (DirectModel).  A handler is a program that makes calls on the store and then
    answers.  Left out: CORS and tracing layers, the deserialisation of query
    strings (a request whose parameters do not parse gets 400 from axum before
    the handler runs). *)
From stdpp Require Import base numbers list option.
From Verif Require Import Util Bytes PageIOModel TokenModel HttpModel DirectModel.
Open Scope N_scope.

(** endpoint/mod.rs:23-28 [HttpCtx]: the keyed hash under the configured secret,
    whether authentication is enabled; and the configured large page size. *)
Record server := { sv_mac : list N -> list N; sv_auth : bool; sv_lpage : N }.

(** A request: the path of its URI, the access token [t], the time at which it is
    handled, and the method with its parameters.  For [POST] both the [size]
    parameter and the body are given; which is used depends on the path. *)
Inductive hmethod :=
| HGet (range : option (list N))
| HHead
| HPost (size : N) (body : list (list N))
| HPut (upload_token write_receipts : list N)
| HPatch (upload_token : list N) (offset content_length : N) (body : list item)
| HDelete
| HOther.                                   (* any other method *)
Record request := { rq_path : list N; rq_t : list N; rq_now : N; rq_method : hmethod }.

Inductive response :=
| Aborted                                   (* the handler panicked: the connection is closed *)
| Resp (code : N)
| RespUpload (code : N) (upload_token : list N)
| RespReceipt (code : N) (write_receipt : list N)
| RespObject (code : N) (content_length : list N) (object_id : N)
| RespBody (code : N) (content_length content_range : list N) (object_id : N) (body : list N)
| RespCount (code : N) (objects_created : N).

(** A handler: calls on the store, each continued with everything the call made
    visible (its return; for a read also the items of the stream). *)
Inductive prog :=
| Ret (r : response)
| Call (op : dop) (k : list vis -> prog).

(** endpoint/mod.rs:110-120 [transform_op_error]. *)
Definition status_of (e : op_err) : N :=
  match e with
  | DataStreamError => 408
  | ObjectNotFound => 404
  | DataStreamLengthMismatch | InexactWriteLength | RangeOutOfBounds | UnalignedWrite => 416
  end.

Section Server.
  Variable s : server.
  Definition auth_ok (rq : request) (a : action) : bool := verify_auth (sv_mac s) (sv_auth s) (rq_now rq) (rq_t rq) a.

  (** create_object.rs:25-57. *)
  Definition h_create (rq : request) (key : list N) (size : N) : prog :=
    if negb (auth_ok rq (CreateObject key size)) then Ret (Resp 401) else
    Call (OCreate key size) (fun vs => Ret match vs with
      | [VRet (RCreated id)] => RespUpload 202 (upload_token (sv_mac s) (Itoken id 0) size)
      | [VRet (RFailed e)] => Resp (status_of e)
      | _ => Aborted
      end).
  (** The partition a token names: libblobd-direct/src/lib.rs:284-315 index the
      list of partitions with it and panic if there is none. *)
  Definition on_partition (it : itoken) (p : prog) : prog := if it_partition it =? 0 then p else Ret Aborted.
  (** write_object.rs:28-72. *)
  Definition h_write (rq : request) (key tok : list N) (offset len : N) (body : list item) : prog :=
    match endpoint_write (sv_mac s) (sv_auth s) (rq_now rq) key (rq_t rq) tok with
    | WriteUnauthorised => Ret (Resp 401)
    | WriteBadToken => Ret (Resp 404)
    | WriteProceeds it =>
        on_partition it (Call (OWrite (it_object it) offset len body) (fun vs => Ret match vs with
          | [VRet RWritten] => RespReceipt 202 (write_response (sv_mac s) (2 ^ sv_lpage s) it offset)
          | [VRet (RFailed e)] => Resp (status_of e)
          | _ => Aborted
          end))
    end.
  (** commit_object.rs:23-56. *)
  Definition h_commit (rq : request) (key tok receipts : list N) : prog :=
    match endpoint_commit (sv_mac s) (sv_auth s) (2 ^ sv_lpage s) (rq_now rq) key (rq_t rq) tok receipts with
    | CommitUnauthorised => Ret (Resp 401)
    | CommitBadToken => Ret (Resp 404)
    | CommitBadReceipts => Ret (Resp 412)
    | CommitProceeds it =>
        on_partition it (Call (OCommit (it_object it) false) (fun vs => Ret match vs with
          | [VRet (RCommitted _)] => Resp 201
          | [VRet (RFailed e)] => Resp (status_of e)
          | _ => Aborted
          end))
    end.
  (** read_object.rs:33-111.  [STREAM_BUFSIZE] is 8192.  The body is the items of
      the stream; a stream that ends otherwise than normally breaks the response. *)
  Fixpoint stream_items (vs : list vis) : option (list N) :=
    match vs with
    | [VEnd RDone] => Some []
    | VChunk c :: vs => r ← stream_items vs; Some (c ++ r)
    | _ => None
    end.
  Definition h_read (rq : request) (key : list N) (range : option (list N)) : prog :=
    if negb (auth_ok rq (ReadObject key)) then Ret (Resp 401) else
    let ranges := default [] (h ← range; range_specs h) in
    match ranges with
    | _ :: _ :: _ => Ret (Resp 416)
    | _ =>
        let r := default (Unbounded, Unbounded) (head ranges) in
        match range_start (fst r) with
        | None => Ret (Resp 416)
        | Some start =>
            Call (ORead key None start (range_end (snd r)) 8192) (fun vs => Ret match vs with
              | [VRet (RFailed e)] => Resp (status_of e)
              | VRet (RReading id size start fin) :: vs =>
                  match stream_items vs with
                  | Some body =>
                      RespBody (match ranges with [] => 200 | _ => 206 end) (dec (fin - start)) (content_range start fin size) id body
                  | None => Aborted
                  end
              | _ => Aborted
              end)
        end
    end.
  (** inspect_object.rs:20-50. *)
  Definition h_inspect (rq : request) (key : list N) : prog :=
    if negb (auth_ok rq (InspectObject key)) then Ret (Resp 401) else
    Call (OInspect key None) (fun vs => Ret match vs with
      | [VRet (RInspected id size _)] => RespObject 200 (dec size) id
      | [VRet (RFailed e)] => Resp (status_of e)
      | _ => Aborted
      end).
  (** delete_object.rs:20-39. *)
  Definition h_delete (rq : request) (key : list N) : prog :=
    if negb (auth_ok rq (DeleteObject key)) then Ret (Resp 401) else
    Call (ODelete key None) (fun vs => Ret match vs with
      | [VRet RDeleted] => Resp 200
      | [VRet (RFailed e)] => Resp (status_of e)
      | _ => Aborted
      end).

  (** batch_create_objects.rs:77-97: the parts of one object; [stop] is the answer
      after a failed read or write. *)
  Fixpoint batch_parts_p (fuel : nat) (id size offset : N) (body : list (list N)) (stop : response)
    (k : list (list N) -> prog) : prog :=
    if size <=? offset then k body else
    match fuel with
    | O => Ret stop
    | S fuel =>
        match read_exact (N.to_nat (N.min (2 ^ sv_lpage s) (size - offset))) body with
        | None => Ret stop
        | Some (chunk, body) =>
            Call (OWrite id offset (N.of_nat (length chunk)) [Data chunk]) (fun vs => match vs with
              | [VRet RWritten] => batch_parts_p fuel id size (offset + 2 ^ sv_lpage s) body stop k
              | [VRet (RFailed _)] => Ret stop
              | _ => Ret Aborted
              end)
        end
    end.
  (** batch_create_objects.rs:46-111. *)
  Fixpoint batch_loop_p (fuel : nat) (body : list (list N)) (created : N) : prog :=
    let stop := RespCount 200 created in
    match fuel with
    | O => Ret stop
    | S fuel =>
        match read_exact 2 body with
        | None => Ret stop
        | Some (key_len_raw, body) =>
        match read_exact (N.to_nat (be_val key_len_raw)) body with
        | None => Ret stop
        | Some (key, body) =>
        match read_exact 5 body with
        | None => Ret stop
        | Some (size_raw, body) =>
            let size := be_val size_raw in
            Call (OCreate key size) (fun vs => match vs with
              | [VRet (RCreated id)] =>
                  batch_parts_p (N.to_nat size) id size 0 body stop (fun body =>
                    Call (OCommit id false) (fun vs => match vs with
                      | [VRet (RCommitted _)] => batch_loop_p fuel body (created + 1)
                      | [VRet (RFailed _)] => Ret stop
                      | _ => Ret Aborted
                      end))
              | [VRet (RFailed _)] => Ret stop
              | _ => Ret Aborted
              end)
        end end end
    end.
  Definition h_batch (rq : request) (body : list (list N)) : prog :=
    if negb (auth_ok rq BatchCreateObjects) then Ret (Resp 401)
    else batch_loop_p (S (length (concat body))) body 0.

  (** server.rs:28-43: the route "/", and everything else. *)
  Definition is_root (rq : request) : bool := bool_decide (rq_path rq = [47]).
  Definition handle (rq : request) : prog :=
    if is_root rq then
      match rq_method rq with HPost _ body => h_batch rq body | _ => Ret (Resp 405) end
    else
      let key := parse_key (rq_path rq) in
      match rq_method rq with
      | HGet range => h_read rq key range
      | HHead => h_inspect rq key
      | HPost size _ => h_create rq key size
      | HPut tok receipts => h_commit rq key tok receipts
      | HPatch tok offset len body => h_write rq key tok offset len body
      | HDelete => h_delete rq key
      | HOther => Ret (Resp 405)
      end.
End Server.

(** [runs p cs r]: the handler [p] makes the calls [cs], each with all that became
    visible of it, and answers [r]. *)
Inductive runs : prog -> list (dop * list vis) -> response -> Prop :=
| runs_ret r : runs (Ret r) [] r
| runs_call op k vs cs r : runs (k vs) cs r -> runs (Call op k) ((op, vs) :: cs) r.
