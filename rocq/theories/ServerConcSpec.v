(** Time in histories of requests that are handled at the same time. *)
From stdpp Require Import base numbers list option gmap.
From Verif Require Import Util Bytes PageIOModel PageIOSpec TokenModel HttpModel BatchProofs DirectModel DirectSpec DirectSeqSpec DirectRealSpec ServerModel ServerSpec ServerConcModel.
Open Scope N_scope.

(** Request [j] was answered before [a], or arrived after [b]. *)
Definition req_apart (es : list event) (j : nat) (rq : request) (a b : event) : Prop :=
  (exists r, precedes es (EAns j r) a) \/ precedes es b (EReq j rq).
(** A request created the upload [tok] for this key and size. *)
Definition upload_made (es : list event) (tok key : list N) (size : N) : Prop :=
  exists j rq, EReq j rq ∈ es /\ EAns j (RespUpload 202 tok) ∈ es /\ needs rq = Some (CreateObject key size).
(** Request [j] may change what is stored under [key]: it deletes it, commits an
    upload that is not known to be for another key, or is a batch with an object
    for it; and it was not answered with an error. *)
Definition may_touch (s : server) (es : list event) (key : list N) (j : nat) (rq : request) : Prop :=
  (needs rq = Some (DeleteObject key) /\ (forall r, EAns j r ∈ es -> r = Resp 200 \/ r = Aborted)) \/
  (exists tok receipts, rq_method rq = HPut tok receipts /\
     ~ (exists tok' key' size, upload_made es tok' key' size /\ key' <> key /\ upload_of s tok' = upload_of s tok) /\
     (forall r, EAns j r ∈ es -> r = Resp 201 \/ r = Aborted)) \/
  (exists size body ens tail, needs rq = Some BatchCreateObjects /\ rq_method rq = HPost size body /\
     Forall valid_entry ens /\ concat body = concat (map entry_bytes ens) ++ tail /\ key ∈ map fst ens).
(** [bytes] were written to the part at [offset] by a request answered before
    [a], and no other request that writes to it overlaps the time from the
    arrival of that request to [b]. *)
Definition part_settled (s : server) (es : list event) (tok : list N) (offset : N) (bytes : list N) (a b : event) : Prop :=
  exists j rq receipt len body,
    EReq j rq ∈ es /\ rq_method rq = HPatch tok offset len body /\ precedes es (EAns j (RespReceipt 202 receipt)) a /\ stream_bytes body = bytes /\
    forall j' rq' tok' len' body', EReq j' rq' ∈ es -> rq_method rq' = HPatch tok' offset len' body' -> upload_of s tok' = upload_of s tok ->
      j' <> j -> req_apart es j' rq' (EReq j rq) b.
(** The answers to GET and HEAD for a key without an object. *)
Definition answers_without (s : server) (key : list N) (rq : request) (r : response) : Prop :=
  (forall range, needs rq = Some (ReadObject key) -> permitted s rq (ReadObject key) -> rq_method rq = HGet range -> r = Resp 404 \/ r = Resp 416) /\
  (needs rq = Some (InspectObject key) -> permitted s rq (InspectObject key) -> r = Resp 404).
