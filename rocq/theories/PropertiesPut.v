(** C58: uploading a file with "blobc put". *)
From Coq Require Import ZifyBool ZifyNat ZifyN.
From stdpp Require Import base numbers option gmap sets functions list.
From Verif Require Import Util Bytes PageIOModel PageIOSpec TokenModel TokenProofs HttpModel BatchProofs DirectModel DirectSpec DirectBase DirectSeqSpec DirectDrive PropertiesToken ServerModel ServerSpec ServerProofs ServerHist PropertiesServer PutModel PutProofs.
Open Scope N_scope.
Ltac Zify.zify_post_hook ::= idtac.

(** * C58 *)
(** When [blobc put] of a file reports success, the server has stored under the key (as
    it arrives at the server, see C43) exactly the bytes that were read from the
    file, and they are as many as the size of the file: whatever the size of the
    server's pages, the sizes of the reads and the order in which the tiles were
    written, and whatever other clients requested meanwhile.  GET and HEAD of
    the key are answered accordingly until a request deletes or replaces the object. *)
Theorem C58_put_stores_the_file : forall s c pages key size tiles pre put post lastrq r,
  is_mac (sv_mac s) -> cfg_ok c -> Forall (fun x => request_ok s (fst x)) (pre ++ put ++ post ++ [(lastrq, r)]) ->
  server_run s c pages (pre ++ put ++ post ++ [(lastrq, r)]) ->
  successful_put s key size tiles put -> no_empty_tile tiles ->
  (forall rq tok, (rq, RespUpload 202 tok) ∈ put -> distinct_receipts s tok size) ->
  N.of_nat (length (file_read tiles)) = size /\
  (leaves_alone (pre ++ put) (rust_key_seen key) post -> answers_with s (rust_key_seen key) (file_read tiles) lastrq r).
Proof.
  intros s c pages key size tiles pre put post lastrq r Hm Hc Hok Hr HP Hne Hd.
  destruct (server_refines s c pages _ Hm Hc Hok Hr) as [Q HQ]. eapply put_is_served; eassumption.
Qed.
Print Assumptions C58_put_stores_the_file.

(** The client's tiles have 16 MiB.  If the pages of the server have another size, no
    file is put that is larger than a tile or than a page. *)
Theorem C58_larger_files_cannot_be_put : forall s c pages key size tiles pre put rest,
  is_mac (sv_mac s) -> cfg_ok c -> Forall (fun x => request_ok s (fst x)) (pre ++ put ++ rest) ->
  server_run s c pages (pre ++ put ++ rest) ->
  no_empty_tile tiles -> full_reads tiles ->
  (forall rq tok, (rq, RespUpload 202 tok) ∈ put -> distinct_receipts s tok size) ->
  sv_lpage s <> 24 -> tile_size < size \/ 2 ^ sv_lpage s < size ->
  ~ successful_put s key size tiles put.
Proof.
  intros s c pages key size tiles pre put rest Hm Hc Hok Hr Hne Hf Hd H24 Hbig HP.
  destruct (server_refines s c pages _ Hm Hc Hok Hr) as [Q HQ].
  destruct (put_limit s Hm key size tiles pre put rest Q HP Hne Hf Hd Hok HQ) as [E|E].
  - apply H24. change tile_size with (2 ^ 24) in E. apply (N.pow_inj_r 2) in E; [exact E|reflexivity].
  - revert Hbig E. generalize (2 ^ sv_lpage s). intros L Hbig E. clear -Hbig E. lia.
Qed.
Print Assumptions C58_larger_files_cannot_be_put.

(** In all other cases it works: if the key arrives unchanged, the tokens have not
    expired, and no one else commits the upload, every tile is acknowledged, and the
    commit with the receipts is answered with 201. *)
Theorem C58_put_succeeds : forall s c pages key tiles pre tok e1 n1 mid e2 n2 rc,
  let size := N.of_nat (length (file_read tiles)) in
  let h := pre ++ [(create_rq (sv_mac s) key size e1 n1, RespUpload 202 tok)] ++ mid ++ [(commit_rq (sv_mac s) key tok (map tl_receipt tiles) e2 n2, rc)] in
  is_mac (sv_mac s) -> cfg_ok c -> Forall (fun x => request_ok s (fst x)) h -> server_run s c pages h ->
  sv_lpage s = 24 \/ (size <= tile_size /\ size <= 2 ^ sv_lpage s) -> rust_key_seen key = key -> key <> [] ->
  full_reads tiles -> no_empty_tile tiles ->
  (forall t, t ∈ tiles -> no_fail (tl_body t) /\ no_empty (tl_body t) /\ tl_now t < tl_expires t < 2 ^ 64) -> n2 < e2 < 2 ^ 64 ->
  (forall rq tok' receipts, (rq, Resp 201) ∈ mid -> rq_method rq = HPut tok' receipts -> upload_of s tok' <> upload_of s tok) ->
  (forall i t r, tiles !! i = Some t -> (tile_rq (sv_mac s) key tok i t, r) ∈ mid -> exists receipt, r = RespReceipt 202 receipt) /\
  ((forall i t, tiles !! i = Some t -> (tile_rq (sv_mac s) key tok i t, RespReceipt 202 (tl_receipt t)) ∈ mid) -> rc = Resp 201).
Proof.
  intros s c pages key tiles pre tok e1 n1 mid e2 n2 rc size h Hm Hc Hok Hr HL Hk Hk0 Hf Hne Hts He Hcom.
  destruct (server_refines s c pages h Hm Hc Hok Hr) as [Q HQ].
  assert (HL' : 2 ^ sv_lpage s = tile_size \/ size <= N.min tile_size (2 ^ sv_lpage s)).
  { destruct HL as [E|[A B]]; [left; rewrite E; reflexivity|right]. revert B. generalize (2 ^ sv_lpage s). intros L B. clear -A B. lia. }
  assert (Hok' : Forall (fun x => request_ok s (fst x)) (pre ++ [(create_rq (sv_mac s) key size e1 n1, RespUpload 202 tok)] ++ mid)).
  { unfold h in Hok. rewrite !Forall_app in *. tauto. }
  exact (put_succeeds s Hm key tiles pre tok e1 n1 mid e2 n2 rc Q HL' Hk Hk0 Hf Hne Hts He Hok' HQ Hcom).
Qed.
Print Assumptions C58_put_succeeds.

(** ** Example: the history of C55 is that of a put of a file of 5 bytes as "a". *)
Definition ex_tile : tile := {| tl_body := [Data [1; 2]; Data [3; 4; 5]]; tl_receipt := write_receipt toy_mac (Itoken 1 0) 0; tl_expires := 100; tl_now := 50 |}.
Definition ex_put_history : history :=
  [(ex_create, RespUpload 202 ex_up)] ++ [(ex_patch, RespReceipt 202 (write_receipt toy_mac (Itoken 1 0) 0))] ++ [(ex_put, Resp 201)].
Lemma ex_client_path : url_path (build_path rust_must ex_k) = ex_path.
Proof. vm_compute. reflexivity. Qed.
Lemma ex_put_requests : create_rq toy_mac ex_k 5 100 50 = ex_create /\ tile_rq toy_mac ex_k ex_up 0 ex_tile = ex_patch /\
  commit_rq toy_mac ex_k ex_up (map tl_receipt [ex_tile]) 100 50 = ex_put.
Proof.
  unfold create_rq, tile_rq, commit_rq, client_rq. rewrite ex_client_path. split; [reflexivity|]. split; reflexivity.
Qed.
Theorem C58_example :
  is_mac (sv_mac ex_srv) /\ cfg_ok (ex_cfg 10 16384) /\
  Forall (fun x => request_ok ex_srv (fst x)) ([] ++ ex_put_history ++ [(ex_stale, Resp 401)] ++ [(ex_get, RespBody 206 [51] (content_range 1 4 5) 2 [2; 3; 4])]) /\
  server_run ex_srv (ex_cfg 10 16384) (PropertiesTuples.ex_pages 1)
    ([] ++ ex_put_history ++ [(ex_stale, Resp 401)] ++ [(ex_get, RespBody 206 [51] (content_range 1 4 5) 2 [2; 3; 4])]) /\
  successful_put ex_srv ex_k 5 [ex_tile] ex_put_history /\ no_empty_tile [ex_tile] /\ full_reads [ex_tile] /\
  (forall rq tok, (rq, RespUpload 202 tok) ∈ ex_put_history -> distinct_receipts ex_srv tok 5) /\
  rust_key_seen ex_k = ex_k /\ file_read [ex_tile] = [1; 2; 3; 4; 5] /\ leaves_alone ([] ++ ex_put_history) ex_k [(ex_stale, Resp 401)].
Proof.
  destruct C55_example as (H1 & H2 & H3 & H4 & _ & _ & H5 & _). destruct ex_put_requests as (R1 & R2 & R3).
  split; [exact H1|]. split; [exact H2|]. split; [exact H3|]. split; [exact H4|]. split.
  { unfold ex_put_history. rewrite <- R1, <- R2, <- R3.
    apply (successful_put_intro ex_srv ex_k 5 [ex_tile] ex_up 100 50 [(tile_rq toy_mac ex_k ex_up 0 ex_tile, RespReceipt 202 (write_receipt toy_mac (Itoken 1 0) 0))] 100 50).
    - intros i t Hi. destruct i as [|i]; [|discriminate Hi]. injection Hi as <-. left.
    - intros rq r tok' offset len body Hin _ _. apply elem_of_list_singleton in Hin. exists 0%nat, ex_tile. split; [reflexivity|exact Hin]. }
  split. { intros t Ht. apply elem_of_list_singleton in Ht as ->. discriminate. }
  split. { intros i t Hi. destruct i as [|i]; [|discriminate Hi]. injection Hi as <-. split; [vm_compute; discriminate|]. intros Hl. cbn [length] in Hl. clear -Hl. lia. }
  split.
  { intros rq tok _ it p q _ Hp Hq _. cbn [sv_lpage ex_srv] in Hp, Hq. change (2 ^ 10) with 1024 in Hp, Hq. clear -Hp Hq. lia. }
  split; [vm_compute; reflexivity|]. split; [reflexivity|]. exact H5.
Qed.
Print Assumptions C58_example.
