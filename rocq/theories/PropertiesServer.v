(** C55 and C56: the HTTP server as a whole. *)
From Coq Require Import ZifyBool ZifyNat ZifyN.
From stdpp Require Import base numbers option gmap sets functions list.
From Verif Require Import Util Bytes PageIOModel PageIOSpec TokenModel TokenProofs HttpModel BatchProofs DirectModel DirectSpec DirectBase DirectSeqSpec DirectDrive PropertiesToken ServerModel ServerSpec ServerProofs ServerHist.
Open Scope N_scope.
Ltac Zify.zify_post_hook ::= idtac.

(** * C55 *)
(** Every history of requests, handled one after another by a server on a freshly
    formatted partition, is a history of the keyed object store of ServerSpec.v: each
    request gets the answer the specification gives for the uploads that are open
    and the objects that are stored, and changes them accordingly. *)
Theorem C55_server_is_an_object_store : forall s c pages h,
  is_mac (sv_mac s) -> cfg_ok c -> Forall (fun x => request_ok s (fst x)) h -> server_run s c pages h ->
  exists Q, serves_all s q_empty h Q.
Proof. exact server_refines. Qed.
Print Assumptions C55_server_is_an_object_store.

(** Whatever else is requested in between: an upload is created for a key, every part
    of the data is written and acknowledged and not written again, and the upload
    is committed with 201; as long as no later request deletes or replaces the
    object of that key, GET answers with exactly that data (or the requested
    range of it) and HEAD with its length. *)
Theorem C55_uploaded_data_is_served : forall s c pages pre create tok mid commit receipts post lastrq r key data,
  let before := pre ++ [(create, RespUpload 202 tok)] ++ mid ++ [(commit, Resp 201)] in
  let h := before ++ post ++ [(lastrq, r)] in
  is_mac (sv_mac s) -> cfg_ok c -> Forall (fun x => request_ok s (fst x)) h -> server_run s c pages h ->
  needs create = Some (CreateObject key (N.of_nat (length data))) -> rq_method commit = HPut tok receipts ->
  (forall i, i * 2 ^ sv_lpage s < N.of_nat (length data) ->
     last_written s mid tok (i * 2 ^ sv_lpage s) (take (N.to_nat (2 ^ sv_lpage s)) (drop (N.to_nat (i * 2 ^ sv_lpage s)) data))) ->
  leaves_alone before key post ->
  answers_with s key data lastrq r.
Proof.
  intros s c pages pre create tok mid commit receipts post lastrq r key data before h Hm Hc Hok Hr Hn Em Hp HL.
  destruct (server_refines s c pages h Hm Hc Hok Hr) as [Q HQ]. eapply uploaded_is_served; eassumption.
Qed.
Print Assumptions C55_uploaded_data_is_served.

(** * C56 *)
(** A batch that is answered has stored exactly the objects whose whole frames begin
    its body, in order (the last one of a key wins), and the count in the answer
    is their number; without an answer a first part of them is stored.  They
    are served until deleted or replaced. *)
Theorem C56_batch_data_is_served : forall s c pages pre batch size body rb post lastrq r,
  let before := pre ++ [(batch, rb)] in
  let h := before ++ post ++ [(lastrq, r)] in
  is_mac (sv_mac s) -> cfg_ok c -> Forall (fun x => request_ok s (fst x)) h -> server_run s c pages h ->
  needs batch = Some BatchCreateObjects -> permitted s batch BatchCreateObjects -> rq_method batch = HPost size body ->
  exists es tail, Forall valid_entry es /\ concat body = concat (map entry_bytes es) ++ tail /\
    (rb = Aborted \/ rb = RespCount 200 (N.of_nat (length es)) /\ forall e tail', valid_entry e -> tail <> entry_bytes e ++ tail') /\
    forall e1 key data e2, es = e1 ++ (key, data) :: e2 -> key ∉ map fst e2 -> leaves_alone before key post ->
      answers_with s key data lastrq r.
Proof.
  intros s c pages pre batch size body rb post lastrq r before h Hm Hc Hok Hr Hn Hp Em.
  destruct (server_refines s c pages h Hm Hc Hok Hr) as [Q HQ]. eapply batch_is_served; eassumption.
Qed.
Print Assumptions C56_batch_data_is_served.

(** ** Examples *)
(** Run a handler on given results of its calls. *)
Fixpoint exec (p : prog) (rs : list (list vis)) : option (list (dop * list vis) * response) :=
  match rs, p with
  | [], Ret r => Some ([], r)
  | vs :: rs, Call op k => '(cs, r) ← exec (k vs) rs; Some ((op, vs) :: cs, r)
  | _, _ => None
  end.
Lemma exec_runs rs : forall p cs r, exec p rs = Some (cs, r) -> runs p cs r.
Proof.
  induction rs as [|vs rs IH]; intros [r'|op k] cs r H; cbn [exec] in H; try discriminate H.
  - injection H as <- <-. constructor.
  - destruct (exec (k vs) rs) as [[cs' r']|] eqn:E; [|discriminate]. cbn [mbind option_bind] in H. injection H as <- <-.
    constructor. apply IH, E.
Qed.
Fixpoint exec_all (s : server) (l : list (request * list (list vis))) : option (list (list (dop * list vis)) * history) :=
  match l with
  | [] => Some ([], [])
  | (rq, rs) :: l => '(cs, r) ← exec (handle s rq) rs; '(css, h) ← exec_all s l; Some (cs :: css, (rq, r) :: h)
  end.
Lemma exec_all_runs s l : forall css h, exec_all s l = Some (css, h) -> Forall2 (fun x cs => runs (handle s (fst x)) cs (snd x)) h css.
Proof.
  induction l as [|[rq rs] l IH]; intros css h H; cbn [exec_all] in H.
  - injection H as <- <-. constructor.
  - destruct (exec (handle s rq) rs) as [[cs r]|] eqn:E; [|discriminate]. cbn [mbind option_bind] in H.
    destruct (exec_all s l) as [[css' h']|] eqn:E2; [|discriminate]. cbn [mbind option_bind] in H. injection H as <- <-.
    constructor; [|apply IH; reflexivity]. cbn [fst snd]. eapply exec_runs, E.
Qed.
Definition over_b (c : dop * list vis) : bool := existsb is_final (snd c).
Lemma over_b_ok cs : forallb over_b cs = true -> Forall over cs.
Proof.
  intros H. apply Forall_forall. intros c Hc. rewrite forallb_forall in H. apply elem_of_list_In in Hc. apply H in Hc.
  unfold over_b in Hc. apply existsb_exists in Hc as (v & Hv & Hf). exists v. split; [apply elem_of_list_In, Hv|exact Hf].
Qed.
(** A run of the partition and the requests it serves. *)
Lemma ex_server s es l css h : sv_lpage s = 10 -> exec_all s l = Some (css, h) -> forallb over_b (concat css) = true ->
  (fun r => visible (snd r)) <$> ex_run 10 16384 es = Some (call_labels 0 (concat css)) ->
  server_run s (ex_cfg 10 16384) (PropertiesTuples.ex_pages 1) h.
Proof.
  intros Hlp Hx Ho Hr.
  destruct (ex_run_shows 10 16384 es (fun _ _ => tt) (call_labels 0 (concat css)) tt) as (y0 & y & ls & H1 & H2 & H3 & _).
  { destruct (ex_run 10 16384 es) as [[y ls]|]; [|discriminate Hr]. cbn [fmap option_fmap option_map fst snd] in *. congruence. }
  exact (server_run_intro s _ _ h y0 ls y css H1 H2 Hlp (exec_all_runs _ _ _ _ Hx) (over_b_ok _ Ho) H3).
Qed.

Definition ex_srv : server := {| sv_mac := toy_mac; sv_auth := true; sv_lpage := 10 |}.
Definition ex_rq (path : list N) (a : action) (m : hmethod) : request :=
  {| rq_path := path; rq_t := auth_token_new toy_mac a 100; rq_now := 50; rq_method := m |}.
(** "/a", the key "a". *)
Definition ex_path : list N := [47; 97].
Definition ex_k : list N := [97].
Definition ex_up : list N := upload_token toy_mac (Itoken 1 0) 5.
Definition ex_create := ex_rq ex_path (CreateObject ex_k 5) (HPost 5 []).
Definition ex_patch := ex_rq ex_path (WriteObject ex_k) (HPatch ex_up 0 5 [Data [1; 2]; Data [3; 4; 5]]).
Definition ex_put := ex_rq ex_path (CommitObject ex_k) (HPut ex_up (write_receipt toy_mac (Itoken 1 0) 0)).
(** A request with an expired token, one with the wrong method at "/". *)
Definition ex_stale : request := {| rq_path := ex_path; rq_t := auth_token_new toy_mac (DeleteObject ex_k) 50; rq_now := 50; rq_method := HDelete |}.
(** "bytes=1-3". *)
Definition ex_get := ex_rq ex_path (ReadObject ex_k) (HGet (Some (bytes_eq ++ [49; 45; 51]))).
Definition ex_upload_reqs : list (request * list (list vis)) :=
  [(ex_create, [[VRet (RCreated 1)]]); (ex_patch, [[VRet RWritten]]); (ex_put, [[VRet (RCommitted (Some 2))]]);
   (ex_stale, []); (ex_get, [[VRet (RReading 2 5 1 4); VChunk [2; 3; 4]; VEnd RDone]])].
Definition ex_upload_run : list ev :=
  do_create 0 ex_k 5 1 2
  ++ [ECall (OWrite 1 0 5 [Data [1; 2]; Data [3; 4; 5]])] ++ steps 1 (replicate 8 2)
  ++ [ECall (OCommit 1 false)] ++ steps 2 [2; 2; 2; 2; 3] ++ [EFlush] ++ steps 2 [3; 3]
  ++ [ECall (ORead ex_k None 1 (Some 4) 8192)] ++ steps 3 [3; 3; 3].
Definition ex_upload_history : history :=
  [(ex_create, RespUpload 202 ex_up)] ++ [(ex_patch, RespReceipt 202 (write_receipt toy_mac (Itoken 1 0) 0))] ++ [(ex_put, Resp 201)] ++
  [(ex_stale, Resp 401)] ++ [(ex_get, RespBody 206 [51] (content_range 1 4 5) 2 [2; 3; 4])].
Lemma ex_upload_server : server_run ex_srv (ex_cfg 10 16384) (PropertiesTuples.ex_pages 1) ex_upload_history.
Proof.
  destruct (exec_all ex_srv ex_upload_reqs) as [[css h]|] eqn:E; [|vm_compute in E; discriminate E].
  apply (ex_server ex_srv ex_upload_run ex_upload_reqs css); [reflexivity| | |]; vm_compute in E; injection E as <- <-; vm_compute; reflexivity.
Qed.
Theorem C55_example :
  is_mac (sv_mac ex_srv) /\ cfg_ok (ex_cfg 10 16384) /\ Forall (fun x => request_ok ex_srv (fst x)) ex_upload_history /\
  server_run ex_srv (ex_cfg 10 16384) (PropertiesTuples.ex_pages 1) ex_upload_history /\
  needs ex_create = Some (CreateObject ex_k 5) /\
  (forall i, i * 2 ^ sv_lpage ex_srv < 5 ->
     last_written ex_srv [(ex_patch, RespReceipt 202 (write_receipt toy_mac (Itoken 1 0) 0))] ex_up (i * 2 ^ sv_lpage ex_srv)
       (take (N.to_nat (2 ^ sv_lpage ex_srv)) (drop (N.to_nat (i * 2 ^ sv_lpage ex_srv)) [1; 2; 3; 4; 5]))) /\
  leaves_alone ([(ex_create, RespUpload 202 ex_up)] ++ [(ex_patch, RespReceipt 202 (write_receipt toy_mac (Itoken 1 0) 0))] ++ [(ex_put, Resp 201)])
    ex_k [(ex_stale, Resp 401)] /\
  needs ex_get = Some (ReadObject ex_k) /\ permitted ex_srv ex_get (ReadObject ex_k).
Proof.
  split; [exact toy_is_mac|]. split; [constructor; cbn; lia|].
  split; [repeat (constructor; [vm_compute; try split; try constructor|]); constructor|].
  split; [exact ex_upload_server|]. split; [vm_compute; reflexivity|]. split.
  { intros i Hi. cbn [sv_lpage ex_srv] in *. assert (i = 0) as -> by (destruct i as [|p]; [reflexivity|exfalso; change (2 ^ 10) with 1024 in Hi; lia]).
    exists [], ex_patch, (write_receipt toy_mac (Itoken 1 0) 0), [], 5, [Data [1; 2]; Data [3; 4; 5]].
    split; [reflexivity|]. split; [reflexivity|]. split; [vm_compute; reflexivity|]. intros rq' r tok' len' body' H. apply elem_of_nil in H. contradiction. }
  split.
  { intros h1 rq r h2 E. destruct h1 as [|x h1]; [|destruct h1; discriminate E]. injection E as <- <- <-.
    split; [intros _ E; discriminate E|]. split; [intros tok receipts E; discriminate E|]. intros size body es tail E _. vm_compute in E. discriminate E. }
  split; [vm_compute; reflexivity|]. right. exists 100. split; [reflexivity|]. split; [reflexivity|]. reflexivity.
Qed.
Print Assumptions C55_example.

(** An object with an empty key, one with key "b", and a frame cut short. *)
Definition ex_batch : request := ex_rq [47] BatchCreateObjects (HPost 0 [[0; 0; 0; 0; 0; 0]; [1; 7; 0; 1; 98; 0; 0; 0; 0; 2; 8; 9; 0]]).
Definition ex_get_b : request := ex_rq [47; 98] (ReadObject [98]) (HGet None).
Definition ex_batch_reqs : list (request * list (list vis)) :=
  [(ex_batch, [[VRet (RCreated 1)]; [VRet RWritten]; [VRet (RCommitted (Some 2))]; [VRet (RCreated 3)]; [VRet RWritten]; [VRet (RCommitted (Some 4))]]);
   (ex_get_b, [[VRet (RReading 4 2 0 2); VChunk [8; 9]; VEnd RDone]])].
Definition ex_batch_run : list ev :=
  do_create 0 [] 1 1 2 ++ [ECall (OWrite 1 0 1 [Data [7]])] ++ steps 1 (replicate 7 2)
  ++ [ECall (OCommit 1 false)] ++ steps 2 [2; 2; 2; 2; 3] ++ [EFlush] ++ steps 2 [3; 3]
  ++ do_create 3 [98] 2 3 4 ++ [ECall (OWrite 3 0 2 [Data [8; 9]])] ++ steps 4 (replicate 7 4)
  ++ [ECall (OCommit 3 false)] ++ steps 5 [4; 4; 4; 4; 5] ++ [EFlush] ++ steps 5 [5; 5]
  ++ [ECall (ORead [98] None 0 None 8192)] ++ steps 6 [5; 5; 5].
Definition ex_batch_history : history := [(ex_batch, RespCount 200 2)] ++ [(ex_get_b, RespBody 200 [50] (content_range 0 2 2) 4 [8; 9])].
Lemma ex_batch_server : server_run ex_srv (ex_cfg 10 16384) (PropertiesTuples.ex_pages 1) ex_batch_history.
Proof.
  destruct (exec_all ex_srv ex_batch_reqs) as [[css h]|] eqn:E; [|vm_compute in E; discriminate E].
  apply (ex_server ex_srv ex_batch_run ex_batch_reqs css); [reflexivity| | |]; vm_compute in E; injection E as <- <-; vm_compute; reflexivity.
Qed.
Lemma ex_batch_ok : Forall (fun x => request_ok ex_srv (fst x)) ex_batch_history.
Proof.
  constructor; [|constructor; [exact I|constructor]]. split; [reflexivity|]. vm_compute. repeat constructor.
Qed.
Theorem C56_example :
  Forall (fun x => request_ok ex_srv (fst x)) ex_batch_history /\
  server_run ex_srv (ex_cfg 10 16384) (PropertiesTuples.ex_pages 1) ex_batch_history /\
  needs ex_batch = Some BatchCreateObjects /\ permitted ex_srv ex_batch BatchCreateObjects /\
  needs ex_get_b = Some (ReadObject [98]) /\ permitted ex_srv ex_get_b (ReadObject [98]) /\
  leaves_alone [(ex_batch, RespCount 200 2)] [98] [].
Proof.
  split; [exact ex_batch_ok|]. split; [exact ex_batch_server|]. split; [vm_compute; reflexivity|].
  split; [right; exists 100; split; [reflexivity|]; split; reflexivity|]. split; [vm_compute; reflexivity|].
  split; [right; exists 100; split; [reflexivity|]; split; reflexivity|]. intros h1 rq r h2 E. destruct h1; discriminate E.
Qed.
Print Assumptions C56_example.

(** No request is about the empty key: the path "/" has only the batch endpoint, and
    every other path names a key that is not empty. *)
Lemma decode_nonempty s : s <> [] -> percent_decode s <> [].
Proof. intros H. destruct s as [|c s]; [contradiction|]. cbn [percent_decode]. repeat case_match; discriminate. Qed.
Theorem C56_no_request_for_the_empty_key : forall rq p size, rq_path rq = 47 :: p ->
  needs rq <> Some (ReadObject []) /\ needs rq <> Some (InspectObject []) /\ needs rq <> Some (DeleteObject []) /\
  needs rq <> Some (CreateObject [] size) /\ needs rq <> Some (WriteObject []) /\ needs rq <> Some (CommitObject []).
Proof.
  intros rq p size E. unfold needs. rewrite E. destruct (decide (47 :: p = [47])) as [_|Hne].
  - destruct (rq_method rq); repeat split; discriminate.
  - assert (parse_key (47 :: p) <> []) as H by (unfold parse_key; cbn [tail]; apply decode_nonempty; congruence).
    destruct (rq_method rq); repeat split; congruence.
Qed.
Print Assumptions C56_no_request_for_the_empty_key.
(** So it is false that every object the server says it stored can be read or deleted. *)
Theorem C56_every_stored_object_is_reachable_refuted :
  ~ (forall s c pages h batch size body es tail key data,
       is_mac (sv_mac s) -> cfg_ok c -> Forall (fun x => request_ok s (fst x)) h -> server_run s c pages h ->
       (batch, RespCount 200 (N.of_nat (length es))) ∈ h -> rq_method batch = HPost size body ->
       Forall valid_entry es -> concat body = concat (map entry_bytes es) ++ tail -> (key, data) ∈ es ->
       exists rq p, rq_path rq = 47 :: p /\ (needs rq = Some (ReadObject key) \/ needs rq = Some (DeleteObject key))).
Proof.
  intros H.
  assert (Hc : cfg_ok (ex_cfg 10 16384)) by (constructor; cbn; lia).
  destruct (H ex_srv (ex_cfg 10 16384) (PropertiesTuples.ex_pages 1) ex_batch_history ex_batch 0 [[0; 0; 0; 0; 0; 0]; [1; 7; 0; 1; 98; 0; 0; 0; 0; 2; 8; 9; 0]]
    [([], [7]); ([98], [8; 9])] [0] [] [7]) as (rq & p & Hp & K).
  - exact toy_is_mac.
  - exact Hc.
  - exact ex_batch_ok.
  - exact ex_batch_server.
  - left.
  - reflexivity.
  - repeat constructor.
  - vm_compute. reflexivity.
  - left.
  - destruct (C56_no_request_for_the_empty_key rq p 0 Hp) as (K1 & _ & K3 & _). tauto.
Qed.
Print Assumptions C56_every_stored_object_is_reachable_refuted.
