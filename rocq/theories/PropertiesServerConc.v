(** C61: the HTTP server handling requests at the same time. *)
From Coq Require Import ZifyBool ZifyNat ZifyN.
From stdpp Require Import base numbers list_numbers option gmap sets functions list.
From Verif Require Import Util Bytes PageIOModel PageIOSpec TokenModel TokenProofs HttpModel BatchProofs DirectModel DirectSpec DirectBase DirectSeqSpec DirectDrive.
From Verif Require Import DirectSys DirectHistSpec DirectHist DirectRealSpec DirectReal PropertiesToken PropertiesConc.
From Verif Require Import ServerModel ServerSpec ServerProofs ServerHist PropertiesServer ServerConcModel ServerConcSpec ServerConc.
From Verif Require PropertiesTuples.
Open Scope N_scope.
Ltac Zify.zify_post_hook ::= idtac.

(** * C61 *)
(** Any number of requests are handled at the same time.  An upload was made for
    [key]; the parts of [data] were written to it by requests answered 202 before
    the request to commit arrived, and no other request that writes to one of
    these parts overlaps; the commit was answered 201 before a GET or HEAD of [key]
    arrived, and no other request that may change the key overlaps the time from
    the arrival of the commit to the answer of the GET.  Then the GET is answered
    with [data], whatever else the server does meanwhile. *)
Theorem C61_uploaded_data_is_served_to_later_requests : forall s c pages es key data tok jc rqc receipts jr rqr r,
  is_mac (sv_mac s) -> cfg_ok c -> conc_run s c pages es -> (forall j rq, EReq j rq ∈ es -> request_ok s rq) ->
  upload_made es tok key (N.of_nat (length data)) ->
  EReq jc rqc ∈ es -> rq_method rqc = HPut tok receipts -> precedes es (EAns jc (Resp 201)) (EReq jr rqr) -> EAns jr r ∈ es ->
  (forall i, i * 2 ^ sv_lpage s < N.of_nat (length data) ->
     part_settled s es tok (i * 2 ^ sv_lpage s) (take (N.to_nat (2 ^ sv_lpage s)) (drop (N.to_nat (i * 2 ^ sv_lpage s)) data)) (EReq jc rqc) (EAns jc (Resp 201))) ->
  (forall j rq, EReq j rq ∈ es -> may_touch s es key j rq -> j <> jc -> req_apart es j rq (EReq jc rqc) (EAns jr r)) ->
  answers_with s key data rqr r.
Proof. intros s c pages es key data tok jc rqc receipts jr rqr r Hm Hc Hr Hok. exact (conc_uploaded s c pages es Hm Hc Hr Hok key data tok jc rqc receipts jr rqr r). Qed.
Print Assumptions C61_uploaded_data_is_served_to_later_requests.

(** A GET or HEAD that arrives after a DELETE was answered 200 or 404 is answered
    404 (or 416 for a range that makes no sense), if no other request that may
    change the key overlaps. *)
Theorem C61_deleted_objects_are_not_served_to_later_requests : forall s c pages es key jd rqd code jr rqr r,
  is_mac (sv_mac s) -> cfg_ok c -> conc_run s c pages es -> (forall j rq, EReq j rq ∈ es -> request_ok s rq) ->
  EReq jd rqd ∈ es -> needs rqd = Some (DeleteObject key) -> code = 200 \/ code = 404 ->
  precedes es (EAns jd (Resp code)) (EReq jr rqr) -> EAns jr r ∈ es ->
  (forall j rq, EReq j rq ∈ es -> may_touch s es key j rq -> j <> jd -> req_apart es j rq (EReq jd rqd) (EAns jr r)) ->
  answers_without s key rqr r.
Proof. intros s c pages es key jd rqd code jr rqr r Hm Hc Hr Hok. exact (conc_deleted s c pages es Hm Hc Hr Hok key jd rqd code jr rqr r). Qed.
Print Assumptions C61_deleted_objects_are_not_served_to_later_requests.

(** ** A run *)
(** A request arrives; handler [j] makes its next call or answers; the call handler
    [j] waits for makes a step; the index is flushed. *)
Inductive sev := SReq (rq : request) | SGo (j : nat) | SStep (j : nat) (id : N) | SFlush.
Definition srv1 (s : server) (c : dcfg) (x : dsys * list event * list hproc) (e : sev) : option (dsys * list event * list hproc) :=
  let '(y, es, hs) := x in
  match e with
  | SReq rq => Some (y, es ++ [EReq (length hs) rq], hs ++ [HRun (handle s rq)])
  | SGo j =>
      match hs !! j with
      | Some (HRun (Ret r)) => Some (y, es ++ [EAns j r], <[j := HOver]> hs)
      | Some (HRun (Call op k)) =>
          match drive1 c (y, []) (ECall op) with
          | Some (y', [LCall i op']) => Some (y', es ++ [EStore (LCall i op)], <[j := HWait i k []]> hs)
          | _ => None
          end
      | _ => None
      end
  | SStep j id =>
      match hs !! j with
      | Some (HWait i k seen) =>
          match drive1 c (y, []) (EStep i id) with
          | Some (y', [LTau]) => Some (y', es ++ [EStore LTau], hs)
          | Some (y', [LVis i' v]) =>
              if is_final v then Some (y', es ++ [EStore (LVis i v)], <[j := HRun (k (seen ++ [v]))]> hs)
              else Some (y', es ++ [EStore (LVis i v)], <[j := HWait i k (seen ++ [v])]> hs)
          | _ => None
          end
      | _ => None
      end
  | SFlush =>
      match drive1 c (y, []) EFlush with
      | Some (y', ls) => Some (y', es ++ [EStore LTau; EStore LTau; EStore LTau], hs)
      | None => None
      end
  end.
Fixpoint srv (s : server) (c : dcfg) (x : dsys * list event * list hproc) (l : list sev) : option (dsys * list event * list hproc) :=
  match l with [] => Some x | e :: l => match srv1 s c x e with Some x => srv s c x l | None => None end end.

Lemma drive1_app c y ls e y' new : drive1 c (y, []) e = Some (y', new) -> drive1 c (y, ls) e = Some (y', ls ++ new).
Proof.
  destruct e as [op|i id|]; cbn [drive1].
  - intros H. injection H as <- <-. reflexivity.
  - destruct (y_procs y !! i) as [p|]; [|discriminate]. cbn [mbind option_bind]. destruct (_ && _); [|discriminate].
    destruct (pstep _ _ _ _) as [[[h' p'] v]|]; [|discriminate]. cbn [mbind option_bind]. intros H. injection H as <- <-. reflexivity.
  - destruct (PropertiesTuples.one_flush _) as [t|]; [|discriminate]. cbn [mbind option_bind]. intros H. injection H as <- <-. reflexivity.
Qed.
Lemma drive1_label c y i id y' l : drive1 c (y, []) (EStep i id) = Some (y', [l]) -> l = LTau \/ exists v, l = LVis i v.
Proof.
  cbn [drive1]. destruct (y_procs y !! i) as [p|]; [|discriminate]. cbn [mbind option_bind]. destruct (_ && _); [|discriminate].
  destruct (pstep _ _ _ _) as [[[h' p'] v]|]; [|discriminate]. cbn [mbind option_bind]. intros H. injection H as _ <-. destruct v as [v|]; cbn; eauto.
Qed.
Lemma drive1_call c y op y' l : drive1 c (y, []) (ECall op) = Some (y', [l]) -> exists i, l = LCall i op.
Proof. cbn [drive1]. intros H. injection H as _ <-. eauto. Qed.
Lemma drive1_flush c y y' ls : drive1 c (y, []) EFlush = Some (y', ls) -> ls = [LTau; LTau; LTau].
Proof. cbn [drive1]. destruct (PropertiesTuples.one_flush _) as [t|]; [|discriminate]. cbn [mbind option_bind]. intros H. injection H as _ <-. reflexivity. Qed.

Definition srv_good (s : server) (c : dcfg) (y0 : dsys) (x : dsys * list event * list hproc) : Prop :=
  let '(y, es, hs) := x in dsteps c y0 (store_labels es) y /\ hsteps s es hs.
Lemma srv1_good s c y0 x e x' : srv1 s c x e = Some x' -> srv_good s c y0 x -> srv_good s c y0 x'.
Proof.
  destruct x as [[y es] hs]. intros H [Hd Hh].
  assert (Hst : forall e y' new, drive1 c (y, []) e = Some (y', new) -> dsteps c y0 (store_labels es ++ new) y').
  { intros e1 y' new E. apply (drive1_app _ _ (store_labels es)) in E. exact (drive1_steps _ _ _ _ _ E Hd). }
  destruct e as [rq|j|j id|]; cbn [srv1] in H.
  - injection H as <-. split; [rewrite store_app; cbn; now rewrite app_nil_r|]. eapply hsteps_snoc; [exact Hh|constructor].
  - destruct (hs !! j) as [[[r|op k]| |]|] eqn:Ej; try discriminate H.
    + injection H as <-. split; [rewrite store_app; cbn; now rewrite app_nil_r|]. eapply hsteps_snoc; [exact Hh|]. now constructor.
    + destruct (drive1 c (y, []) (ECall op)) as [[y' [|[i op'| |] [|? ?]]]|] eqn:E; try discriminate H. injection H as <-.
      destruct (drive1_call _ _ _ _ _ E) as (i' & El). injection El as <- ->. split; [rewrite store_app; exact (Hst _ _ _ E)|].
      eapply hsteps_snoc; [exact Hh|]. now constructor.
  - destruct (hs !! j) as [[|i k seen|]|] eqn:Ej; try discriminate H.
    destruct (drive1 c (y, []) (EStep i id)) as [[y' [|[|i' v|] [|? ?]]]|] eqn:E; try discriminate H.
    + destruct (drive1_label _ _ _ _ _ _ E) as [El|(v' & El)]; [discriminate El|]. injection El as -> <-.
      destruct (is_final v) eqn:Ev; injection H as <-; (split; [rewrite store_app; exact (Hst _ _ _ E)|]);
        (eapply hsteps_snoc; [exact Hh|]); econstructor; eassumption.
    + injection H as <-. split; [rewrite store_app; exact (Hst _ _ _ E)|]. eapply hsteps_snoc; [exact Hh|constructor].
  - destruct (drive1 c (y, []) EFlush) as [[y' ls]|] eqn:E; [|discriminate H]. injection H as <-. pose proof (drive1_flush _ _ _ _ E) as ->.
    split; [rewrite store_app; exact (Hst _ _ _ E)|].
    change [EStore LTau; EStore LTau; EStore LTau] with ([EStore LTau] ++ [EStore LTau] ++ [EStore LTau]). rewrite !app_assoc.
    eapply hsteps_snoc; [eapply hsteps_snoc; [eapply hsteps_snoc; [exact Hh|]|]|]; constructor.
Qed.
Lemma srv_good_all s c y0 l : forall x x', srv s c x l = Some x' -> srv_good s c y0 x -> srv_good s c y0 x'.
Proof.
  induction l as [|e l IH]; intros x x' H Hx; cbn [srv] in H; [now injection H as <-|].
  destruct (srv1 s c x e) as [x1|] eqn:E; [|discriminate]. eapply IH; [exact H|]. eapply srv1_good; eassumption.
Qed.
(** What the clients see. *)
Definition is_outer (e : event) : bool := match e with EStore _ => false | _ => true end.
Definition outer (es : list event) : list event := List.filter is_outer es.
Lemma in_outer e es : is_outer e = true -> e ∈ outer es <-> e ∈ es.
Proof. intros H. unfold outer. rewrite !elem_of_list_In, filter_In. tauto. Qed.
Lemma precedes_outer es a b : precedes (outer es) a b -> precedes es a b.
Proof.
  unfold outer. induction es as [|e es IH]; cbn [List.filter].
  - intros (l1 & l2 & l3 & E). destruct l1; discriminate.
  - destruct (is_outer e) eqn:Ee; intros (l1 & l2 & l3 & E).
    + destruct l1 as [|x l1]; injection E as -> E.
      * assert (b ∈ List.filter is_outer es) as Hb by (rewrite E; set_solver). apply elem_of_list_In, filter_In in Hb as [Hb _].
        apply elem_of_list_In, elem_of_list_split in Hb as (l4 & l5 & ->). exists [], l4, l5. reflexivity.
      * destruct IH as (m1 & m2 & m3 & ->); [exists l1, l2, l3; exact E|]. exists (x :: m1), m2, m3. reflexivity.
    + destruct IH as (m1 & m2 & m3 & ->); [exists l1, l2, l3; exact E|]. exists (e :: m1), m2, m3. reflexivity.
Qed.
Definition srv_run (s : server) (heap : N) (l : list sev) : option (dsys * list event * list hproc) :=
  match ex_fresh (sv_lpage s) heap with Some y => srv s (ex_cfg (sv_lpage s) heap) (y, [], []) l | None => None end.
Lemma srv_run_shows s heap l L : option_map (fun x => outer (snd (fst x))) (srv_run s heap l) = Some L ->
  exists es, conc_run s (ex_cfg (sv_lpage s) heap) (PropertiesTuples.ex_pages 1) es /\ outer es = L.
Proof.
  unfold srv_run. destruct (ex_fresh (sv_lpage s) heap) as [y0|] eqn:E0; [|discriminate].
  destruct (srv s _ _ l) as [[[y es] hs]|] eqn:E; [|discriminate]. cbn [option_map fst snd]. intros H. injection H as H.
  exists es. split; [|exact H]. destruct (srv_good_all _ _ y0 _ _ _ E) as [Hd Hh]; [split; constructor|].
  exact (conc_run_intro s _ _ es y0 y hs (ex_fresh_ok _ _ _ E0) Hd eq_refl Hh).
Qed.

(** "/b", the key "b". *)
Definition ex_up_b : list N := upload_token toy_mac (Itoken 2 0) 1.
Definition ex_create_b := ex_rq [47; 98] (CreateObject [98] 1) (HPost 1 []).
Definition ex_patch_b := ex_rq [47; 98] (WriteObject [98]) (HPatch ex_up_b 0 1 [Data [9]]).
Definition ex_put_b := ex_rq [47; 98] (CommitObject [98]) (HPut ex_up_b (write_receipt toy_mac (Itoken 2 0) 0)).
Definition ex_del := ex_rq ex_path (DeleteObject ex_k) HDelete.
Definition ex_head := ex_rq ex_path (InspectObject ex_k) HHead.
(** Two objects are uploaded at the same time; the commit of the second lasts until
    the first was committed, read and deleted. *)
Definition s_create (j : nat) (tok free : N) : list sev := SGo j :: (SStep j <$> [tok; tok; free; free]) ++ [SFlush; SStep j free].
Definition s_steps (j n : nat) (free : N) : list sev := replicate n (SStep j free).
Definition c61_run : list sev :=
  [SReq ex_create; SReq ex_create_b] ++ s_create 1 2 1 ++ s_create 0 1 3 ++ [SGo 0; SGo 1]
  ++ [SReq ex_patch; SReq ex_patch_b; SGo 2; SGo 3] ++ s_steps 2 4 3 ++ s_steps 3 7 3 ++ s_steps 2 4 3 ++ [SGo 3; SGo 2]
  ++ [SReq ex_put; SReq ex_put_b; SGo 4; SGo 5] ++ s_steps 4 2 3 ++ s_steps 5 2 3 ++ s_steps 4 2 3 ++ [SStep 4 4; SFlush] ++ s_steps 4 2 4 ++ [SGo 4]
  ++ [SReq ex_get; SGo 6] ++ s_steps 6 1 4 ++ s_steps 5 2 4 ++ s_steps 6 2 5 ++ [SGo 6]
  ++ [SReq ex_del; SGo 7] ++ s_steps 7 2 5 ++ [SStep 5 5; SFlush] ++ s_steps 7 3 5 ++ [SGo 7]
  ++ [SReq ex_head; SGo 8] ++ s_steps 8 1 5 ++ [SGo 8] ++ s_steps 5 2 5 ++ [SGo 5].
Definition c61_events : list event :=
  [EReq 0 ex_create; EReq 1 ex_create_b; EAns 0 (RespUpload 202 ex_up); EAns 1 (RespUpload 202 ex_up_b);
   EReq 2 ex_patch; EReq 3 ex_patch_b; EAns 3 (RespReceipt 202 (write_receipt toy_mac (Itoken 2 0) 0)); EAns 2 (RespReceipt 202 (write_receipt toy_mac (Itoken 1 0) 0));
   EReq 4 ex_put; EReq 5 ex_put_b; EAns 4 (Resp 201);
   EReq 6 ex_get; EAns 6 (RespBody 206 [51] (content_range 1 4 5) 3 [2; 3; 4]);
   EReq 7 ex_del; EAns 7 (Resp 200); EReq 8 ex_head; EAns 8 (Resp 404); EAns 5 (Resp 201)].
Ltac in_c61 H := cbv [c61_events] in H; repeat (apply elem_of_cons in H as [H|H]; [try discriminate H|]); [..|now apply elem_of_nil in H].
Theorem C61_example : exists es,
  is_mac (sv_mac ex_srv) /\ cfg_ok (ex_cfg 10 16384) /\ conc_run ex_srv (ex_cfg 10 16384) (PropertiesTuples.ex_pages 1) es /\ outer es = c61_events /\
  (forall j rq, EReq j rq ∈ es -> request_ok ex_srv rq) /\
  (* the GET *)
  (upload_made es ex_up ex_k (N.of_nat (length [1; 2; 3; 4; 5])) /\ EReq 4 ex_put ∈ es /\
   (forall i, i * 2 ^ sv_lpage ex_srv < N.of_nat (length [1; 2; 3; 4; 5]) ->
      part_settled ex_srv es ex_up (i * 2 ^ sv_lpage ex_srv) (take (N.to_nat (2 ^ sv_lpage ex_srv)) (drop (N.to_nat (i * 2 ^ sv_lpage ex_srv)) [1; 2; 3; 4; 5]))
        (EReq 4 ex_put) (EAns 4 (Resp 201))) /\
   precedes es (EAns 4 (Resp 201)) (EReq 6 ex_get) /\ EAns 6 (RespBody 206 [51] (content_range 1 4 5) 3 [2; 3; 4]) ∈ es /\
   needs ex_get = Some (ReadObject ex_k) /\ permitted ex_srv ex_get (ReadObject ex_k) /\
   (forall j rq, EReq j rq ∈ es -> may_touch ex_srv es ex_k j rq -> j <> 4%nat ->
      req_apart es j rq (EReq 4 ex_put) (EAns 6 (RespBody 206 [51] (content_range 1 4 5) 3 [2; 3; 4])))) /\
  (* the HEAD *)
  (EReq 7 ex_del ∈ es /\ needs ex_del = Some (DeleteObject ex_k) /\ precedes es (EAns 7 (Resp 200)) (EReq 8 ex_head) /\ EAns 8 (Resp 404) ∈ es /\
   needs ex_head = Some (InspectObject ex_k) /\ permitted ex_srv ex_head (InspectObject ex_k) /\
   (forall j rq, EReq j rq ∈ es -> may_touch ex_srv es ex_k j rq -> j <> 7%nat -> req_apart es j rq (EReq 7 ex_del) (EAns 8 (Resp 404)))).
Proof.
  destruct (srv_run_shows ex_srv 16384 c61_run c61_events ltac:(vm_compute; reflexivity)) as (es & Hr & Ho).
  exists es. split; [exact toy_is_mac|]. split; [constructor; cbn; lia|]. split; [exact Hr|]. split; [exact Ho|]. clear Hr.
  assert (Hin : forall e, is_outer e = true -> e ∈ es <-> e ∈ c61_events) by (intros e He; rewrite <- (in_outer e es He), Ho; reflexivity).
  assert (Hel : forall n e, c61_events !! n = Some e -> is_outer e = true -> e ∈ es)
    by (intros n e He Hb; apply Hin; [exact Hb|]; apply elem_of_list_lookup; eauto).
  assert (Hpr : forall p q a b, c61_events !! p = Some a -> c61_events !! q = Some b -> index_ltb p q = true -> precedes es a b)
    by (intros p q a b Ha Hb H; apply precedes_outer; rewrite Ho; exact (prec_at _ _ _ _ _ Ha Hb H)).
  assert (Hmay : forall j rq, EReq j rq ∈ es -> may_touch ex_srv es ex_k j rq -> (j = 4%nat /\ rq = ex_put) \/ (j = 7%nat /\ rq = ex_del)).
  { intros j rq Hj Hm. apply (Hin (EReq j rq) eq_refl) in Hj.
    assert (HB : upload_made es ex_up_b [98] 1).
    { exists 1%nat, ex_create_b. split; [apply (Hel 1%nat); reflexivity|]. split; [apply (Hel 3%nat); reflexivity|]. vm_compute. reflexivity. }
    clear -Hj Hm HB.
    in_c61 Hj; injection Hj as -> ->; auto; exfalso; destruct Hm as [[Hm _]|[(tok & receipts & Hm & Hn & _)|(size & body & ens & tl & Hm & _)]];
      try (vm_compute in Hm; discriminate Hm).
    apply Hn. exists ex_up_b, [98], 1. split; [exact HB|]. split; [discriminate|]. injection Hm as <- _. reflexivity. }
  split.
  { intros j rq Hj. apply (Hin (EReq j rq) eq_refl) in Hj. clear -Hj. in_c61 Hj; injection Hj as -> ->; vm_compute; try split; try constructor. }
  split.
  - split; [|split; [|split; [|split; [|split; [|split; [|split]]]]]].
    + exists 0%nat, ex_create. split; [apply (Hel 0%nat); reflexivity|]. split; [apply (Hel 2%nat); reflexivity|]. vm_compute. reflexivity.
    + apply (Hel 8%nat); reflexivity.
    + intros i Hi. assert (i = 0) as -> by (clear -Hi; cbn in Hi; lia).
      exists 2%nat, ex_patch, (write_receipt toy_mac (Itoken 1 0) 0), 5, [Data [1; 2]; Data [3; 4; 5]].
      split; [apply (Hel 4%nat); reflexivity|]. split; [reflexivity|]. split; [apply (Hpr 7%nat 8%nat); reflexivity|]. split; [reflexivity|].
      intros j rq tok len body Hj Em Eu Hne. exfalso. apply (Hin (EReq j rq) eq_refl) in Hj. clear -Hj Em Eu Hne.
      in_c61 Hj; injection Hj as -> ->; try discriminate Em; [now contradiction Hne|]. injection Em as <- _ _. vm_compute in Eu. discriminate Eu.
    + apply (Hpr 10%nat 11%nat); reflexivity.
    + apply (Hel 12%nat); reflexivity.
    + vm_compute. reflexivity.
    + right. exists 100. split; [reflexivity|]. split; reflexivity.
    + intros j rq Hj Hm Hne. destruct (Hmay _ _ Hj Hm) as [[-> ->]|[-> ->]]; [now contradiction Hne|].
      right. apply (Hpr 12%nat 13%nat); reflexivity.
  - split; [|split; [|split; [|split; [|split; [|split]]]]].
    + apply (Hel 13%nat); reflexivity.
    + vm_compute. reflexivity.
    + apply (Hpr 14%nat 15%nat); reflexivity.
    + apply (Hel 16%nat); reflexivity.
    + vm_compute. reflexivity.
    + right. exists 100. split; [reflexivity|]. split; reflexivity.
    + intros j rq Hj Hm Hne. destruct (Hmay _ _ Hj Hm) as [[-> ->]|[-> ->]]; [|now contradiction Hne].
      left. exists (Resp 201). apply (Hpr 10%nat 13%nat); reflexivity.
Qed.
Print Assumptions C61_example.
