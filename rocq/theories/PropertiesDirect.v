(** Property C21: the operations of a direct partition. *)
From Coq Require Import ZifyBool ZifyNat ZifyN.
From stdpp Require Import base numbers list_numbers option gmap sets functions list.
From Verif Require Import Util Bytes BuddyModel BuddySpec PageIOModel PageIOSpec TuplesModel TuplesSpec.
From Verif Require Import DirectModel DirectBase DirectSpec DirectSeqSpec DirectSys DirectSeq DirectDrive.
Open Scope N_scope.
Ltac Zify.zify_post_hook ::= idtac.

(** Calls made one after another on a freshly formatted partition, with the index
    flusher and the device running concurrently, answer as the sequential
    specification [seq_run] says: a map from keys to the last committed object
    and a set of open uploads. *)
Theorem C21_calls_behave_like_a_map : forall c pages y0 ls y,
  cfg_ok c -> fresh_partition c pages y0 -> dsteps c y0 ls y -> valid_calls (dc_lpage c) ls ->
  one_after_another (visible ls) -> all_finished (visible ls) ->
  exists n Q, seq_run (dc_lpage c) n (visible ls) Q.
Proof.
  intros c pages y0 ls y Hc Hf Hs Hv Ho Ha. pose proof (fresh_good _ _ _ (ck_pages _ Hc) Hf) as HG.
  destruct (good_steps _ _ _ _ _ Hc Hv HG Hs) as (ls' & z' & lk & zz & H1 & H2 & _).
  rewrite <- H2 in *. destruct (seq_refines _ _ _ H1 Ho Ha) as (n & Q & H & _). eauto.
Qed.
Print Assumptions C21_calls_behave_like_a_map.

(** Any number of calls running concurrently, in every interleaving: what can be
    seen is a history of the concurrent specification, in which every call takes
    effect at one point (a write at two) between its beginning and its end. *)
Theorem C21_concurrent_calls_take_effect_atomically : forall c pages y0 ls y,
  cfg_ok c -> fresh_partition c pages y0 -> dsteps c y0 ls y -> valid_calls (dc_lpage c) ls ->
  exists ls' z', spec_steps (dc_lpage c) {| z_state := ss_empty; z_procs := [] |} ls' z' /\ visible ls' = visible ls.
Proof.
  intros c pages y0 ls y Hc Hf Hs Hv. pose proof (fresh_good _ _ _ (ck_pages _ Hc) Hf) as HG.
  destruct (good_steps _ _ _ _ _ Hc Hv HG Hs) as (ls' & z' & lk & zz & H1 & H2 & _). eauto.
Qed.
Print Assumptions C21_concurrent_calls_take_effect_atomically.

(** ** What the sequential specification says about keys *)
(** The key a call is about. *)
Definition key_of (Q : qstate) (op : dop) : option (list N) :=
  match op with
  | OCommit tok _ => qu_key <$> q_up Q !! tok
  | ODelete key _ => Some key
  | _ => None
  end.
(** A call affects no other key. *)
Theorem C21_other_keys_untouched : forall lpage Q op vs Q' key,
  answers lpage Q op vs Q' -> key_of Q op <> Some key -> q_com Q' !! key = q_com Q !! key.
Proof.
  intros lpage Q op vs Q' key Ha Hk. destruct Ha; cbn [q_new q_part q_drop q_publish q_remove q_com]; try reflexivity.
  - cbn [key_of] in Hk. rewrite H in Hk. rewrite lookup_insert_ne; [reflexivity|]. intros E. apply Hk. cbn. congruence.
  - cbn [key_of] in Hk. rewrite lookup_delete_ne; [reflexivity|]. congruence.
Qed.
Print Assumptions C21_other_keys_untouched.
(** A commit that publishes returns an id never returned before, and the key then
    has that object, of the size given at creation and with every byte written. *)
Theorem C21_commit_publishes : forall lpage Q tok ine id Q' u,
  answers lpage Q (OCommit tok ine) [VRet (RCommitted (Some id))] Q' -> q_up Q !! tok = Some u ->
  id ∉ q_ids Q /\ exists bytes,
    q_com Q' !! qu_key u = Some {| co_id := id; co_size := qu_size u; co_created := qu_created u; co_bytes := bytes |} /\
    (forall offset l i b, qu_parts u offset = Some l -> l !! i = Some b -> bytes (offset + N.of_nat i) = b) /\
    q_up Q' !! tok = None.
Proof.
  intros lpage Q tok ine id Q' u Ha Hu. inversion Ha; subst. assert (u0 = u) as -> by congruence.
  split; [assumption|]. exists bytes. cbn. rewrite lookup_insert, lookup_delete. auto.
Qed.
Print Assumptions C21_commit_publishes.
(** With if-not-exists an existing object stays and the upload is gone. *)
Theorem C21_commit_if_not_exists : forall lpage Q tok vs Q' u co,
  answers lpage Q (OCommit tok true) vs Q' -> q_up Q !! tok = Some u -> q_com Q !! qu_key u = Some co ->
  vs = [VRet (RCommitted None)] /\ q_com Q' = q_com Q /\ q_up Q' = delete tok (q_up Q).
Proof.
  intros lpage Q tok vs Q' u co Ha Hu Hco. inversion Ha; subst.
  - congruence.
  - assert (u0 = u) as -> by congruence. match goal with H : true = true -> _ |- _ => rewrite (H eq_refl) in Hco end. discriminate.
  - auto.
Qed.
Print Assumptions C21_commit_if_not_exists.
(** A delete of an existing object succeeds and the key is gone. *)
Theorem C21_delete_removes : forall lpage Q key vs Q' co,
  answers lpage Q (ODelete key None) vs Q' -> q_com Q !! key = Some co ->
  vs = [VRet RDeleted] /\ q_com Q' = delete key (q_com Q).
Proof.
  intros lpage Q key vs Q' co Ha Hco. inversion Ha; subst.
  - exfalso. match goal with H : forall co, ~ _ |- _ => apply (H co) end. split; [exact Hco|discriminate].
  - auto.
Qed.
Print Assumptions C21_delete_removes.

(** ** A run *)
(** Create, write, commit, read a range, replace by a second upload, delete. *)
Definition c21_run : list ev :=
  do_create 0 [97] 5 1 2
  ++ [ECall (OWrite 1 0 5 [Data [1; 2]; Data [3; 4; 5]])] ++ steps 1 (replicate 8 2)
  ++ [ECall (OCommit 1 false)] ++ steps 2 [2; 2; 2; 2; 3] ++ [EFlush] ++ steps 2 [3; 3]
  ++ [ECall (ORead [97] None 1 None 100)] ++ steps 3 [3; 3; 3]
  ++ do_create 4 [97] 1 3 4
  ++ [ECall (OCommit 3 true)] ++ steps 5 [4; 4; 4; 4; 4] ++ [EFlush] ++ steps 5 [4; 4; 4]
  ++ [ECall (ODelete [97] (Some 2))] ++ steps 6 [4; 4] ++ [EFlush] ++ steps 6 [4; 4; 4]
  ++ [ECall (OInspect [97] None)] ++ steps 7 [4].
Definition c21_labels : list label :=
  [LCall 0 (OCreate [97] 5); LVis 0 (VRet (RCreated 1));
   LCall 1 (OWrite 1 0 5 [Data [1; 2]; Data [3; 4; 5]]); LVis 1 (VRet RWritten);
   LCall 2 (OCommit 1 false); LVis 2 (VRet (RCommitted (Some 2)));
   LCall 3 (ORead [97] None 1 None 100); LVis 3 (VRet (RReading 2 5 1 5)); LVis 3 (VChunk [2; 3; 4; 5]); LVis 3 (VEnd RDone);
   LCall 4 (OCreate [97] 1); LVis 4 (VRet (RCreated 3));
   LCall 5 (OCommit 3 true); LVis 5 (VRet (RCommitted None));
   LCall 6 (ODelete [97] (Some 2)); LVis 6 (VRet RDeleted);
   LCall 7 (OInspect [97] None); LVis 7 (VRet (RFailed ObjectNotFound))].
Theorem C21_example : exists y0 y ls, cfg_ok (ex_cfg 10 8192) /\
  fresh_partition (ex_cfg 10 8192) (PropertiesTuples.ex_pages 1) y0 /\ dsteps (ex_cfg 10 8192) y0 ls y /\ visible ls = c21_labels /\
  valid_calls 10 ls /\ one_after_another (visible ls) /\ all_finished (visible ls).
Proof.
  destruct (ex_run_shows 10 8192 c21_run (fun _ _ => true) c21_labels true ltac:(vm_compute; reflexivity)) as (y0 & y & ls & H1 & H2 & H3 & _).
  exists y0, y, ls. split; [constructor; cbn; lia|]. split; [exact H1|]. split; [exact H2|]. split; [exact H3|].
  split; [apply valid_calls_ok; rewrite H3; reflexivity|]. rewrite H3.
  split; [apply oaa_ok; reflexivity|apply all_fin_b_ok; reflexivity].
Qed.
Print Assumptions C21_example.
