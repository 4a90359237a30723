(** Property C60: calls that run at the same time, and the order in which they
    begin and return. *)
From Coq Require Import ZifyBool ZifyNat ZifyN.
From stdpp Require Import base numbers list_numbers option gmap sets functions list.
From Verif Require Import Util Bytes PageIOModel PageIOSpec TuplesModel TuplesSpec.
From Verif Require Import DirectModel DirectBase DirectSpec DirectSeqSpec DirectSys DirectDrive DirectHistSpec DirectHist DirectRealSpec DirectReal.
From Verif Require PropertiesTuples.
Open Scope N_scope.
Ltac Zify.zify_post_hook ::= idtac.

(** What a read or inspect of [key] shows when the object there is [oid] with
    these bytes. *)
Definition shows_object (key data : list N) (oid : N) (op : dop) (vs : list vis) : Prop :=
  let len := N.of_nat (length data) in
  match op with
  | OInspect k id => k = key -> if decide (id = None \/ id = Some oid) then exists created, vs = [VRet (RInspected oid len created)]
      else vs = [VRet (RFailed ObjectNotFound)]
  | ORead k id start fin buffer => k = key ->
      if decide (id = None \/ id = Some oid) then
        if decide (start <= default len fin <= len) then
          exists chunks, vs = VRet (RReading oid len start (default len fin)) :: map VChunk chunks ++ [VEnd RDone] /\
            concat chunks = take (N.to_nat (default len fin - start)) (drop (N.to_nat start) data)
        else vs = [VRet (RFailed RangeOutOfBounds)]
      else vs = [VRet (RFailed ObjectNotFound)]
  | _ => False
  end.
(** Reads and inspects of a key. *)
Definition looks_at (key : list N) (op : dop) : Prop :=
  match op with OInspect k _ | ORead k _ _ _ _ => k = key | _ => False end.

Lemma looks_at_ok key op : looks_at key op -> looks key op.
Proof. destruct op; cbn; intros H; try contradiction; subst; unfold looks; eauto 10. Qed.

Lemma byte_range_part f data a b : bytes_at f 0 data -> a <= b -> b <= N.of_nat (length data) ->
  byte_range f a b = take (N.to_nat (b - a)) (drop (N.to_nat a) data).
Proof.
  intros H H1 H2. unfold byte_range. apply list_eq. intros i. rewrite list_lookup_fmap.
  destruct (decide (i < N.to_nat (b - a))%nat) as [Hi|Hi].
  - rewrite lookup_seq_lt by exact Hi. rewrite lookup_take by exact Hi. rewrite lookup_drop. cbn.
    destruct (data !! (N.to_nat a + i)%nat) as [x|] eqn:E.
    + rewrite <- (H _ _ E). f_equal. f_equal. lia.
    + apply lookup_ge_None in E. lia.
  - rewrite lookup_seq_ge by lia. rewrite lookup_take_ge by lia. reflexivity.
Qed.
Lemma parts_bytes L data (bytes : N -> N) : 0 < L ->
  (forall i, i * L < N.of_nat (length data) -> bytes_at bytes (i * L) (take (N.to_nat L) (drop (N.to_nat (i * L)) data))) -> bytes_at bytes 0 data.
Proof.
  intros HL Hp i b Hi. pose proof (N.div_mod (N.of_nat i) L ltac:(clear -HL; lia)) as E. pose proof (N.mod_lt (N.of_nat i) L ltac:(clear -HL; lia)) as Hm.
  set (p := N.of_nat i / L) in *. set (m := N.of_nat i mod L) in *. clearbody p m.
  pose proof (lookup_lt_Some _ _ _ Hi) as Hlt. rewrite (N.mul_comm L p) in E.
  assert (p * L < N.of_nat (length data)) as Hpl by (clear -E Hlt; lia).
  rewrite N.add_0_l, E. rewrite <- (N2Nat.id m). apply (Hp p Hpl).
  rewrite lookup_take by (clear -Hm; lia). rewrite lookup_drop. rewrite <- Hi. f_equal. clear -E. lia.
Qed.

(** A read or inspect that begins after a commit returned shows the committed
    object: its id, the size it was created with, and the bytes written to its
    parts, if no other call that may change the key overlaps the time from the
    beginning of the commit to the end of the read, and no two writes to the same part
    overlap.  Calls on other keys, and further reads, may run at any time. *)
Theorem C60_reads_after_a_commit_see_it : forall c pages y0 ls y key data tok jc ine oid ir op v,
  cfg_ok c -> fresh_partition c pages y0 -> dsteps c y0 ls y -> valid_calls (dc_lpage c) ls ->
  created_as ls tok key (N.of_nat (length data)) ->
  LCall jc (OCommit tok ine) ∈ ls ->
  (forall i, i * 2 ^ dc_lpage c < N.of_nat (length data) ->
     settled_part ls tok (i * 2 ^ dc_lpage c) (take (N.to_nat (2 ^ dc_lpage c)) (drop (N.to_nat (i * 2 ^ dc_lpage c)) data))
       (LCall jc (OCommit tok ine)) (LVis jc (VRet (RCommitted (Some oid))))) ->
  precedes ls (LVis jc (VRet (RCommitted (Some oid)))) (LCall ir op) -> looks_at key op -> LVis ir v ∈ ls -> is_final v = true ->
  (forall j op', LCall j op' ∈ ls -> may_change ls key j op' -> j <> jc -> apart ls j op' (LCall jc (OCommit tok ine)) (LVis ir v)) ->
  shows_object key data oid op (vis_of ir ls).
Proof.
  intros c pages y0 ls y key data tok jc ine oid ir op v Hc Hf Hs Hv Hcr Hcm Hset Hpre Hop Hev Hfin Hap.
  pose proof (fresh_good _ _ _ (ck_pages _ Hc) Hf) as HG.
  destruct (good_steps _ _ _ _ _ Hc Hv HG Hs) as (ls' & z' & lk & zz & H1 & H2 & _).
  assert (Hin : forall l, is_visible l = true -> l ∈ ls' <-> l ∈ ls) by (intros l Hl; rewrite <- (in_visible l ls' Hl), <- (in_visible l ls Hl), H2; reflexivity).
  destruct (spec_commit_look (dc_lpage c) ls' z' key (N.of_nat (length data)) tok jc ine oid ir op v H1) as (created & bytes & Hb & Ha).
  - apply created_visible. rewrite H2. apply created_visible. exact Hcr.
  - apply Hin; [reflexivity|exact Hcm].
  - apply precedes_visible; [reflexivity|reflexivity|]. rewrite H2. apply precedes_visible; [reflexivity|reflexivity|exact Hpre].
  - apply looks_at_ok, Hop.
  - apply Hin; [reflexivity|exact Hev].
  - exact Hfin.
  - intros j op' Hj Hm Hne. apply (Hin (LCall j op') eq_refl) in Hj.
    apply apart_visible; [reflexivity|reflexivity|]. rewrite H2. apply apart_visible; [reflexivity|reflexivity|].
    apply Hap; [exact Hj| |exact Hne]. apply may_visible. rewrite <- H2. apply may_visible. exact Hm.
  - rewrite <- (vis_of_visible ir ls), <- H2, vis_of_visible.
    assert (bytes_at bytes 0 data) as Hbytes.
    { apply (parts_bytes (2 ^ dc_lpage c)); [apply N.neq_0_lt_0, N.pow_nonzero; discriminate|]. intros i Hi. apply Hb.
      apply settled_visible; [reflexivity|reflexivity|]. rewrite H2. apply settled_visible; [reflexivity|reflexivity|]. apply Hset, Hi. }
    set (co := {| co_id := oid; co_size := N.of_nat (length data); co_created := created; co_bytes := bytes |}) in *.
    set (Q := {| q_up := ∅; q_com := {[ key := co ]}; q_ids := ∅ |} : qstate).
    specialize (Ha Q (lookup_singleton _ _)).
    assert (forall id co', q_find Q key id co' <-> co' = co /\ (id = None \/ id = Some oid)) as Hfind.
    { intros id co'. unfold q_find. change (q_com Q) with ({[ key := co ]} : gmap (list N) cobj). rewrite lookup_singleton. split.
      - intros [E1 E2]. injection E1 as <-. split; [reflexivity|]. destruct id as [x|]; [right; f_equal; exact (E2 x eq_refl)|left; reflexivity].
      - intros [-> E]. split; [reflexivity|]. intros x ->. destruct E as [E|E]; [discriminate|]. now injection E as <-. }
    destruct op; cbn [looks_at] in Hop; try contradiction; subst key0; cbn [shows_object]; intros _.
    + destruct (decide _) as [Hid|Hid]; inversion Ha; subst.
      * exfalso. match goal with H : forall co, ~ q_find _ _ _ co |- _ => apply (H co) end. apply Hfind. auto.
      * match goal with H : q_find _ _ _ _ |- _ => apply Hfind in H as [-> _] end. exists created. reflexivity.
      * reflexivity.
      * exfalso. match goal with H : q_find _ _ _ _ |- _ => apply Hfind in H as [-> H]; contradiction end.
    + destruct (decide _) as [Hid|Hid]; inversion Ha; subst.
      * exfalso. match goal with H : forall co, ~ q_find _ _ _ co |- _ => apply (H co) end. apply Hfind. auto.
      * match goal with H : q_find _ _ _ _ |- _ => apply Hfind in H as [-> _] end.
        rewrite decide_False; [reflexivity|]. cbn [co_size co] in *. lia.
      * match goal with H : q_find _ _ _ _ |- _ => apply Hfind in H as [-> _] end. cbn [co_size co co_id co_bytes] in *.
        rewrite decide_True by assumption. exists chunks. split; [reflexivity|]. rewrite <- byte_range_part with (f := bytes); [assumption|assumption|lia|lia].
      * reflexivity.
      * exfalso. match goal with H : q_find _ _ _ _ |- _ => apply Hfind in H as [-> H]; contradiction end.
      * exfalso. match goal with H : q_find _ _ _ _ |- _ => apply Hfind in H as [-> H]; contradiction end.
Qed.
Print Assumptions C60_reads_after_a_commit_see_it.

(** A read or inspect that begins after a delete returned (having deleted the
    object, or found none) finds nothing, if no other call that may change the key
    overlaps the time from the beginning of the delete to the end of the read. *)
Theorem C60_reads_after_a_delete_find_nothing : forall c pages y0 ls y key jd rd ir op v,
  cfg_ok c -> fresh_partition c pages y0 -> dsteps c y0 ls y -> valid_calls (dc_lpage c) ls ->
  LCall jd (ODelete key None) ∈ ls -> rd = RDeleted \/ rd = RFailed ObjectNotFound ->
  precedes ls (LVis jd (VRet rd)) (LCall ir op) -> looks_at key op -> LVis ir v ∈ ls -> is_final v = true ->
  (forall j op', LCall j op' ∈ ls -> may_change ls key j op' -> j <> jd -> apart ls j op' (LCall jd (ODelete key None)) (LVis ir v)) ->
  vis_of ir ls = [VRet (RFailed ObjectNotFound)].
Proof.
  intros c pages y0 ls y key jd rd ir op v Hc Hf Hs Hv Hd Hrd Hpre Hop Hev Hfin Hap.
  pose proof (fresh_good _ _ _ (ck_pages _ Hc) Hf) as HG.
  destruct (good_steps _ _ _ _ _ Hc Hv HG Hs) as (ls' & z' & lk & zz & H1 & H2 & _).
  assert (Hin : forall l, is_visible l = true -> l ∈ ls' <-> l ∈ ls) by (intros l Hl; rewrite <- (in_visible l ls' Hl), <- (in_visible l ls Hl), H2; reflexivity).
  rewrite <- (vis_of_visible ir ls), <- H2, vis_of_visible.
  apply (spec_delete_look (dc_lpage c) ls' z' key jd rd ir op v H1).
  - apply Hin; [reflexivity|exact Hd].
  - exact Hrd.
  - apply precedes_visible; [reflexivity|reflexivity|]. rewrite H2. apply precedes_visible; [reflexivity|reflexivity|exact Hpre].
  - apply looks_at_ok, Hop.
  - apply Hin; [reflexivity|exact Hev].
  - exact Hfin.
  - intros j op' Hj Hm Hne. apply (Hin (LCall j op') eq_refl) in Hj.
    apply apart_visible; [reflexivity|reflexivity|]. rewrite H2. apply apart_visible; [reflexivity|reflexivity|].
    apply Hap; [exact Hj| |exact Hne]. apply may_visible. rewrite <- H2. apply may_visible. exact Hm.
Qed.
Print Assumptions C60_reads_after_a_delete_find_nothing.

(** ** A run *)
(** Two uploads; while the second is being committed the first is committed, read and
    deleted. *)
Definition c60_run : list ev :=
  do_create 0 [97] 5 1 2 ++ do_create 1 [98] 1 2 3
  ++ [ECall (OWrite 1 0 5 [Data [1; 2]; Data [3; 4; 5]])] ++ steps 2 (replicate 8 3)
  ++ [ECall (OCommit 1 false); ECall (OCommit 2 false)] ++ steps 3 [3; 3] ++ steps 4 [3; 3] ++ steps 3 [3; 3; 4] ++ [EFlush] ++ steps 3 [4; 4]
  ++ [ECall (ORead [97] None 1 None 100)] ++ steps 5 [4] ++ steps 4 [4; 4; 5] ++ steps 5 [5] ++ [EFlush] ++ steps 4 [5; 5] ++ steps 5 [5]
  ++ [ECall (ODelete [97] None)] ++ steps 6 [5; 5] ++ [EFlush] ++ steps 6 [5; 5; 5]
  ++ [ECall (OInspect [97] None); ECall (OInspect [98] None)] ++ steps 8 [5] ++ steps 7 [5].
Definition c60_labels : list label :=
  [LCall 0 (OCreate [97] 5); LVis 0 (VRet (RCreated 1));
   LCall 1 (OCreate [98] 1); LVis 1 (VRet (RCreated 2));
   LCall 2 (OWrite 1 0 5 [Data [1; 2]; Data [3; 4; 5]]); LVis 2 (VRet RWritten);
   LCall 3 (OCommit 1 false); LCall 4 (OCommit 2 false); LVis 3 (VRet (RCommitted (Some 3)));
   LCall 5 (ORead [97] None 1 None 100); LVis 5 (VRet (RReading 3 5 1 5)); LVis 5 (VChunk [2; 3; 4; 5]);
   LVis 4 (VRet (RCommitted (Some 4))); LVis 5 (VEnd RDone);
   LCall 6 (ODelete [97] None); LVis 6 (VRet RDeleted);
   LCall 7 (OInspect [97] None); LCall 8 (OInspect [98] None); LVis 8 (VRet (RInspected 4 1 7)); LVis 7 (VRet (RFailed ObjectNotFound))].
Definition index_ltb (p q : nat) : bool := (p <? q)%nat.
Lemma prec_at {A} (ls : list A) p q a b : ls !! p = Some a -> ls !! q = Some b -> index_ltb p q = true -> precedes ls a b.
Proof. intros H1 H2 H3. apply precedes_index. exists p, q. split; [now apply Nat.ltb_lt|]. auto. Qed.
Ltac in_list H := cbv [c60_labels] in H; repeat (apply elem_of_cons in H as [H|H]; [try discriminate H|]); [..|now apply elem_of_nil in H].
Lemma c60_created tok key size : created_as c60_labels tok key size -> tok = 1 /\ key = [97] /\ size = 5 \/ tok = 2 /\ key = [98] /\ size = 1.
Proof.
  intros (i & H1 & H2). in_list H1; injection H1 as -> -> ->; in_list H2; injection H2; intros; subst; auto; discriminate.
Qed.
Theorem C60_example : exists c pages y0 ls y,
  cfg_ok c /\ fresh_partition c pages y0 /\ dsteps c y0 ls y /\ valid_calls (dc_lpage c) ls /\ visible ls = c60_labels /\
  (* the read *)
  (created_as ls 1 [97] (N.of_nat (length [1; 2; 3; 4; 5])) /\ LCall 3 (OCommit 1 false) ∈ ls /\
   (forall i, i * 2 ^ dc_lpage c < N.of_nat (length [1; 2; 3; 4; 5]) ->
      settled_part ls 1 (i * 2 ^ dc_lpage c) (take (N.to_nat (2 ^ dc_lpage c)) (drop (N.to_nat (i * 2 ^ dc_lpage c)) [1; 2; 3; 4; 5]))
        (LCall 3 (OCommit 1 false)) (LVis 3 (VRet (RCommitted (Some 3))))) /\
   precedes ls (LVis 3 (VRet (RCommitted (Some 3)))) (LCall 5 (ORead [97] None 1 None 100)) /\ LVis 5 (VEnd RDone) ∈ ls /\
   (forall j op', LCall j op' ∈ ls -> may_change ls [97] j op' -> j <> 3%nat -> apart ls j op' (LCall 3 (OCommit 1 false)) (LVis 5 (VEnd RDone)))) /\
  (* the inspect *)
  (LCall 6 (ODelete [97] None) ∈ ls /\ precedes ls (LVis 6 (VRet RDeleted)) (LCall 7 (OInspect [97] None)) /\
   LVis 7 (VRet (RFailed ObjectNotFound)) ∈ ls /\
   (forall j op', LCall j op' ∈ ls -> may_change ls [97] j op' -> j <> 6%nat ->
      apart ls j op' (LCall 6 (ODelete [97] None)) (LVis 7 (VRet (RFailed ObjectNotFound))))).
Proof.
  destruct (ex_run_shows 10 8192 c60_run (fun _ _ => tt) c60_labels tt ltac:(vm_compute; reflexivity)) as (y0 & y & ls & H1 & H2 & H3 & _).
  exists (ex_cfg 10 8192), (PropertiesTuples.ex_pages 1), y0, ls, y. split; [constructor; cbn; lia|]. split; [exact H1|]. split; [exact H2|].
  split; [apply valid_calls_ok; rewrite H3; reflexivity|]. split; [exact H3|].
  assert (Hin : forall l, is_visible l = true -> l ∈ ls <-> l ∈ c60_labels) by (intros l Hl; rewrite <- (in_visible l ls Hl), H3; reflexivity).
  assert (Hpr : forall a b, is_visible a = true -> is_visible b = true -> precedes c60_labels a b -> precedes ls a b)
    by (intros a b Ha Hb H; apply precedes_visible; [exact Ha|exact Hb|rewrite H3; exact H]).
  assert (Hmay : forall j op', LCall j op' ∈ ls -> may_change ls [97] j op' -> (j = 3%nat /\ op' = OCommit 1 false) \/ (j = 6%nat /\ op' = ODelete [97] None)).
  { intros j op' Hj Hm. apply (Hin (LCall j op') eq_refl) in Hj. apply may_visible in Hm. rewrite H3 in Hm.
    in_list Hj; injection Hj as -> ->; destruct Hm as [Hm _]; try contradiction Hm; auto; try discriminate Hm.
    destruct Hm as [size Hm]. apply c60_created in Hm as [(? & ? & ?)|(? & ? & ?)]; discriminate. }
  split.
  - split; [|split; [|split; [|split; [|split]]]].
    + apply created_visible. rewrite H3. exists 0%nat. split; apply elem_of_list_lookup; [exists 0%nat|exists 1%nat]; reflexivity.
    + apply Hin; [reflexivity|]. apply elem_of_list_lookup. exists 6%nat. reflexivity.
    + intros i Hi. assert (i = 0) as -> by (clear -Hi; cbn in Hi; lia). apply settled_visible; [reflexivity|reflexivity|]. rewrite H3.
      exists 2%nat, 5, [Data [1; 2]; Data [3; 4; 5]]. split; [apply elem_of_list_lookup; exists 4%nat; reflexivity|].
      split; [eapply (prec_at _ 5 6); reflexivity|]. split; [reflexivity|].
      intros j len' st' Hj Hne. in_list Hj. injection Hj as -> -> ->. now contradiction Hne.
    + apply Hpr; [reflexivity|reflexivity|]. eapply (prec_at _ 8 9); reflexivity.
    + apply Hin; [reflexivity|]. apply elem_of_list_lookup. exists 13%nat. reflexivity.
    + intros j op' Hj Hm Hne. destruct (Hmay _ _ Hj Hm) as [[-> ->]|[-> ->]]; [now contradiction Hne|].
      right. apply Hpr; [reflexivity|reflexivity|]. eapply (prec_at _ 13 14); reflexivity.
  - split; [|split; [|split]].
    + apply Hin; [reflexivity|]. apply elem_of_list_lookup. exists 14%nat. reflexivity.
    + apply Hpr; [reflexivity|reflexivity|]. eapply (prec_at _ 15 16); reflexivity.
    + apply Hin; [reflexivity|]. apply elem_of_list_lookup. exists 19%nat. reflexivity.
    + intros j op' Hj Hm Hne. destruct (Hmay _ _ Hj Hm) as [[-> ->]|[-> ->]]; [|now contradiction Hne].
      left. exists (VRet (RCommitted (Some 3))). split; [reflexivity|]. apply Hpr; [reflexivity|reflexivity|]. eapply (prec_at _ 8 14); reflexivity.
Qed.
Print Assumptions C60_example.
