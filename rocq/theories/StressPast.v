(** What a run of the stress tester says about the store, whatever the store. *)
From Coq Require Import ZifyBool ZifyNat ZifyN.
From stdpp Require Import base numbers option gmap sets functions list.
From Verif Require Import Util Bytes PageIOModel PageIOSpec DirectModel DirectSpec DirectBase DirectSeqSpec StressModel StressSpec StressProofs StressOwn StressSys.
Open Scope N_scope.
Ltac Zify.zify_post_hook ::= idtac.

Lemma results_snoc_call ls i j op : results (ls ++ [LCall j op]) i = results ls i.
Proof. unfold results. rewrite omap_app. apply app_nil_r. Qed.
Lemma results_snoc_tau ls i : results (ls ++ [LTau]) i = results ls i.
Proof. unfold results. rewrite omap_app. apply app_nil_r. Qed.
Lemma results_snoc_same ls i v : results (ls ++ [LVis i v]) i = results ls i ++ [v].
Proof. unfold results. rewrite omap_app. cbn. rewrite decide_True by reflexivity. reflexivity. Qed.
Lemma results_snoc_ne ls i j v : j <> i -> results (ls ++ [LVis j v]) i = results ls i.
Proof. intros H. unfold results. rewrite omap_app. cbn. rewrite decide_False by exact H. apply app_nil_r. Qed.
Lemma in_results ls i v : v ∈ results ls i <-> LVis i v ∈ ls.
Proof.
  unfold results. rewrite elem_of_list_omap. split.
  - intros (l & Hl & E). destruct l as [j op|j w|]; try discriminate E. destruct (decide (j = i)) as [->|]; [|discriminate E]. injection E as ->. exact Hl.
  - intros H. exists (LVis i v). split; [exact H|]. now rewrite decide_True.
Qed.
Lemma finished_snoc ls l i : finished ls i -> finished (ls ++ [l]) i.
Proof. intros (v & H & Hv). exists v. split; [apply elem_of_app; now left|exact Hv]. Qed.
(** The label is not an item of a call that has ended. *)
Definition lively (ls : list label) (l : label) : Prop := forall i v, l = LVis i v -> ~ finished ls i.
Lemma did_snoc ls l i op vs : lively ls l -> did ls i op vs -> did (ls ++ [l]) i op vs.
Proof.
  intros Hl (H1 & H2 & H3). split; [apply elem_of_app; now left|]. split; [|now apply finished_snoc].
  destruct l as [j op'|j v|]; [rewrite results_snoc_call; exact H2| |rewrite results_snoc_tau; exact H2].
  rewrite results_snoc_ne; [exact H2|]. intros ->. exact (Hl _ _ eq_refl H3).
Qed.

(** How an object got to a task ([None]: all done). *)
Inductive came (g : stcfg) (ls : list label) (k : nat) : option task -> Prop :=
| cm_start : came g ls k (Some TCreate)
| cm_next i t fin op vs t' : came g ls k (Some t) -> picks g k t fin -> task_call g k t fin = Some op -> did ls i op vs -> after g k t fin vs = Next t' -> came g ls k (Some t')
| cm_over i t fin op vs : came g ls k (Some t) -> picks g k t fin -> task_call g k t fin = Some op -> did ls i op vs -> after g k t fin vs = Over -> came g ls k None.
Lemma came_snoc g ls l k o : lively ls l -> came g ls k o -> came g (ls ++ [l]) k o.
Proof.
  intros Hl H. induction H as [|i t fin op vs t' H IH H1 H2 H3 H4|i t fin op vs H IH H1 H2 H3 H4]; [apply cm_start|eapply cm_next|eapply cm_over]; eauto using did_snoc.
Qed.
Definition came_to (g : stcfg) (ls : list label) (k : nat) (st : tstate) : Prop :=
  match st with
  | TQueued t => came g ls k (Some t)
  | TRunning i t fin seen => came g ls k (Some t) /\ picks g k t fin /\ (exists op, task_call g k t fin = Some op /\ LCall i op ∈ ls) /\ results ls i = seen /\ ~ finished ls i
  | TOver => came g ls k None
  | TFailed => True
  end.
Definition noticed (g : stcfg) (ls : list label) (ts : list tstate) (i : nat) (op : dop) : Prop :=
  exists k t fin, (k < sg_objects g)%nat /\ picks g k t fin /\ task_call g k t fin = Some op /\
    (ts !! k = Some (TRunning i t fin (results ls i)) \/ finished ls i /\ (after g k t fin (results ls i) = Panic -> ts !! k = Some TFailed)).
Record Past (g : stcfg) (ls : list label) (ts : list tstate) : Prop := {
  pa_len : length ts = sg_objects g;
  pa_called : forall i v, LVis i v ∈ ls -> exists op, LCall i op ∈ ls;
  pa_came : forall k st, ts !! k = Some st -> came_to g ls k st;
  pa_idx : forall k k' i t fin seen t' fin' seen', ts !! k = Some (TRunning i t fin seen) -> ts !! k' = Some (TRunning i t' fin' seen') -> k = k';
  pa_noticed : forall i op, LCall i op ∈ ls -> noticed g ls ts i op;
}.
Lemma came_to_snoc g ls l k st : lively ls l -> (forall i v t fin seen, l = LVis i v -> st <> TRunning i t fin seen) -> came_to g ls k st -> came_to g (ls ++ [l]) k st.
Proof.
  intros Hl Hn. destruct st as [t|i t fin seen| |]; cbn [came_to]; try (now apply came_snoc); [|auto]. intros (H1 & H2 & (op & H3 & H4) & H5 & H6).
  split; [now apply came_snoc|]. split; [exact H2|]. split; [exists op; split; [exact H3|apply elem_of_app; now left]|].
  destruct l as [j op'|j v|].
  - rewrite results_snoc_call. split; [exact H5|]. intros (v & Hv & Hf). apply elem_of_app in Hv as [Hv|Hv]; [apply H6; exists v; auto|]. apply elem_of_list_singleton in Hv. discriminate Hv.
  - assert (j <> i) as Hji by (intros ->; exact (Hn _ _ _ _ _ eq_refl eq_refl)). rewrite results_snoc_ne by exact Hji. split; [exact H5|].
    intros (v' & Hv & Hf). apply elem_of_app in Hv as [Hv|Hv]; [apply H6; exists v'; auto|]. apply elem_of_list_singleton in Hv. congruence.
  - rewrite results_snoc_tau. split; [exact H5|]. intros (v & Hv & Hf). apply elem_of_app in Hv as [Hv|Hv]; [apply H6; exists v; auto|]. apply elem_of_list_singleton in Hv. discriminate Hv.
Qed.

Lemma past g ls ts : stress g ls ts -> Past g ls ts.
Proof.
  induction 1 as [|ls ts k t fin i op H IH H1 H2 H3 H4|ls ts k t fin H IH H1 H2 H3|ls ts k t fin i seen v H IH H1 H2|ls ts k t fin i seen v H IH H1 H2|ls ts H IH].
  - constructor.
    + apply replicate_length.
    + intros i v Hin. inversion Hin.
    + intros k st Hk. apply lookup_replicate in Hk as [-> _]. apply cm_start.
    + intros k k' i t fin seen t' fin' seen' Hk. apply lookup_replicate in Hk as [Hk _]. discriminate Hk.
    + intros i op Hin. inversion Hin.
  - destruct IH as [I1 I2 I3 I4 I5]. assert (Hl : lively ls (LCall i op)) by (intros j v E; discriminate E).
    assert (Hltk : (k < length ts)%nat) by (eapply lookup_lt_Some; exact H1).
    assert (Hnv : forall v, LVis i v ∉ ls) by (intros v Hv; destruct (I2 _ _ Hv) as (op' & Hop'); exact (H4 _ Hop')).
    assert (Hr : results ls i = []).
    { destruct (results ls i) as [|v vs] eqn:E; [reflexivity|]. exfalso. apply (Hnv v). apply in_results. rewrite E. constructor. }
    assert (Hni : forall k' t' fin' seen', ts !! k' = Some (TRunning i t' fin' seen') -> False).
    { intros k' t' fin' seen' Hk'. destruct (I3 _ _ Hk') as (_ & _ & (op' & _ & Hop') & _). exact (H4 _ Hop'). }
    constructor.
    + rewrite insert_length. exact I1.
    + intros j v Hv. apply elem_of_app in Hv as [Hv|Hv]; [|apply elem_of_list_singleton in Hv; discriminate Hv]. destruct (I2 _ _ Hv) as (op' & Hop'). exists op'. apply elem_of_app. now left.
    + intros k' st Hk'. apply insert_cases in Hk' as [[<- ->]|[Hne Hk']].
      * cbn [came_to]. split; [apply came_snoc; [exact Hl|]; exact (I3 _ _ H1)|]. split; [exact H2|]. split; [exists op; split; [exact H3|apply elem_of_app; right; constructor]|].
        rewrite results_snoc_call. split; [exact Hr|]. intros (v & Hv & _). apply elem_of_app in Hv as [Hv|Hv]; [exact (Hnv _ Hv)|]. apply elem_of_list_singleton in Hv. discriminate Hv.
      * apply came_to_snoc; [exact Hl|discriminate|]. exact (I3 _ _ Hk').
    + intros k1 k2 j t1 fin1 seen1 t2 fin2 seen2 K1 K2. apply insert_cases in K1 as [[<- E1]|[Hn1 K1]]; apply insert_cases in K2 as [[<- E2]|[Hn2 K2]].
      * reflexivity.
      * injection E1 as -> -> -> ->. exfalso. eapply Hni; exact K2.
      * injection E2 as -> -> -> ->. exfalso. eapply Hni; exact K1.
      * exact (I4 _ _ _ _ _ _ _ _ _ K1 K2).
    + intros j op' Hin. apply elem_of_app in Hin as [Hin|Hin].
      * destruct (I5 _ _ Hin) as (k' & t' & fin' & Hk' & Hp' & Hc' & Hd'). exists k', t', fin'. split; [exact Hk'|]. split; [exact Hp'|]. split; [exact Hc'|]. rewrite results_snoc_call.
        destruct Hd' as [Hd'|[Hd1 Hd2]].
        -- left. rewrite list_lookup_insert_ne; [exact Hd'|]. intros ->. congruence.
        -- right. split; [now apply finished_snoc|]. intros E. rewrite list_lookup_insert_ne; [auto|]. intros ->. specialize (Hd2 E). congruence.
      * apply elem_of_list_singleton in Hin. injection Hin as -> ->. exists k, t, fin. split; [lia|]. split; [exact H2|]. split; [exact H3|]. left. rewrite results_snoc_call, Hr. now apply list_lookup_insert.
  - destruct IH as [I1 I2 I3 I4 I5]. assert (Hltk : (k < length ts)%nat) by (eapply lookup_lt_Some; exact H1). constructor.
    + rewrite insert_length. exact I1.
    + exact I2.
    + intros k' st Hk'. apply insert_cases in Hk' as [[<- ->]|[Hne Hk']]; [exact I|exact (I3 _ _ Hk')].
    + intros k1 k2 j t1 fin1 seen1 t2 fin2 seen2 K1 K2. apply insert_cases in K1 as [[<- E1]|[Hn1 K1]]; [discriminate E1|]. apply insert_cases in K2 as [[<- E2]|[Hn2 K2]]; [discriminate E2|].
      exact (I4 _ _ _ _ _ _ _ _ _ K1 K2).
    + intros j op' Hin. destruct (I5 _ _ Hin) as (k' & t' & fin' & Hk' & Hp' & Hc' & Hd'). exists k', t', fin'. split; [exact Hk'|]. split; [exact Hp'|]. split; [exact Hc'|].
      destruct Hd' as [Hd'|[Hd1 Hd2]].
      * left. rewrite list_lookup_insert_ne; [exact Hd'|]. intros ->. congruence.
      * right. split; [exact Hd1|]. intros E. specialize (Hd2 E). rewrite list_lookup_insert_ne; [exact Hd2|]. intros ->. congruence.
  - destruct IH as [I1 I2 I3 I4 I5]. destruct (I3 _ _ H1) as (C1 & C2 & (op & C3 & C4) & C5 & C6).
    assert (Hltk : (k < length ts)%nat) by (eapply lookup_lt_Some; exact H1). assert (Hl : lively ls (LVis i v)) by (intros j w E; injection E as -> ->; exact C6). constructor.
    + rewrite insert_length. exact I1.
    + intros j w Hw. apply elem_of_app in Hw as [Hw|Hw].
      * destruct (I2 _ _ Hw) as (op' & Hop'). exists op'. apply elem_of_app. now left.
      * apply elem_of_list_singleton in Hw. injection Hw as -> ->. exists op. apply elem_of_app. now left.
    + intros k' st Hk'. apply insert_cases in Hk' as [[<- ->]|[Hne Hk']].
      * cbn [came_to]. split; [now apply came_snoc|]. split; [exact C2|]. split; [exists op; split; [exact C3|apply elem_of_app; now left]|].
        rewrite results_snoc_same, C5. split; [reflexivity|]. intros (w & Hw & Hf). apply elem_of_app in Hw as [Hw|Hw]; [apply C6; exists w; auto|]. apply elem_of_list_singleton in Hw. congruence.
      * apply came_to_snoc; [exact Hl| |exact (I3 _ _ Hk')]. intros j w t' fin' seen' E ->. injection E as -> ->. apply Hne. eapply I4; [exact H1|exact Hk'].
    + assert (Hidx : forall k1 t1 fin1 seen1, ts !! k1 = Some (TRunning i t1 fin1 seen1) -> k1 = k) by (intros; eapply I4; eassumption).
      intros k1 k2 j t1 fin1 seen1 t2 fin2 seen2 K1 K2. apply insert_cases in K1 as [[<- E1]|[Hn1 K1]]; apply insert_cases in K2 as [[<- E2]|[Hn2 K2]].
      * reflexivity.
      * injection E1 as -> -> -> ->. symmetry. eapply Hidx; exact K2.
      * injection E2 as -> -> -> ->. eapply Hidx; exact K1.
      * exact (I4 _ _ _ _ _ _ _ _ _ K1 K2).
    + intros j op' Hin. apply elem_of_app in Hin as [Hin|Hin]; [|apply elem_of_list_singleton in Hin; discriminate Hin].
      destruct (I5 _ _ Hin) as (k' & t' & fin' & Hk' & Hp' & Hc' & Hd'). exists k', t', fin'. split; [exact Hk'|]. split; [exact Hp'|]. split; [exact Hc'|].
      destruct (decide (j = i)) as [->|Hji].
      * left. rewrite results_snoc_same. destruct Hd' as [Hd'|[Hd1 _]]; [|contradiction]. assert (k' = k) as -> by (eapply I4; [exact Hd'|exact H1]).
        assert (TRunning i t' fin' (results ls i) = TRunning i t fin seen) as E by congruence. injection E as -> -> ->. now apply list_lookup_insert.
      * rewrite results_snoc_ne by congruence. destruct Hd' as [Hd'|[Hd1 Hd2]].
        -- left. rewrite list_lookup_insert_ne; [exact Hd'|]. intros ->. congruence.
        -- right. split; [now apply finished_snoc|]. intros E. specialize (Hd2 E). rewrite list_lookup_insert_ne; [exact Hd2|]. intros ->. congruence.
  - destruct IH as [I1 I2 I3 I4 I5]. destruct (I3 _ _ H1) as (C1 & C2 & (op & C3 & C4) & C5 & C6).
    assert (Hltk : (k < length ts)%nat) by (eapply lookup_lt_Some; exact H1). assert (Hl : lively ls (LVis i v)) by (intros j w E; injection E as -> ->; exact C6).
    assert (Hfin : finished (ls ++ [LVis i v]) i) by (exists v; split; [apply elem_of_app; right; constructor|exact H2]). constructor.
    + rewrite insert_length. exact I1.
    + intros j w Hw. apply elem_of_app in Hw as [Hw|Hw].
      * destruct (I2 _ _ Hw) as (op' & Hop'). exists op'. apply elem_of_app. now left.
      * apply elem_of_list_singleton in Hw. injection Hw as -> ->. exists op. apply elem_of_app. now left.
    + intros k' st Hk'. apply insert_cases in Hk' as [[<- ->]|[Hne Hk']].
      * assert (Hd : did (ls ++ [LVis i v]) i op (seen ++ [v])) by (split; [apply elem_of_app; now left|]; split; [rewrite results_snoc_same, C5; reflexivity|exact Hfin]).
        destruct (after g k t fin (seen ++ [v])) as [t'| |] eqn:E; cbn [state_of came_to]; [|..|exact I].
        -- eapply cm_next; [apply came_snoc; [exact Hl|exact C1]|exact C2|exact C3|exact Hd|exact E].
        -- eapply cm_over; [apply came_snoc; [exact Hl|exact C1]|exact C2|exact C3|exact Hd|exact E].
      * apply came_to_snoc; [exact Hl| |exact (I3 _ _ Hk')]. intros j w t' fin' seen' E ->. injection E as -> ->. apply Hne. eapply I4; [exact H1|exact Hk'].
    + assert (Hno : forall j t1 fin1 seen1, state_of (after g k t fin (seen ++ [v])) <> TRunning j t1 fin1 seen1) by (intros; destruct (after g k t fin (seen ++ [v])); discriminate).
      intros k1 k2 j t1 fin1 seen1 t2 fin2 seen2 K1 K2. apply insert_cases in K1 as [[<- E1]|[Hn1 K1]]; [exfalso; eapply Hno; symmetry; exact E1|].
      apply insert_cases in K2 as [[<- E2]|[Hn2 K2]]; [exfalso; eapply Hno; symmetry; exact E2|]. exact (I4 _ _ _ _ _ _ _ _ _ K1 K2).
    + intros j op' Hin. apply elem_of_app in Hin as [Hin|Hin]; [|apply elem_of_list_singleton in Hin; discriminate Hin].
      destruct (I5 _ _ Hin) as (k' & t' & fin' & Hk' & Hp' & Hc' & Hd'). exists k', t', fin'. split; [exact Hk'|]. split; [exact Hp'|]. split; [exact Hc'|].
      destruct (decide (j = i)) as [->|Hji].
      * right. split; [exact Hfin|]. rewrite results_snoc_same. destruct Hd' as [Hd'|[Hd1 _]]; [|contradiction]. assert (k' = k) as -> by (eapply I4; [exact Hd'|exact H1]).
        assert (TRunning i t' fin' (results ls i) = TRunning i t fin seen) as E by congruence. injection E as -> -> ->. intros ->. now apply list_lookup_insert.
      * rewrite results_snoc_ne by congruence. destruct Hd' as [Hd'|[Hd1 Hd2]].
        -- left. rewrite list_lookup_insert_ne; [exact Hd'|]. intros ->. congruence.
        -- right. split; [now apply finished_snoc|]. intros E. specialize (Hd2 E). rewrite list_lookup_insert_ne; [exact Hd2|]. intros ->. congruence.
  - destruct IH as [I1 I2 I3 I4 I5]. assert (Hl : lively ls LTau) by (intros j v E; discriminate E). constructor.
    + exact I1.
    + intros j v Hv. apply elem_of_app in Hv as [Hv|Hv]; [|apply elem_of_list_singleton in Hv; discriminate Hv]. destruct (I2 _ _ Hv) as (op' & Hop'). exists op'. apply elem_of_app. now left.
    + intros k st Hk. apply came_to_snoc; [exact Hl|discriminate|exact (I3 _ _ Hk)].
    + exact I4.
    + intros j op' Hin. apply elem_of_app in Hin as [Hin|Hin]; [|apply elem_of_list_singleton in Hin; discriminate Hin].
      destruct (I5 _ _ Hin) as (k' & t' & fin' & Hk' & Hp' & Hc' & Hd'). exists k', t', fin'. rewrite results_snoc_tau. split; [exact Hk'|]. split; [exact Hp'|]. split; [exact Hc'|].
      destruct Hd' as [Hd'|[Hd1 Hd2]]; [left; exact Hd'|right]. split; [now apply finished_snoc|exact Hd2].
Qed.

Section Tested.
  Context (g : stcfg) (lpage : N) (Hg : stress_cfg g lpage) (ls : list label) (k : nat) (key : list N) (Hkey : ob_key g k = Some key).
  Lemma check_chunks_inv fin chunks off off' : off <= fin -> fin <= ob_len g k -> check_chunks g k off fin chunks = Some off' -> off <= off' /\ off' <= fin /\ concat chunks = slice (ob_data g k) off off'.
  Proof using Hg.
    intros H1 H2. revert off H1. induction chunks as [|chunk chunks IH]; intros off H1 H.
    - cbn [check_chunks] in H. injection H as ->. split; [lia|]. split; [exact H1|]. unfold slice. rewrite N.sub_diag. reflexivity.
    - cbn [check_chunks] in H. set (len := N.of_nat (length chunk)) in *. destruct (pool_get g (ob_offset g k + off) len) as [ex|] eqn:E; [|discriminate H]. cbn [mbind option_bind] in H.
      destruct (decide (chunk = ex)) as [<-|]; [|discriminate H]. destruct (N.leb_spec (off + len) fin) as [Hle|]; [|discriminate H].
      rewrite (pool_data _ _ Hg) in E by lia. apply (inj Some) in E. apply IH in H as (H3 & H4 & H5); [|exact Hle]. split; [lia|]. split; [exact H4|]. cbn [concat]. rewrite H5, <- E.
      apply slice_app; lia.
  Qed.
  Lemma stream_of_inv vs chunks : stream_of vs = Some chunks -> vs = map VChunk chunks ++ [VEnd RDone].
  Proof using.
    revert chunks. induction vs as [|v vs IH]; intros chunks H; [discriminate H|]. cbn [stream_of] in H. destruct v as [r|chunk|r]; [discriminate H| |].
    - destruct (stream_of vs) as [chunks'|]; [|discriminate H]. cbn [mbind option_bind] in H. injection H as <-. rewrite (IH _ eq_refl). reflexivity.
    - destruct r; try discriminate H. destruct vs; [|discriminate H]. injection H as <-. reflexivity.
  Qed.
  Definition written_to (tok off : N) : Prop :=
    forall j, j * sg_lpage g < off ->
      let part := slice (ob_data g k) (j * sg_lpage g) (N.min (j * sg_lpage g + sg_lpage g) (ob_len g k)) in
      some_call ls (OWrite tok (j * sg_lpage g) (N.of_nat (length part)) [Data part]) [VRet RWritten].
  Definition created (tok : N) : Prop := some_call ls (OCreate key (ob_len g k)) [VRet (RCreated tok)].
  Definition committed (id : option N) : Prop :=
    exists tok id', id = Some id' /\ created tok /\ written_to tok (ob_len g k) /\ some_call ls (OCommit tok false) [VRet (RCommitted (Some id'))].
  Definition inspected (id : option N) : Prop := exists id' t, id = Some id' /\ some_call ls (OInspect key id) [VRet (RInspected id' (ob_len g k) t)].
  Definition was_read (id : option N) (off : N) : Prop :=
    forall p, p < off -> exists a fin x y z w chunks, a <= p < fin /\
      some_call ls (ORead key id a (Some fin) 16384) (VRet (RReading x y z w) :: map VChunk chunks ++ [VEnd RDone]) /\ concat chunks = slice (ob_data g k) a fin.
  Definition stage (o : option task) : Prop :=
    match o with
    | Some TCreate => True
    | Some (TWrite tok off) => created tok /\ at_part g k off /\ written_to tok off
    | Some (TCommit tok) => created tok /\ written_to tok (ob_len g k)
    | Some (TInspect id) => committed id
    | Some (TRead id off) => committed id /\ inspected id /\ off < ob_len g k /\ was_read id off
    | Some (TDelete id) => committed id /\ inspected id /\ was_read id (ob_len g k)
    | None => exists id, committed id /\ inspected id /\ was_read id (ob_len g k) /\ some_call ls (ODelete key id) [VRet RDeleted]
    end.
  Lemma came_stage o : came g ls k o -> stage o.
  Proof using Hg Hkey.
    pose proof (lpage_pos _ _ Hg) as HP. pose proof (ob_len_bound _ _ Hg k) as HB. pose proof (ob_data_length _ _ Hg k) as HL.
    induction 1 as [|i t fin op vs t' H IH H1 H2 H3 H4|i t fin op vs H IH H1 H2 H3 H4]; [exact I|..].
    - unfold task_call in H2. rewrite Hkey in H2. cbn [mbind option_bind] in H2. destruct t as [|tok off|tok|id|id off|id].
      + apply (inj Some) in H2 as <-. cbn [after] in H4. destruct vs as [|[[]| |] [|]]; try discriminate H4. injection H4 as <-. cbn [stage]. split; [exists i; exact H3|].
        split; [split; [lia|exists 0; lia]|]. intros j Hj. lia.
      + cbn [stage] in IH. destruct IH as (I1 & [I2 [j0 I2']] & I3). pose proof (chunk_len_ok g k off I2) as Hcl. rewrite (pool_data _ _ Hg) in H2 by lia.
        cbn [mbind option_bind] in H2. apply (inj Some) in H2 as <-. rewrite Hcl in H3. cbn [after] in H4. destruct vs as [|[[]| |] [|]]; try discriminate H4.
        assert (Hw : written_to tok (off + sg_lpage g)).
        { intros j Hj part. destruct (decide (j = j0)) as [->|Hne]; [subst part; rewrite <- I2'; exists i; exact H3|]. apply I3. rewrite I2' in *. apply N.mul_lt_mono_pos_r; [exact HP|].
          assert (j < j0 + 1); [|lia]. apply (N.mul_lt_mono_pos_r (sg_lpage g)); [exact HP|lia]. }
        destruct (N.ltb_spec (off + sg_lpage g) (ob_len g k)) as [Hlt|Hge]; injection H4 as <-; cbn [stage].
        * split; [exact I1|]. split; [|exact Hw]. split; [exact Hlt|exists (j0 + 1); lia].
        * split; [exact I1|]. intros j Hj. apply Hw. lia.
      + apply (inj Some) in H2 as <-. cbn [after] in H4. destruct vs as [|[[| |[]| | | | |]| |] [|]]; try discriminate H4. injection H4 as <-. cbn [stage] in *. destruct IH as [I1 I2].
        eexists tok, _. split; [reflexivity|]. split; [exact I1|]. split; [exact I2|]. exists i. exact H3.
      + apply (inj Some) in H2 as <-. cbn [after] in H4. destruct vs as [|[[]| |] [|]]; try discriminate H4.
        destruct (decide _) as [E|]; [|discriminate H4]. destruct (N.eqb_spec size (ob_len g k)) as [->|]; [|discriminate H4]. injection H4 as <-. cbn [stage] in *.
        split; [exact IH|]. split; [|split; [lia|intros p Hp; lia]]. eexists _, _. split; [symmetry; exact E|]. exists i. exact H3.
      + cbn [stage] in IH. destruct IH as (I1 & I2 & I3 & I4). rewrite (proj2 (N.ltb_lt _ _) I3) in H2. apply (inj Some) in H2 as <-. cbn [picks] in H1. specialize (H1 I3) as [P1 P2].
        cbn [after] in H4. destruct vs as [|[[]| |] vs]; try discriminate H4. destruct (stream_of vs) as [chunks|] eqn:Es; [|discriminate H4]. cbn [mbind option_bind] in H4.
        destruct (check_chunks g k off fin chunks) as [off'|] eqn:Ec; [|discriminate H4]. apply check_chunks_inv in Ec as (E1 & E2 & E3); [|lia..].
        destruct (N.eqb_spec off' fin) as [->|]; [|discriminate H4]. apply stream_of_inv in Es as ->.
        assert (Hw : was_read id fin).
        { intros p Hp. destruct (N.lt_ge_cases p off) as [Hlt|Hge]; [apply I4, Hlt|]. eexists off, fin, _, _, _, _, chunks. split; [lia|]. split; [exists i; exact H3|exact E3]. }
        destruct (N.ltb_spec fin (ob_len g k)) as [Hlt|Hge]; injection H4 as <-; cbn [stage].
        * auto.
        * split; [exact I1|]. split; [exact I2|]. assert (fin = ob_len g k) as <- by lia. exact Hw.
      + cbn [after] in H4. destruct vs as [|[[]| |] [|]]; discriminate H4.
    - unfold task_call in H2. rewrite Hkey in H2. cbn [mbind option_bind] in H2. destruct t as [|tok off|tok|id|id off|id]; cbn [after] in H4.
      + destruct vs as [|[[]| |] [|]]; discriminate H4.
      + destruct vs as [|[[]| |] [|]]; try discriminate H4. destruct (_ <? _); discriminate H4.
      + destruct vs as [|[[| |[]| | | | |]| |] [|]]; discriminate H4.
      + destruct vs as [|[[]| |] [|]]; try discriminate H4. destruct (decide _); [|discriminate H4]. destruct (_ =? _); discriminate H4.
      + destruct vs as [|[[]| |] vs]; try discriminate H4. repeat match type of H4 with context [match ?x with _ => _ end] => destruct x; try discriminate H4 end.
      + destruct vs as [|[[]| |] [|]]; try discriminate H4. apply (inj Some) in H2 as <-. cbn [stage] in *. destruct IH as (I1 & I2 & I3). exists id. split; [exact I1|]. split; [exact I2|]. split; [exact I3|].
        exists i. exact H3.
  Qed.
  Lemma came_tested : came g ls k None -> exists tok id, tested g ls k key tok id.
  Proof using Hg Hkey.
    intros H. apply came_stage in H. cbn [stage] in H. destruct H as (id & (tok & id' & -> & C1 & C2 & C3) & (id2 & t & E & C4) & C5 & C6). injection E as <-. exists tok, id'.
    constructor; eauto.
  Qed.
End Tested.
