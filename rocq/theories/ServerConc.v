(** Requests handled at the same time: which calls on the store belong to which
    request, and when they are made. *)
From Coq Require Import ZifyBool ZifyNat ZifyN.
From stdpp Require Import base numbers option gmap sets functions list.
From Verif Require Import Util Bytes PageIOModel PageIOSpec TokenModel TokenProofs HttpModel BatchProofs DirectModel DirectSpec DirectBase DirectSeqSpec DirectSys DirectHistSpec DirectHist.
From Verif Require Import DirectRealSpec DirectReal PropertiesToken ServerModel ServerSpec ServerProofs ServerHist ServerConcModel ServerConcSpec.
Open Scope N_scope.
Ltac Zify.zify_post_hook ::= idtac.

(** ** Order *)
Lemma precedes_app {A} (l l' : list A) a b : precedes l a b -> precedes (l ++ l') a b.
Proof. intros (l1 & l2 & l3 & ->). exists l1, l2, (l3 ++ l'). rewrite <- !app_assoc. cbn. rewrite <- app_assoc. reflexivity. Qed.
Lemma precedes_last {A} (l : list A) a b : a ∈ l -> precedes (l ++ [b]) a b.
Proof. intros H. apply elem_of_list_split in H as (l1 & l2 & ->). exists l1, l2, []. rewrite <- app_assoc. reflexivity. Qed.
Lemma precedes_snoc {A} (l : list A) x a b : precedes (l ++ [x]) a b -> precedes l a b \/ a ∈ l /\ b = x.
Proof.
  intros H. apply precedes_index in H as (p & q & Hpq & Hp & Hq).
  assert (p < length l)%nat as Hpl. { apply lookup_lt_Some in Hq. rewrite app_length in Hq. cbn in Hq. lia. }
  rewrite lookup_app_l in Hp by exact Hpl. destruct (decide (q < length l)%nat) as [Hql|Hql].
  - rewrite lookup_app_l in Hq by exact Hql. left. apply precedes_index. eauto.
  - right. split; [eapply elem_of_list_lookup_2, Hp|]. rewrite lookup_app_r in Hq by lia.
    destruct (q - length l)%nat; [now injection Hq|discriminate].
Qed.
Lemma precedes_trans {A} (l : list A) a b c : ~ precedes l b b -> precedes l a b -> precedes l b c -> precedes l a c.
Proof.
  intros Hn H1 H2. apply precedes_index in H1 as (p & q & Hpq & Hp & Hq). apply precedes_index in H2 as (q' & r & Hqr & Hq' & Hr).
  apply precedes_index. destruct (Nat.lt_trichotomy q q') as [H|[->|H]].
  - exists p, r. split; [lia|]. auto.
  - exists p, r. split; [lia|]. auto.
  - exfalso. apply Hn. apply precedes_index. exists q', q. auto.
Qed.
Lemma precedes_in {A} (l : list A) a b : precedes l a b -> a ∈ l /\ b ∈ l.
Proof. intros H. apply precedes_index in H as (p & q & _ & Hp & Hq). split; eapply elem_of_list_lookup_2; eassumption. Qed.
Lemma in_store l es : l ∈ store_labels es <-> EStore l ∈ es.
Proof.
  unfold store_labels. rewrite elem_of_list_omap. split.
  - intros (e & He & E). destruct e; try discriminate E. injection E as ->. exact He.
  - intros H. exists (EStore l). auto.
Qed.
Lemma store_app es es' : store_labels (es ++ es') = store_labels es ++ store_labels es'.
Proof. apply omap_app. Qed.
Lemma precedes_store es a b : precedes es (EStore a) (EStore b) -> precedes (store_labels es) a b.
Proof.
  intros (l1 & l2 & l3 & ->). exists (store_labels l1), (store_labels l2), (store_labels l3).
  rewrite store_app. cbn [store_labels omap list_omap store_label]. fold (store_labels (l2 ++ EStore b :: l3)). rewrite store_app. reflexivity.
Qed.

(** ** Well-formed histories of calls *)
Record wf_labels (ls : list label) : Prop := {
  w_call : forall i op op', ~ precedes ls (LCall i op) (LCall i op');
  w_first : forall i op v, ~ precedes ls (LVis i v) (LCall i op);
  w_final : forall i v w, is_final v = true -> ~ precedes ls (LVis i v) (LVis i w);
}.
Lemma wf_app ls l : wf_labels (ls ++ l) -> wf_labels ls.
Proof. intros [H1 H2 H3]. constructor; intros; intros Hpp; [eapply H1|eapply H2|eapply H3]; try eassumption; eapply precedes_app; exact Hpp. Qed.
Lemma wf_once ls i op op' : wf_labels ls -> LCall i op ∈ ls -> LCall i op' ∈ ls -> op = op'.
Proof.
  intros H H1 H2. apply elem_of_list_lookup in H1 as [p Hp]. apply elem_of_list_lookup in H2 as [q Hq].
  destruct (Nat.lt_trichotomy p q) as [Hl|[->|Hl]]; [|congruence|]; exfalso; eapply (w_call _ H); apply precedes_index; eauto.
Qed.
Lemma spec_wf lpage ls z : spec_steps lpage {| z_state := ss_empty; z_procs := [] |} ls z -> wf_labels ls.
Proof.
  intros Hs. destruct (trace_of _ _ _ _ Hs) as (zs & Hz0 & _ & Hzs).
  constructor; intros i; intros; intros Hpp; apply precedes_index in Hpp as (p & q & Hpq & Hp & Hq).
  - pose proof (call_once lpage ls zs Hzs _ _ _ _ _ Hp Hq). lia.
  - pose proof (call_first lpage ls zs Hzs _ _ _ _ _ Hq Hp). lia.
  - pose proof (final_once lpage ls zs Hzs _ _ _ _ _ Hp ltac:(assumption) Hq). lia.
Qed.
Lemma wf_visible ls ls' : visible ls' = visible ls -> wf_labels ls' -> wf_labels ls.
Proof.
  intros E [H1 H2 H3].
  assert (K : forall a b, is_visible a = true -> is_visible b = true -> precedes ls a b -> precedes ls' a b).
  { intros a b Ha Hb Hpp. apply (precedes_visible ls a b Ha Hb) in Hpp. rewrite <- E in Hpp. apply (precedes_visible ls' a b Ha Hb). exact Hpp. }
  constructor; intros; intros Hpp; apply K in Hpp; try reflexivity; [eapply H1|eapply H2|eapply H3]; eassumption.
Qed.
Lemma dsteps_wf c pages y0 ls y : cfg_ok c -> fresh_partition c pages y0 -> dsteps c y0 ls y -> valid_calls (dc_lpage c) ls -> wf_labels ls.
Proof.
  intros Hc Hf Hs Hv. pose proof (fresh_good _ _ _ (ck_pages _ Hc) Hf) as HG.
  destruct (good_steps _ _ _ _ _ Hc Hv HG Hs) as (ls' & z' & lk & zz & H1 & H2 & _). eapply wf_visible; [exact H2|]. eapply spec_wf, H1.
Qed.
Lemma dsteps_prefix c y0 ls y : dsteps c y0 ls y -> forall l1 l2, ls = l1 ++ l2 -> exists y1, dsteps c y0 l1 y1.
Proof.
  induction 1 as [y|y0 ls y1 l y2 Hs IH Hstep]; intros l1 l2 E.
  - symmetry in E. apply app_eq_nil in E as [-> ->]. exists y. constructor.
  - destruct l2 as [|x l2] using rev_ind.
    + rewrite app_nil_r in E. subst l1. exists y2. econstructor; eassumption.
    + rewrite app_assoc in E. apply app_inj_tail in E as [E _]. eapply IH, E.
Qed.
(** A commit that replaces always publishes. *)
Lemma spec_discard lpage ls z : spec_steps lpage {| z_state := ss_empty; z_procs := [] |} ls z ->
  (forall i, z_procs z !! i = Some SDiscarded -> exists tok, LCall i (OCommit tok true) ∈ ls) /\
  (forall i, LVis i (VRet (RCommitted None)) ∈ ls -> exists tok, LCall i (OCommit tok true) ∈ ls).
Proof.
  intros Hs. remember {| z_state := ss_empty; z_procs := [] |} as z0 eqn:E. induction Hs as [z|z0 ls z1 l z2 Hs IH Hstep].
  - subst z. split; [intros i H; cbn in H; rewrite lookup_nil in H; discriminate|]. intros i H. now apply elem_of_nil in H.
  - specialize (IH E) as [I1 I2]. subst z0. destruct (trace_of _ _ _ _ Hs) as (zs & Hz0 & Hz & Hzs).
    inversion Hstep; subst; cbn [z_procs z_state].
    + split.
      * intros i Hi. apply lookup_app_Some in Hi as [Hi|[_ Hi]]; [destruct (I1 _ Hi) as [tok Ht]; exists tok; apply elem_of_app; auto|].
        apply list_lookup_singleton_Some in Hi as [_ Hi]. discriminate.
      * intros i Hi. apply elem_of_app in Hi as [Hi|Hi]; [destruct (I2 _ Hi) as [tok Ht]; exists tok; apply elem_of_app; auto|].
        apply elem_of_list_singleton in Hi. discriminate.
    + split.
      * intros i' Hi. apply list_lookup_insert_Some in Hi as [(-> & Es & _)|[Hne Hi]]; [subst|destruct (I1 _ Hi) as [tok Ht]; exists tok; apply elem_of_app; auto].
        match goal with H : sstep _ _ _ _ _ _ _ |- _ => inversion H; subst end.
        pose proof (call_of lpage ls zs Hz0 Hzs (length ls) i' (SCommitting tok true) ltac:(lia)) as Hcall.
        specialize (Hcall ltac:(assumption)). cbn in Hcall. rewrite firstn_all in Hcall. exists tok. apply elem_of_app. auto.
      * intros i' Hi. apply elem_of_app in Hi as [Hi|Hi]; [destruct (I2 _ Hi) as [tok Ht]; exists tok; apply elem_of_app; auto|].
        apply elem_of_list_singleton in Hi. destruct v as [v|]; [|discriminate]. injection Hi as <- <-.
        match goal with H : sstep _ _ _ _ _ _ _ |- _ => inversion H; subst end.
        destruct (I1 _ ltac:(eassumption)) as [tok Ht]. exists tok. apply elem_of_app. auto.
Qed.

(** ** Every handler ends *)
Lemma some_run p : exists cs r, runs p cs r.
Proof.
  induction p as [r|op k IH].
  - exists [], r. constructor.
  - destruct (IH []) as (cs & r & H). exists ((op, []) :: cs), r. constructor. exact H.
Qed.

(** ** The calls of the requests *)
Record ghost := { g_rq : request; g_cs : list (nat * (dop * list vis)); g_st : hproc }.
Definition g_ids (g : ghost) : list nat := map fst (g_cs g) ++ match g_st g with HWait i _ _ => [i] | _ => [] end.
Section Inv.
  Variable s : server.
  Definition st_ok (es : list event) (j : nat) (g : ghost) : Prop :=
    match g_st g with
    | HRun p => (forall cs r, runs p cs r -> runs (handle s (g_rq g)) (map snd (g_cs g) ++ cs) r) /\ (forall r, EAns j r ∉ es)
    | HWait i k sn => exists op, precedes es (EReq j (g_rq g)) (EStore (LCall i op)) /\ sn = vis_of i (store_labels es) /\
        (forall vs cs r, runs (k vs) cs r -> runs (handle s (g_rq g)) (map snd (g_cs g) ++ (op, vs) :: cs) r) /\ (forall r, EAns j r ∉ es)
    | HOver => exists r, EAns j r ∈ es /\ (forall r', EAns j r' ∈ es -> r' = r) /\ runs (handle s (g_rq g)) (map snd (g_cs g)) r /\
        (forall i op vs, (i, (op, vs)) ∈ g_cs g -> exists v, is_final v = true /\ precedes es (EStore (LVis i v)) (EAns j r))
    end.
  Record GOk (es : list event) (j : nat) (g : ghost) : Prop := {
    gk_req : EReq j (g_rq g) ∈ es;
    gk_cs : forall i op vs, (i, (op, vs)) ∈ g_cs g -> precedes es (EReq j (g_rq g)) (EStore (LCall i op)) /\ vs = vis_of i (store_labels es) /\
      exists v, LVis i v ∈ store_labels es /\ is_final v = true;
    gk_st : st_ok es j g;
  }.
  Record GInv (es : list event) (gs : list ghost) : Prop := {
    gi_ok : forall j g, gs !! j = Some g -> GOk es j g;
    gi_req : forall j rq, EReq j rq ∈ es -> exists g, gs !! j = Some g /\ g_rq g = rq;
    gi_ans : forall j r, EAns j r ∈ es -> is_Some (gs !! j);
    gi_call : forall i op, LCall i op ∈ store_labels es -> exists j g, gs !! j = Some g /\ i ∈ g_ids g;
    gi_own : forall i j g j' g', gs !! j = Some g -> gs !! j' = Some g' -> i ∈ g_ids g -> i ∈ g_ids g' -> j = j';
    gi_once : forall e, store_label e = None -> ~ precedes es e e;
  }.

  Lemma ids_called es j g i : GOk es j g -> i ∈ g_ids g -> exists op, LCall i op ∈ store_labels es.
  Proof using.
    intros H Hi. apply elem_of_app in Hi as [Hi|Hi].
    - apply elem_of_list_In, in_map_iff in Hi as ((i' & op & vs) & E & Hin). cbn in E. subst i'. apply elem_of_list_In in Hin.
      destruct (gk_cs _ _ _ H _ _ _ Hin) as [Hp _]. exists op. apply in_store. apply precedes_in in Hp as [_ Hp]. exact Hp.
    - pose proof (gk_st _ _ _ H) as Hst. unfold st_ok in Hst. destruct (g_st g) as [|i' k sn|]; try (now apply elem_of_nil in Hi).
      apply elem_of_list_singleton in Hi. subst i'. destruct Hst as (op & Hp & _). exists op. apply in_store. apply precedes_in in Hp as [_ Hp]. exact Hp.
  Qed.
  Lemma vis_of_snoc i ls l : vis_of i (ls ++ [l]) = vis_of i ls ++ match l with LVis j v => if (j =? i)%nat then [v] else [] | _ => [] end.
  Proof using. rewrite vis_of_app. destruct l; cbn; try reflexivity. rewrite app_nil_r. reflexivity. Qed.

  (** What is known about a request stays when something else happens. *)
  Definition others (e : event) (j : nat) (g : ghost) : Prop :=
    match e with
    | EReq j' _ => True
    | EAns j' _ => j' <> j
    | EStore (LVis i _) => i ∉ g_ids g
    | _ => True
    end.
  Lemma ok_stays es e j g : GOk es j g -> others e j g -> GOk (es ++ [e]) j g.
  Proof using.
    intros H Ho. assert (Hvis : forall i, i ∈ g_ids g -> vis_of i (store_labels (es ++ [e])) = vis_of i (store_labels es)).
    { intros i Hi. rewrite store_app. destruct e as [| |l]; [apply f_equal, app_nil_r|apply f_equal, app_nil_r|].
      change (store_labels [EStore l]) with [l]. rewrite vis_of_snoc. destruct l as [|i' v|]; try apply app_nil_r.
      cbn in Ho. destruct (Nat.eqb_spec i' i) as [->|]; [contradiction|]. apply app_nil_r. }
    assert (Hans : forall r, EAns j r ∈ es ++ [e] -> EAns j r ∈ es).
    { intros r Hr. apply elem_of_app in Hr as [Hr|Hr]; [exact Hr|]. apply elem_of_list_singleton in Hr. subst e. cbn in Ho. congruence. }
    constructor.
    - apply elem_of_app. left. apply (gk_req _ _ _ H).
    - intros i op vs Hin. destruct (gk_cs _ _ _ H _ _ _ Hin) as (A1 & A2 & v & A3 & A4). split; [apply precedes_app, A1|]. split.
      + rewrite Hvis; [exact A2|]. apply elem_of_app. left. apply elem_of_list_In, in_map_iff. exists (i, (op, vs)). split; [reflexivity|]. apply elem_of_list_In, Hin.
      + exists v. split; [|exact A4]. rewrite store_app. apply elem_of_app. left. exact A3.
    - pose proof (gk_st _ _ _ H) as Hst. unfold st_ok in *. unfold g_ids in Hvis. destruct (g_st g) as [p|i k sn|].
      + destruct Hst as [B1 B2]. split; [exact B1|]. intros r Hr. eapply B2, Hans, Hr.
      + destruct Hst as (op & B1 & B2 & B3 & B4). exists op. split; [apply precedes_app, B1|]. split.
        * rewrite Hvis; [exact B2|]. apply elem_of_app. right. left.
        * split; [exact B3|]. intros r Hr. eapply B4, Hans, Hr.
      + destruct Hst as (r & B1 & B2 & B3 & B4). exists r. split; [apply elem_of_app; left; exact B1|]. split; [intros r' Hr; apply B2, Hans, Hr|].
        split; [exact B3|]. intros i op vs Hin. destruct (B4 _ _ _ Hin) as (v & V1 & V2). exists v. split; [exact V1|]. apply precedes_app, V2.
  Qed.
  Lemma once_snoc es e : (forall e, store_label e = None -> ~ precedes es e e) -> (store_label e = None -> e ∉ es) ->
    forall e', store_label e' = None -> ~ precedes (es ++ [e]) e' e'.
  Proof using. intros H1 H2 e' E H. apply precedes_snoc in H as [H|[H ->]]; [eapply H1; eassumption|]. apply H2; assumption. Qed.

  (** A request [j] moves on, with the event [e] that is a step of the store. *)
  Lemma inv_update es gs e l j g g' : GInv es gs -> e = EStore l -> gs !! j = Some g -> g_rq g' = g_rq g ->
    GOk (es ++ [e]) j g' ->
    (forall j' g1, j' <> j -> gs !! j' = Some g1 -> others e j' g1) ->
    (forall i, i ∈ g_ids g -> i ∈ g_ids g') ->
    (forall i op, l = LCall i op -> i ∈ g_ids g') ->
    (forall i, i ∈ g_ids g' -> i ∈ g_ids g \/ forall op, LCall i op ∉ store_labels es) ->
    GInv (es ++ [e]) (<[j := g']> gs).
  Proof using.
    intros HI -> Hj Hrq Hok Hoth Hsub Hcall Hnew. pose proof (lookup_lt_Some _ _ _ Hj) as Hlt.
    assert (Hcase : forall j' g1, <[j := g']> gs !! j' = Some g1 -> (j' = j /\ g1 = g') \/ (j' <> j /\ gs !! j' = Some g1)).
    { intros j' g1 H. apply list_lookup_insert_Some in H as [(-> & <- & _)|[Hne H]]; [left; auto|right; split; [congruence|exact H]]. }
    constructor.
    - intros j' g1 H. apply Hcase in H as [[-> ->]|[Hne H]]; [exact Hok|]. apply ok_stays; [apply (gi_ok _ _ HI), H|apply Hoth; assumption].
    - intros j' rq H. apply elem_of_app in H as [H|H]; [|apply elem_of_list_singleton in H; discriminate].
      destruct (gi_req _ _ HI _ _ H) as (g1 & G1 & G2). destruct (decide (j' = j)) as [->|Hne].
      + exists g'. rewrite list_lookup_insert by exact Hlt. split; [reflexivity|]. congruence.
      + exists g1. rewrite list_lookup_insert_ne by congruence. auto.
    - intros j' r H. apply elem_of_app in H as [H|H]; [|apply elem_of_list_singleton in H; discriminate].
      apply lookup_lt_is_Some. rewrite insert_length. apply lookup_lt_is_Some. eapply (gi_ans _ _ HI), H.
    - intros i op H. rewrite store_app in H. apply elem_of_app in H as [H|H].
      + destruct (gi_call _ _ HI _ _ H) as (j' & g1 & G1 & G2). destruct (decide (j' = j)) as [->|Hne].
        * exists j, g'. rewrite list_lookup_insert by exact Hlt. split; [reflexivity|]. apply Hsub. congruence.
        * exists j', g1. rewrite list_lookup_insert_ne by congruence. auto.
      + apply elem_of_list_singleton in H. exists j, g'. rewrite list_lookup_insert by exact Hlt. split; [reflexivity|]. eapply Hcall. symmetry. exact H.
    - assert (Hsym : forall i j' g1, j' <> j -> gs !! j' = Some g1 -> i ∈ g_ids g' -> i ∈ g_ids g1 -> False).
      { intros i j' g1 Hne G1 I1 I2. destruct (Hnew _ I1) as [I3|I3].
        - apply Hne. eapply (gi_own _ _ HI); eassumption.
        - destruct (ids_called _ _ _ _ (gi_ok _ _ HI _ _ G1) I2) as [op Hop]. eapply I3, Hop. }
      intros i j1 g1 j2 g2 G1 G2 I1 I2. apply Hcase in G1 as [[-> ->]|[Hn1 G1]], G2 as [[-> ->]|[Hn2 G2]].
      + reflexivity.
      + exfalso. eapply Hsym; eassumption.
      + exfalso. eapply Hsym; eassumption.
      + eapply (gi_own _ _ HI); eassumption.
    - apply once_snoc; [apply (gi_once _ _ HI)|]. discriminate.
  Qed.

  Hypothesis Hlp : sv_lpage s < 32.
  Theorem inv_run es hs : hsteps s es hs -> (forall j rq, EReq j rq ∈ es -> request_ok s rq) ->
    (forall l1 l2, store_labels es = l1 ++ l2 -> valid_calls (sv_lpage s) l1 -> wf_labels l1) ->
    exists gs, hs = map g_st gs /\ GInv es gs /\ valid_calls (sv_lpage s) (store_labels es).
  Proof using Hlp.
    induction 1 as [|es hs e hs' Hs IH Hstep]; intros Hok Hwf.
    - exists []. split; [reflexivity|]. split; [|intros i op H; now apply elem_of_nil in H].
      constructor; try (intros; match goal with H : _ ∈ [] |- _ => now apply elem_of_nil in H | H : [] !! _ = Some _ |- _ => rewrite lookup_nil in H; discriminate H end).
      + intros i op H. now apply elem_of_nil in H.
      + intros e _ H. apply precedes_in in H as [H _]. now apply elem_of_nil in H.
    - destruct IH as (gs & -> & HI & Hv).
      { intros j rq H. eapply Hok. apply elem_of_app. left. exact H. }
      { intros l1 l2 E. apply (Hwf l1 (l2 ++ store_labels [e])). rewrite store_app, E, app_assoc. reflexivity. }
      assert (Hget : forall j h, map g_st gs !! j = Some h -> exists g, gs !! j = Some g /\ g_st g = h).
      { intros j h H. change (map g_st gs) with (g_st <$> gs) in H. rewrite list_lookup_fmap in H. destruct (gs !! j) as [g|]; [|discriminate]. injection H as <-. eauto. }
      assert (Hvl : forall i op, LCall i op ∈ store_labels (es ++ [e]) -> (forall l, e = EStore l -> l = LCall i op -> valid_op (sv_lpage s) op) -> valid_op (sv_lpage s) op).
      { intros i op H Hx. rewrite store_app in H. apply elem_of_app in H as [H|H]; [eapply Hv, H|]. destruct e; try (now apply elem_of_nil in H).
        apply elem_of_list_singleton in H. eapply Hx; [reflexivity|]. symmetry. exact H. }
      inversion Hstep; subst.
      + (* a new request *)
        exists (gs ++ [{| g_rq := rq; g_cs := []; g_st := HRun (handle s rq) |}]). split; [rewrite map_app; reflexivity|]. rewrite map_length.
        assert (Hn : forall x, EReq (length gs) x ∉ es).
        { intros x H. destruct (gi_req _ _ HI _ _ H) as (g & Hg & _). apply lookup_lt_Some in Hg. lia. }
        assert (Hn' : forall x, EAns (length gs) x ∉ es).
        { intros x H. destruct (gi_ans _ _ HI _ _ H) as (g & Hg). apply lookup_lt_Some in Hg. lia. }
        split; [|intros i op H; eapply Hvl; [rewrite map_length; exact H|discriminate]]. constructor.
        * intros j g H. apply lookup_app_Some in H as [H|[Hl H]]; [apply ok_stays; [apply (gi_ok _ _ HI), H|exact I]|].
          apply list_lookup_singleton_Some in H as [E <-]. assert (j = length gs) as -> by lia. constructor; cbn [g_rq g_cs g_st].
          -- apply elem_of_app. right. left.
          -- intros i op vs H. now apply elem_of_nil in H.
          -- unfold st_ok. cbn. split; [auto|]. intros r H. apply elem_of_app in H as [H|H]; [eapply Hn', H|apply elem_of_list_singleton in H; discriminate].
        * intros j rq' H. apply elem_of_app in H as [H|H].
          -- destruct (gi_req _ _ HI _ _ H) as (g & G1 & G2). exists g. split; [apply lookup_app_l_Some, G1|exact G2].
          -- apply elem_of_list_singleton in H. injection H as -> ->. exists {| g_rq := rq; g_cs := []; g_st := HRun (handle s rq) |}. split; [|reflexivity].
             rewrite lookup_app_r by lia. rewrite Nat.sub_diag. reflexivity.
        * intros j r H. apply elem_of_app in H as [H|H]; [|apply elem_of_list_singleton in H; discriminate].
          destruct (gi_ans _ _ HI _ _ H) as [g Hg]. exists g. apply lookup_app_l_Some, Hg.
        * intros i op H. rewrite store_app, app_nil_r in H. destruct (gi_call _ _ HI _ _ H) as (j & g & G1 & G2). exists j, g. split; [apply lookup_app_l_Some, G1|exact G2].
        * intros i j g j' g' G1 G2 I1 I2. apply lookup_app_Some in G1 as [G1|[_ G1]], G2 as [G2|[_ G2]]; [eapply (gi_own _ _ HI); eassumption| | |];
            match goal with G : [_] !! _ = Some ?g, I : _ ∈ g_ids ?g |- _ => apply list_lookup_singleton_Some in G as [_ <-]; now apply elem_of_nil in I end.
        * apply once_snoc; [apply (gi_once _ _ HI)|]. intros _. apply Hn.
      + (* an answer *)
        match goal with H : map g_st gs !! j = Some _ |- _ => apply Hget in H as (g & Hg & Est) end.
        pose proof (gi_ok _ _ HI _ _ Hg) as HG. pose proof (gk_st _ _ _ HG) as Hst. unfold st_ok in Hst. rewrite Est in Hst. destruct Hst as [B1 B2].
        exists (<[j := {| g_rq := g_rq g; g_cs := g_cs g; g_st := HOver |}]> gs). split.
        { change (map g_st) with (fmap g_st : list ghost -> list hproc). rewrite list_fmap_insert. reflexivity. }
        split; [|intros i op H; eapply Hvl; [exact H|discriminate]]. pose proof (lookup_lt_Some _ _ _ Hg) as Hlt.
        assert (Hcase : forall j' g1, <[j := {| g_rq := g_rq g; g_cs := g_cs g; g_st := HOver |}]> gs !! j' = Some g1 ->
          (j' = j /\ g1 = {| g_rq := g_rq g; g_cs := g_cs g; g_st := HOver |}) \/ (j' <> j /\ gs !! j' = Some g1)).
        { intros j' g1 H. apply list_lookup_insert_Some in H as [(-> & <- & _)|[Hne H]]; [left; auto|right; split; [congruence|exact H]]. }
        assert (Hids : forall j' g1, <[j := {| g_rq := g_rq g; g_cs := g_cs g; g_st := HOver |}]> gs !! j' = Some g1 -> exists g2, gs !! j' = Some g2 /\ g_ids g1 = g_ids g2).
        { intros j' g1 H. apply Hcase in H as [[-> ->]|[_ H]]; [|eauto]. exists g. split; [exact Hg|]. unfold g_ids. cbn. rewrite Est. reflexivity. }
        constructor.
        * intros j' g1 H. apply Hcase in H as [[-> ->]|[Hne H]]; [|apply ok_stays; [apply (gi_ok _ _ HI), H|cbn; congruence]].
          assert (HG' : forall i op vs, (i, (op, vs)) ∈ g_cs g -> precedes (es ++ [EAns j r]) (EReq j (g_rq g)) (EStore (LCall i op)) /\ vs = vis_of i (store_labels (es ++ [EAns j r])) /\
             exists v, LVis i v ∈ store_labels (es ++ [EAns j r]) /\ is_final v = true).
          { intros i op vs Hin. destruct (gk_cs _ _ _ HG _ _ _ Hin) as (A1 & A2 & A3). rewrite store_app, app_nil_r. split; [apply precedes_app, A1|]. auto. }
          constructor; cbn [g_rq g_cs g_st].
          -- apply elem_of_app. left. apply (gk_req _ _ _ HG).
          -- exact HG'.
          -- unfold st_ok. cbn. exists r. split; [apply elem_of_app; right; left|]. split.
             { intros r' H. apply elem_of_app in H as [H|H]; [exfalso; eapply B2, H|]. apply elem_of_list_singleton in H. now injection H as <-. }
             split; [rewrite <- (app_nil_r (map snd (g_cs g))); apply B1; constructor|].
             intros i op vs Hin. destruct (gk_cs _ _ _ HG _ _ _ Hin) as (_ & _ & v & A3 & A4). exists v. split; [exact A4|]. apply precedes_last. apply in_store, A3.
        * intros j' rq H. apply elem_of_app in H as [H|H]; [|apply elem_of_list_singleton in H; discriminate].
          destruct (gi_req _ _ HI _ _ H) as (g1 & G1 & G2). destruct (decide (j' = j)) as [->|Hne].
          -- eexists. rewrite list_lookup_insert by exact Hlt. split; [reflexivity|]. cbn. congruence.
          -- exists g1. rewrite list_lookup_insert_ne by congruence. auto.
        * intros j' r' H. apply lookup_lt_is_Some. rewrite insert_length. apply elem_of_app in H as [H|H].
          -- apply lookup_lt_is_Some. eapply (gi_ans _ _ HI), H.
          -- apply elem_of_list_singleton in H. injection H as -> ->. exact Hlt.
        * intros i op H. rewrite store_app, app_nil_r in H. destruct (gi_call _ _ HI _ _ H) as (j' & g1 & G1 & G2). destruct (decide (j' = j)) as [->|Hne].
          -- exists j. eexists. rewrite list_lookup_insert by exact Hlt. split; [reflexivity|]. rewrite Hg in G1. injection G1 as <-. unfold g_ids in *. cbn. rewrite Est in G2. exact G2.
          -- exists j', g1. rewrite list_lookup_insert_ne by congruence. auto.
        * intros i j1 g1 j2 g2 G1 G2 I1 I2. apply Hids in G1 as (g1' & G1 & E1), G2 as (g2' & G2 & E2). rewrite E1 in I1. rewrite E2 in I2.
          eapply (gi_own _ _ HI); eassumption.
        * apply once_snoc; [apply (gi_once _ _ HI)|]. intros _. apply B2.
      + (* a call *)
        match goal with H : map g_st gs !! j = Some _ |- _ => apply Hget in H as (g & Hg & Est) end.
        pose proof (gi_ok _ _ HI _ _ Hg) as HG. pose proof (gk_st _ _ _ HG) as Hst. unfold st_ok in Hst. rewrite Est in Hst. destruct Hst as [B1 B2].
        assert (Hval : valid_calls (sv_lpage s) (store_labels (es ++ [EStore (LCall i op)]))).
        { intros i' op' H. eapply Hvl; [exact H|]. intros l E1 E2. injection E1 as <-. injection E2 as <- <-.
          destruct (some_run (Call op k)) as (cs & r & Hr). pose proof (handle_valid s Hlp (g_rq g) _ r ltac:(eapply Hok; apply elem_of_app; left; apply (gk_req _ _ _ HG)) (B1 _ _ Hr)) as HF.
          apply runs_call_inv in Hr as (vs & cs' & -> & _). rewrite Forall_forall in HF. apply (HF (op, vs)). apply elem_of_app. right. left. }
        pose proof (Hwf _ [] (eq_sym (app_nil_r _)) Hval) as W. rewrite store_app in W. change (store_labels [EStore (LCall i op)]) with [LCall i op] in W.
        assert (Hfresh : forall op', LCall i op' ∉ store_labels es).
        { intros op' H. eapply (w_call _ W). eapply precedes_last, H. }
        assert (Hnv : forall v, LVis i v ∉ store_labels es).
        { intros v H. eapply (w_first _ W). eapply precedes_last, H. }
        exists (<[j := {| g_rq := g_rq g; g_cs := g_cs g; g_st := HWait i k [] |}]> gs). split.
        { change (map g_st) with (fmap g_st : list ghost -> list hproc). rewrite list_fmap_insert. reflexivity. }
        split; [|exact Hval]. eapply inv_update; [exact HI|reflexivity|exact Hg|reflexivity| | | | |].
        * pose proof (ok_stays _ (EStore (LCall i op)) _ _ HG I) as HG'. constructor; cbn [g_rq g_cs g_st]; [apply (gk_req _ _ _ HG')|apply (gk_cs _ _ _ HG')|].
          unfold st_ok. cbn. exists op. split; [apply precedes_last, (gk_req _ _ _ HG)|]. split.
          { rewrite store_app. change (store_labels [EStore (LCall i op)]) with [LCall i op]. rewrite vis_of_snoc, app_nil_r. symmetry. apply vis_none, Hnv. }
          split; [intros vs cs r Hr; apply B1; constructor; exact Hr|]. intros r H. apply elem_of_app in H as [H|H]; [eapply B2, H|apply elem_of_list_singleton in H; discriminate].
        * intros j' g1 _ _. exact I.
        * intros i' H. unfold g_ids in *. cbn. rewrite Est, app_nil_r in H. apply elem_of_app. auto.
        * intros i' op' E. injection E as <- <-. unfold g_ids. cbn. apply elem_of_app. right. left.
        * intros i' H. unfold g_ids in *. cbn in H. rewrite Est, app_nil_r. apply elem_of_app in H as [H|H]; [auto|]. apply elem_of_list_singleton in H. subst i'. right. exact Hfresh.
      + (* an item of a stream *)
        match goal with H : map g_st gs !! j = Some _ |- _ => apply Hget in H as (g & Hg & Est) end.
        pose proof (gi_ok _ _ HI _ _ Hg) as HG. pose proof (gk_st _ _ _ HG) as Hst. unfold st_ok in Hst. rewrite Est in Hst. destruct Hst as (op & B1 & B2 & B3 & B4).
        assert (Hval : valid_calls (sv_lpage s) (store_labels (es ++ [EStore (LVis i v)]))).
        { intros i' op' H. eapply Hvl; [exact H|]. intros l E1 E2. injection E1 as <-. discriminate. }
        pose proof (Hwf _ [] (eq_sym (app_nil_r _)) Hval) as W. rewrite store_app in W. change (store_labels [EStore (LVis i v)]) with [LVis i v] in W.
        assert (Hnot : forall i' op vs, (i', (op, vs)) ∈ g_cs g -> i' <> i).
        { intros i' op' vs Hin ->. destruct (gk_cs _ _ _ HG _ _ _ Hin) as (_ & _ & w & A3 & A4). eapply (w_final _ W); [exact A4|]. eapply precedes_last, A3. }
        exists (<[j := {| g_rq := g_rq g; g_cs := g_cs g; g_st := HWait i k (seen ++ [v]) |}]> gs). split.
        { change (map g_st) with (fmap g_st : list ghost -> list hproc). rewrite list_fmap_insert. reflexivity. }
        split; [|exact Hval]. eapply inv_update; [exact HI|reflexivity|exact Hg|reflexivity| | | | |].
        * constructor; cbn [g_rq g_cs g_st].
          -- apply elem_of_app. left. apply (gk_req _ _ _ HG).
          -- intros i' op' vs Hin. destruct (gk_cs _ _ _ HG _ _ _ Hin) as (A1 & A2 & w & A3 & A4). split; [apply precedes_app, A1|]. rewrite store_app.
             change (store_labels [EStore (LVis i v)]) with [LVis i v]. rewrite vis_of_snoc. destruct (Nat.eqb_spec i i') as [<-|]; [now contradiction (Hnot _ _ _ Hin)|].
             rewrite app_nil_r. split; [exact A2|]. exists w. split; [apply elem_of_app; auto|exact A4].
          -- unfold st_ok. cbn. exists op. split; [apply precedes_app, B1|]. split.
             { rewrite store_app. change (store_labels [EStore (LVis i v)]) with [LVis i v]. rewrite vis_of_snoc, Nat.eqb_refl, <- B2. reflexivity. }
             split; [exact B3|]. intros r H. apply elem_of_app in H as [H|H]; [eapply B4, H|apply elem_of_list_singleton in H; discriminate].
        * intros j' g1 Hne G1. cbn. intros Hin. apply Hne. eapply (gi_own _ _ HI); [exact G1|exact Hg|exact Hin|]. unfold g_ids. rewrite Est. apply elem_of_app. right. left.
        * intros i' H. unfold g_ids in *. cbn. rewrite Est in H. exact H.
        * discriminate.
        * intros i' H. left. unfold g_ids in *. cbn in H. rewrite Est. exact H.
      + (* the end of a call *)
        match goal with H : map g_st gs !! j = Some _ |- _ => apply Hget in H as (g & Hg & Est) end.
        pose proof (gi_ok _ _ HI _ _ Hg) as HG. pose proof (gk_st _ _ _ HG) as Hst. unfold st_ok in Hst. rewrite Est in Hst. destruct Hst as (op & B1 & B2 & B3 & B4).
        assert (Hval : valid_calls (sv_lpage s) (store_labels (es ++ [EStore (LVis i v)]))).
        { intros i' op' H. eapply Hvl; [exact H|]. intros l E1 E2. injection E1 as <-. discriminate. }
        pose proof (Hwf _ [] (eq_sym (app_nil_r _)) Hval) as W. rewrite store_app in W. change (store_labels [EStore (LVis i v)]) with [LVis i v] in W.
        assert (Hnot : forall i' op vs, (i', (op, vs)) ∈ g_cs g -> i' <> i).
        { intros i' op' vs Hin ->. destruct (gk_cs _ _ _ HG _ _ _ Hin) as (_ & _ & w & A3 & A4). eapply (w_final _ W); [exact A4|]. eapply precedes_last, A3. }
        exists (<[j := {| g_rq := g_rq g; g_cs := g_cs g ++ [(i, (op, seen ++ [v]))]; g_st := HRun (k (seen ++ [v])) |}]> gs). split.
        { change (map g_st) with (fmap g_st : list ghost -> list hproc). rewrite list_fmap_insert. reflexivity. }
        assert (Hvv : vis_of i (store_labels (es ++ [EStore (LVis i v)])) = seen ++ [v]).
        { rewrite store_app. change (store_labels [EStore (LVis i v)]) with [LVis i v]. rewrite vis_of_snoc, Nat.eqb_refl, <- B2. reflexivity. }
        split; [|exact Hval]. eapply inv_update; [exact HI|reflexivity|exact Hg|reflexivity| | | | |].
        * constructor; cbn [g_rq g_cs g_st].
          -- apply elem_of_app. left. apply (gk_req _ _ _ HG).
          -- intros i' op' vs Hin. apply elem_of_app in Hin as [Hin|Hin].
             ++ destruct (gk_cs _ _ _ HG _ _ _ Hin) as (A1 & A2 & w & A3 & A4). split; [apply precedes_app, A1|]. rewrite store_app.
                change (store_labels [EStore (LVis i v)]) with [LVis i v]. rewrite vis_of_snoc. destruct (Nat.eqb_spec i i') as [<-|]; [now contradiction (Hnot _ _ _ Hin)|].
                rewrite app_nil_r. split; [exact A2|]. exists w. split; [apply elem_of_app; auto|exact A4].
             ++ apply elem_of_list_singleton in Hin. injection Hin as -> -> ->. split; [apply precedes_app, B1|]. split; [symmetry; exact Hvv|].
                exists v. split; [|assumption]. rewrite store_app. apply elem_of_app. right. left.
          -- unfold st_ok. cbn. split.
             { intros cs r Hr. rewrite map_app, <- app_assoc. cbn. apply B3, Hr. }
             intros r H. apply elem_of_app in H as [H|H]; [eapply B4, H|apply elem_of_list_singleton in H; discriminate].
        * intros j' g1 Hne G1. cbn. intros Hin. apply Hne. eapply (gi_own _ _ HI); [exact G1|exact Hg|exact Hin|]. unfold g_ids. rewrite Est. apply elem_of_app. right. left.
        * intros i' H. unfold g_ids in *. cbn. rewrite Est in H. rewrite map_app, app_nil_r. exact H.
        * discriminate.
        * intros i' H. left. unfold g_ids in *. cbn in H. rewrite Est. rewrite map_app, app_nil_r in H. exact H.
      + (* a step of the store that nobody sees *)
        exists gs. split; [reflexivity|]. split; [|intros i op H; eapply Hvl; [exact H|intros l E1 E2; injection E1 as <-; discriminate]].
        assert (Hst : store_labels (es ++ [EStore LTau]) = store_labels es ++ [LTau]) by (rewrite store_app; reflexivity).
        constructor.
        * intros j g H. apply ok_stays; [apply (gi_ok _ _ HI), H|exact I].
        * intros j rq H. apply elem_of_app in H as [H|H]; [eapply (gi_req _ _ HI), H|apply elem_of_list_singleton in H; discriminate].
        * intros j r H. apply elem_of_app in H as [H|H]; [eapply (gi_ans _ _ HI), H|apply elem_of_list_singleton in H; discriminate].
        * intros i op H. rewrite Hst in H. apply elem_of_app in H as [H|H]; [eapply (gi_call _ _ HI), H|apply elem_of_list_singleton in H; discriminate].
        * apply (gi_own _ _ HI).
        * apply once_snoc; [apply (gi_once _ _ HI)|]. discriminate.
  Qed.
End Inv.

(** ** The calls of a batch *)
Definition good_call (B : list N) (pre : list (dop * list vis)) (op : dop) : Prop :=
  match op with
  | OCreate _ _ => True
  | OWrite id _ _ _ => exists key size, (OCreate key size, [VRet (RCreated id)]) ∈ pre
  | OCommit id ine => ine = false /\ exists key size ens tail, (OCreate key size, [VRet (RCreated id)]) ∈ pre /\
      Forall valid_entry ens /\ B = concat (map entry_bytes ens) ++ tail /\ key ∈ map fst ens
  | _ => False
  end.
Definition goods (B : list N) (pre cs : list (dop * list vis)) : Prop :=
  forall cs1 op vs cs2, cs = cs1 ++ (op, vs) :: cs2 -> good_call B (pre ++ cs1) op.
Lemma goods_nil B pre : goods B pre [].
Proof. intros cs1 op vs cs2 E. destruct cs1; discriminate E. Qed.
Lemma goods_cons B pre op vs cs : good_call B pre op -> goods B (pre ++ [(op, vs)]) cs -> goods B pre ((op, vs) :: cs).
Proof.
  intros H1 H2 cs1 op' vs' cs2 E. destruct cs1 as [|c cs1].
  - cbn in E. injection E as <- <- <-. rewrite app_nil_r. exact H1.
  - cbn in E. injection E as <- ->. specialize (H2 cs1 op' vs' cs2 eq_refl). rewrite <- app_assoc in H2. exact H2.
Qed.
Section BatchCalls.
  Variable s : server.
  Lemma parts_goods B fuel : forall id size offset body stop k pre cs r key sz,
    (OCreate key sz, [VRet (RCreated id)]) ∈ pre ->
    (forall pre' data rest cs r, pre ⊆ pre' -> concat body = data ++ concat rest -> N.of_nat (length data) = size - offset ->
       runs (k rest) cs r -> goods B pre' cs) ->
    runs (batch_parts_p s fuel id size offset body stop k) cs r -> goods B pre cs.
  Proof using.
    induction fuel as [|fuel IH]; intros id size offset body stop k pre cs r key sz Hpre Hk Hr; rewrite batch_parts_p_S in Hr.
    - destruct (N.leb_spec size offset) as [G|G].
      + eapply (Hk pre [] body); [reflexivity|reflexivity| |exact Hr]. cbn. clear -G. lia.
      + apply runs_ret_inv in Hr as [-> _]. apply goods_nil.
    - destruct (N.leb_spec size offset) as [G|G].
      + eapply (Hk pre [] body); [reflexivity|reflexivity| |exact Hr]. cbn. clear -G. lia.
      + pose proof (read_exact_spec body (N.to_nat (N.min (2 ^ sv_lpage s) (size - offset)))) as R.
        destruct (read_exact _ body) as [[chunk rest]|]; [|apply runs_ret_inv in Hr as [-> _]; apply goods_nil].
        destruct R as (R1 & R2 & R3). apply runs_call_inv in Hr as (vs & cs' & -> & Hr). apply goods_cons; [cbn; eauto|].
        assert (Hret : forall x cs', runs (Ret x) cs' r -> goods B (pre ++ [(OWrite id offset (N.of_nat (length chunk)) [Data chunk], vs)]) cs')
          by (intros x cs0 Hx; apply runs_ret_inv in Hx as [-> _]; apply goods_nil).
        destruct vs as [|[[]| |] [|? ?]]; try (eapply Hret; exact Hr).
        eapply (IH _ _ _ _ _ _ _ _ _ key sz); [apply elem_of_app; left; exact Hpre| |exact Hr].
        intros pre' data rest' cs r' Hsub E Hl Hr'. eapply (Hk pre' (chunk ++ data) rest').
        * intros x Hx. apply Hsub, elem_of_app. left. exact Hx.
        * rewrite <- app_assoc, <- E, R2, R3, take_drop. reflexivity.
        * rewrite app_length, R2, take_length, Nat.min_l by exact R1. revert Hl. clear -G. generalize (2 ^ sv_lpage s). intros L Hl. lia.
        * exact Hr'.
  Qed.
  Lemma loop_goods B fuel : forall body created pre ens cs r, Forall is_byte (concat body) ->
    Forall valid_entry ens -> B = concat (map entry_bytes ens) ++ concat body ->
    runs (batch_loop_p s fuel body created) cs r -> goods B pre cs.
  Proof using.
    induction fuel as [|fuel IH]; intros body created pre ens cs r Hbyte Hens HBB Hr; cbn [batch_loop_p] in Hr.
    { apply runs_ret_inv in Hr as [-> _]. apply goods_nil. }
    assert (Hret : forall x pre' cs', runs (Ret x) cs' r -> goods B pre' cs') by (intros x ? cs0 Hx; apply runs_ret_inv in Hx as [-> _]; apply goods_nil).
    set (B0 := concat body) in *.
    pose proof (read_exact_spec body 2) as R. fold B0 in R. destruct (read_exact 2 body) as [[kraw b1]|]; [|eapply Hret; exact Hr].
    destruct R as (R1 & -> & R2).
    pose proof (read_exact_spec b1 (N.to_nat (be_val (take 2 B0)))) as S. rewrite R2 in S.
    destruct (read_exact _ b1) as [[key b2]|]; [|eapply Hret; exact Hr]. destruct S as (S1 & Sk & S2).
    pose proof (read_exact_spec b2 5) as T. rewrite S2 in T. destruct (read_exact 5 b2) as [[sraw b3]|]; [|eapply Hret; exact Hr].
    destruct T as (T1 & Ts & T2). set (size := be_val sraw) in *.
    assert (HB : B0 = be_bytes 2 (N.of_nat (length key)) ++ key ++ be_bytes 5 size ++ concat b3).
    { assert (B0 = take 2 B0 ++ key ++ sraw ++ concat b3) as E.
      { rewrite T2, Ts, Sk, !take_drop. reflexivity. }
      rewrite E at 1. f_equal.
      - rewrite <- (be_bytes_val (take 2 B0)) at 1 by (apply Forall_take, Hbyte). rewrite take_length, Nat.min_l by exact R1. f_equal.
        rewrite Sk, take_length, Nat.min_l by exact S1. rewrite N2Nat.id. reflexivity.
      - f_equal. f_equal. unfold size. assert (length sraw = 5%nat) as L5 by (rewrite Ts, take_length; clear -T1; lia).
        rewrite <- L5 at 1. symmetry. apply be_bytes_val. rewrite Ts. apply Forall_take, Forall_drop, Forall_drop, Hbyte. }
    assert (Hkl : N.of_nat (length key) < 2 ^ 16).
    { rewrite Sk, take_length, Nat.min_l by exact S1. rewrite N2Nat.id.
      pose proof (be_val_lt (take 2 B0) ltac:(apply Forall_take, Hbyte)) as HL. rewrite take_length, Nat.min_l in HL by exact R1. exact HL. }
    assert (Hsz : size < 2 ^ 40).
    { assert (length sraw = 5%nat) as L5 by (rewrite Ts, take_length; clear -T1; lia).
      pose proof (be_val_lt sraw ltac:(rewrite Ts; apply Forall_take, Forall_drop, Forall_drop, Hbyte)) as HL. rewrite L5 in HL. exact HL. }
    clear R1 R2 S1 Sk S2 T1 Ts T2. clearbody size B0.
    apply runs_call_inv in Hr as (vs & cs' & -> & Hr). apply goods_cons; [exact I|].
    destruct vs as [|[[]| |] [|? ?]]; try (eapply Hret; exact Hr). rename tok into id.
    eapply (parts_goods B _ id size 0 b3 _ _ _ _ _ key size); [apply elem_of_app; right; left| |exact Hr].
    clear Hr cs'. intros pre' data rest cs r' Hsub E Hl Hr. apply runs_call_inv in Hr as (vs & cs' & -> & Hr).
    assert (Hent : Forall valid_entry (ens ++ [(key, data)])).
    { apply Forall_app. split; [exact Hens|]. constructor; [|constructor]. split; cbn [fst snd]; [exact Hkl|]. clear -Hl Hsz. lia. }
    assert (HB' : B = concat (map entry_bytes (ens ++ [(key, data)])) ++ concat rest).
    { rewrite HBB, HB, E, map_app, concat_app. cbn [map concat]. unfold entry_bytes at 3, batch_entry. cbn [fst snd].
      replace (N.of_nat (length data)) with size by (clear -Hl; lia). rewrite app_nil_r, <- !app_assoc. reflexivity. }
    apply goods_cons.
    - split; [reflexivity|]. exists key, size, (ens ++ [(key, data)]), (concat rest). split; [apply Hsub, elem_of_app; right; left|].
      split; [exact Hent|]. split; [exact HB'|]. rewrite map_app. apply elem_of_app. right. left.
    - destruct vs as [|[[]| |] [|? ?]]; try (apply runs_ret_inv in Hr as [-> _]; apply goods_nil).
      eapply IH; [|exact Hent|exact HB'|exact Hr]. rewrite HB, E in Hbyte. clear -Hbyte. rewrite !Forall_app in Hbyte. tauto.
  Qed.
End BatchCalls.

(** ** The calls of a request *)
Section Calls.
  Variable s : server.
  Definition one (p : prog) (op : dop) (f : list vis -> response) : Prop := p = Call op (fun vs => Ret (f vs)).
  Lemma one_runs p op f cs r : one p op f -> runs p cs r -> exists vs, cs = [(op, vs)] /\ r = f vs.
  Proof using. intros -> H. apply runs_call_inv in H as (vs & cs' & -> & H). apply runs_ret_inv in H as [-> ->]. eauto. Qed.
  Definition commit_answer (vs : list vis) : response :=
    match vs with [VRet (RCommitted _)] => Resp 201 | [VRet (RFailed e)] => Resp (status_of e) | _ => Aborted end.
  Definition delete_answer (vs : list vis) : response :=
    match vs with [VRet RDeleted] => Resp 200 | [VRet (RFailed e)] => Resp (status_of e) | _ => Aborted end.
  Definition create_answer (size : N) (vs : list vis) : response :=
    match vs with
    | [VRet (RCreated id)] => RespUpload 202 (upload_token (sv_mac s) (Itoken id 0) size)
    | [VRet (RFailed e)] => Resp (status_of e)
    | _ => Aborted
    end.
  Definition write_answer (id offset : N) (vs : list vis) : response :=
    match vs with
    | [VRet RWritten] => RespReceipt 202 (write_response (sv_mac s) (2 ^ sv_lpage s) (Itoken id 0) offset)
    | [VRet (RFailed e)] => Resp (status_of e)
    | _ => Aborted
    end.

  (** Every handler except the batch makes at most one call. *)
  Inductive shape (rq : request) : prog -> Prop :=
  | sh_ret r : match r with Resp _ | Aborted => True | _ => False end -> (forall receipts tok, rq_method rq = HPut tok receipts -> r <> Resp 201) ->
      (forall key, needs rq = Some (DeleteObject key) -> r = Resp 401) -> r <> Resp 200 -> shape rq (Ret r)
  | sh_create key size : needs rq = Some (CreateObject key size) -> shape rq (Call (OCreate key size) (fun vs => Ret (create_answer size vs)))
  | sh_write tok id size offset len body : rq_method rq = HPatch tok offset len body -> names s tok id size ->
      shape rq (Call (OWrite id offset len body) (fun vs => Ret (write_answer id offset vs)))
  | sh_commit tok id size receipts : rq_method rq = HPut tok receipts -> names s tok id size ->
      shape rq (Call (OCommit id false) (fun vs => Ret (commit_answer vs)))
  | sh_delete key : needs rq = Some (DeleteObject key) -> shape rq (Call (ODelete key None) (fun vs => Ret (delete_answer vs)))
  | sh_look key op f : looks key op -> needs rq = Some (ReadObject key) \/ needs rq = Some (InspectObject key) ->
      (forall vs, vs = [VRet (RFailed ObjectNotFound)] -> f vs = Resp 404) -> (forall vs c t, f vs <> RespUpload c t) -> (forall vs c t, f vs <> RespReceipt c t) ->
      shape rq (Call op (fun vs => Ret (f vs)))
  | sh_batch size body : needs rq = Some BatchCreateObjects -> rq_method rq = HPost size body -> shape rq (batch_loop_p s (S (length (concat body))) body 0).
  Lemma handle_shape rq : shape rq (handle s rq).
  Proof using.
    unfold handle. destruct (is_root rq) eqn:Eroot.
    { apply needs_root in Eroot.
      assert (needs rq = match rq_method rq with HPost _ _ => Some BatchCreateObjects | _ => None end) as Hn.
      { unfold needs. rewrite decide_True by exact Eroot. reflexivity. }
      destruct (rq_method rq) as [|  |size body| | | |] eqn:Em; try (apply sh_ret; [exact I|discriminate|intros key E; rewrite Hn in E; discriminate E|discriminate]).
      unfold h_batch. destruct (negb _); [|eapply sh_batch; eassumption].
      apply sh_ret; [exact I|discriminate|intros key E; rewrite Hn in E; discriminate E|discriminate]. }
    pose proof (needs_key rq Eroot) as Hn. cbv zeta. set (key := parse_key (rq_path rq)) in *.
    destruct (rq_method rq) as [range| |size body|tok receipts|tok offset len body| |] eqn:Em;
      try (assert (forall r, match r with Resp _ | Aborted => True | _ => False end -> r <> Resp 201 -> r <> Resp 200 -> shape rq (Ret r)) as Hret
        by (intros r H1 H2 H3; apply sh_ret; [exact H1|intros ? ? _; exact H2|intros key' E; rewrite Hn in E; discriminate E|exact H3])).
    - unfold h_read. destruct (negb _); [apply Hret; [exact I|discriminate|discriminate]|]. cbv zeta. set (ranges := default [] _) in *. clearbody ranges.
      destruct ranges as [|x [|y l]]; [| |apply Hret; [exact I|discriminate|discriminate]]; (destruct (range_start _) as [start|]; [|apply Hret; [exact I|discriminate|discriminate]]);
        (eapply sh_look; [right; eauto|left; exact Hn|intros vs ->; reflexivity|..]); intros vs c t; repeat case_match; discriminate.
    - unfold h_inspect. destruct (negb _); [apply Hret; [exact I|discriminate|discriminate]|].
      (eapply sh_look; [left; eauto|right; exact Hn|intros vs ->; reflexivity|..]); intros vs c t; repeat case_match; discriminate.
    - unfold h_create. destruct (negb _); [apply Hret; [exact I|discriminate|discriminate]|]. apply sh_create, Hn.
    - unfold h_commit, endpoint_commit. destruct (negb _); [apply Hret; [exact I|discriminate|discriminate]|].
      destruct (parse_upload_token (sv_mac s) tok) as [[[id part] size]|] eqn:Ep; [|apply Hret; [exact I|discriminate|discriminate]].
      destruct (verify_write_receipts _ _ _ _ _); [|apply Hret; [exact I|discriminate|discriminate]].
      unfold on_partition. cbn [it_partition it_object]. destruct (N.eqb_spec part 0) as [->|Hp]; [|apply Hret; [exact I|discriminate|discriminate]].
      eapply sh_commit; eassumption.
    - unfold h_write, endpoint_write. destruct (negb _); [apply Hret; [exact I|discriminate|discriminate]|].
      destruct (parse_upload_token (sv_mac s) tok) as [[[id part] size]|] eqn:Ep; [|apply Hret; [exact I|discriminate|discriminate]].
      unfold on_partition. cbn [it_partition it_object]. destruct (N.eqb_spec part 0) as [->|Hp]; [|apply Hret; [exact I|discriminate|discriminate]].
      eapply sh_write; eassumption.
    - unfold h_delete. destruct (auth_ok s rq (DeleteObject key)) eqn:Ea; cbn [negb]; [apply sh_delete, Hn|].
      apply sh_ret; [exact I|intros ? ?; rewrite Em; discriminate| |discriminate].
      reflexivity.
    - apply Hret; [exact I|discriminate|discriminate].
  Qed.

  Lemma shape_call rq pre op vs post r : request_ok s rq -> shape rq (handle s rq) -> runs (handle s rq) (pre ++ (op, vs) :: post) r ->
    match op with
    | ODelete key id => needs rq = Some (DeleteObject key) /\ r = delete_answer vs
    | OCommit id ine => ine = false /\
        ((exists tok receipts size, rq_method rq = HPut tok receipts /\ names s tok id size /\ r = commit_answer vs) \/
         (exists size body, needs rq = Some BatchCreateObjects /\ rq_method rq = HPost size body /\ good_call (concat body) pre (OCommit id ine)))
    | OWrite id offset len st =>
        (exists tok size, rq_method rq = HPatch tok offset len st /\ names s tok id size) \/
        (needs rq = Some BatchCreateObjects /\ exists key size, (OCreate key size, [VRet (RCreated id)]) ∈ pre)
    | _ => True
    end.
  Proof using.
    intros Hok Hsh Hr. remember (handle s rq) as p eqn:Ep. 
    assert (Hone : forall op0 f, p = Call op0 (fun vs => Ret (f vs)) -> op = op0 /\ r = f vs).
    { intros op0 f E. destruct (one_runs p op0 f _ _ E Hr) as (vs0 & E0 & ->). destruct pre as [|x pre]; [|destruct pre; discriminate E0]. injection E0 as -> -> ->. auto. }
    destruct Hsh as [x|key size|tok id size offset len body|tok id size receipts|key|key op0 f Hl|size body Hn Em].
    - apply runs_ret_inv in Hr as [E _]. destruct pre; discriminate E.
    - destruct (Hone _ _ eq_refl) as [-> _]. exact I.
    - destruct (Hone _ _ eq_refl) as [-> _]. left. eauto.
    - destruct (Hone _ _ eq_refl) as [-> ->]. split; [reflexivity|]. left. eauto 6.
    - destruct (Hone _ _ eq_refl) as [-> ->]. auto.
    - destruct (Hone _ _ eq_refl) as [-> _]. destruct Hl as [(id & ->)|(id & start & fin & buffer & ->)]; exact I.
    - unfold request_ok in Hok. rewrite Em in Hok. destruct Hok as [_ Hb].
      pose proof (loop_goods s (concat body) _ body 0 [] [] _ r Hb ltac:(constructor) eq_refl Hr pre op vs post eq_refl) as HG. cbn [app] in HG.
      destruct op; try exact I; try contradiction HG.
      + right. split; [exact Hn|]. exact HG.
      + split; [apply HG|]. right. exists size, body. split; [exact Hn|]. split; [exact Em|exact HG].
  Qed.
End Calls.

Lemma in_vis_of i v ls : v ∈ vis_of i ls <-> LVis i v ∈ ls.
Proof.
  induction ls as [|l ls IH]; cbn; [split; intros H; now apply elem_of_nil in H|].
  destruct l as [j op|j w|]; cbn; rewrite elem_of_cons.
  - rewrite IH. split; [auto|]. intros [H|H]; [discriminate|exact H].
  - rewrite elem_of_app, IH. destruct (Nat.eqb_spec j i) as [->|Hne].
    + rewrite elem_of_list_singleton. split; [intros [->|H]; auto|]. intros [H|H]; [injection H as <-; auto|auto].
    + split; [intros [H|H]; [now apply elem_of_nil in H|auto]|]. intros [H|H]; [injection H as <- <-; congruence|auto].
  - rewrite IH. split; [auto|]. intros [H|H]; [discriminate|exact H].
Qed.

Section Main.
  Variable s : server.
  Variable es : list event.
  Variable gs : list ghost.
  Notation ls := (store_labels es).
  Hypothesis Hmac : is_mac (sv_mac s).
  Hypothesis HI : GInv s es gs.
  Hypothesis Hok : forall j rq, EReq j rq ∈ es -> request_ok s rq.
  Hypothesis Hwf : wf_labels ls.
  Hypothesis Hbound : forall i id, LVis i (VRet (RCreated id)) ∈ ls -> id < 2 ^ 128.
  Hypothesis Huniq : forall tok k z k' z', created_as ls tok k z -> created_as ls tok k' z' -> k' = k /\ z' = z.
  Hypothesis Honce : forall i j tok, LVis i (VRet (RCreated tok)) ∈ ls -> LVis j (VRet (RCreated tok)) ∈ ls -> i = j.

  Lemma once_ev e a b : store_label e = None -> precedes es a e -> precedes es e b -> precedes es a b.
  Proof using HI. intros He. apply precedes_trans, (gi_once _ _ _ HI), He. Qed.

  Lemma answered j rq r : EReq j rq ∈ es -> EAns j r ∈ es -> exists g, gs !! j = Some g /\ g_rq g = rq /\ g_st g = HOver /\
    runs (handle s rq) (map snd (g_cs g)) r /\
    forall i op vs, (i, (op, vs)) ∈ g_cs g -> precedes es (EReq j rq) (EStore (LCall i op)) /\ vs = vis_of i ls /\
      exists v, is_final v = true /\ precedes es (EStore (LVis i v)) (EAns j r).
  Proof using HI.
    intros H1 H2. destruct (gi_req _ _ _ HI _ _ H1) as (g & Hg & <-). pose proof (gi_ok _ _ _ HI _ _ Hg) as HG.
    pose proof (gk_st _ _ _ _ HG) as Hst. unfold st_ok in Hst. exists g. destruct (g_st g) as [p|i k sn|].
    - exfalso. eapply Hst, H2.
    - exfalso. destruct Hst as (op & _ & _ & _ & Hst). eapply Hst, H2.
    - destruct Hst as (r' & A1 & A2 & A3 & A4). specialize (A2 _ H2) as ->. split; [exact Hg|]. split; [reflexivity|]. split; [reflexivity|]. split; [exact A3|].
      intros i op vs Hin. destruct (gk_cs _ _ _ _ HG _ _ _ Hin) as (B1 & B2 & _). split; [exact B1|]. split; [exact B2|]. exact (A4 _ _ _ Hin).
  Qed.
  (** The owner of a call. *)
  Lemma call_facts i op : LCall i op ∈ ls -> exists j g pre vs post r',
    gs !! j = Some g /\ i ∈ g_ids g /\ runs (handle s (g_rq g)) (pre ++ (op, vs) :: post) r' /\
    (forall x, x ∈ pre -> exists i', (i', x) ∈ g_cs g) /\ EReq j (g_rq g) ∈ es /\ precedes es (EReq j (g_rq g)) (EStore (LCall i op)) /\
    (forall r, EAns j r ∈ es -> r' = r /\ vs = vis_of i ls /\ exists v, is_final v = true /\ precedes es (EStore (LVis i v)) (EAns j r)).
  Proof using HI Hwf.
    intros Hc. destruct (gi_call _ _ _ HI _ _ Hc) as (j & g & Hg & Hi). pose proof (gi_ok _ _ _ HI _ _ Hg) as HG. pose proof (gk_st _ _ _ _ HG) as Hst.
    unfold st_ok in Hst. pose proof Hi as Hi'. unfold g_ids in Hi. apply elem_of_app in Hi as [Hi|Hi].
    - apply elem_of_list_In, in_map_iff in Hi as ((i' & op' & vs) & E & Hin). cbn in E. subst i'. apply elem_of_list_In in Hin.
      destruct (gk_cs _ _ _ _ HG _ _ _ Hin) as (B1 & B2 & B3).
      assert (op' = op) as -> by (eapply (wf_once ls); [exact Hwf| |exact Hc]; apply in_store, (precedes_in _ _ _ B1)).
      pose proof Hin as Hin'. apply elem_of_list_split in Hin as (c1 & c2 & Ecs).
      assert (exists post r', runs (handle s (g_rq g)) (map snd c1 ++ (op, vs) :: post) r' /\
        forall r, EAns j r ∈ es -> r' = r /\ exists v, is_final v = true /\ precedes es (EStore (LVis i v)) (EAns j r)) as (post & r' & R1 & R2).
      { destruct (g_st g) as [p|i' k sn|]; rewrite Ecs in Hst.
        - destruct Hst as [A1 A2]. destruct (some_run p) as (cs & r & Hr). specialize (A1 _ _ Hr). rewrite map_app, <- app_assoc in A1.
          eexists _, r. split; [exact A1|]. intros r0 H0. exfalso. eapply A2, H0.
        - destruct Hst as (op' & _ & _ & A1 & A2). destruct (some_run (k [])) as (cs & r & Hr). specialize (A1 _ _ _ Hr). rewrite map_app, <- app_assoc in A1.
          eexists _, r. split; [exact A1|]. intros r0 H0. exfalso. eapply A2, H0.
        - destruct Hst as (r & _ & A1 & A2 & A3). rewrite map_app in A2. eexists _, r. split; [exact A2|]. intros r0 H0. rewrite (A1 _ H0). split; [reflexivity|].
          eapply A3. rewrite <- Ecs. exact Hin'. }
      exists j, g, (map snd c1), vs, post, r'. split; [exact Hg|]. split; [exact Hi'|]. split; [exact R1|]. split.
      { intros x Hx. apply elem_of_list_In, in_map_iff in Hx as ((i' & y) & E & Hy). cbn in E. subst y. exists i'. rewrite Ecs. apply elem_of_app. left. apply elem_of_list_In, Hy. }
      split; [apply (gk_req _ _ _ _ HG)|]. split; [exact B1|]. intros r Hr. destruct (R2 _ Hr) as [-> R3]. auto.
    - destruct (g_st g) as [p|i' k sn|]; try (now apply elem_of_nil in Hi). apply elem_of_list_singleton in Hi. subst i'.
      destruct Hst as (op' & A1 & A2 & A3 & A4).
      assert (op' = op) as -> by (eapply (wf_once ls); [exact Hwf| |exact Hc]; apply in_store, (precedes_in _ _ _ A1)).
      destruct (some_run (k [])) as (cs & r & Hr). exists j, g, (map snd (g_cs g)), [], cs, r. split; [exact Hg|]. split; [exact Hi'|]. split; [apply A3, Hr|]. split.
      { intros x Hx. apply elem_of_list_In, in_map_iff in Hx as ((i' & y) & E & Hy). cbn in E. subst y. exists i'. apply elem_of_list_In, Hy. }
      split; [apply (gk_req _ _ _ _ HG)|]. split; [exact A1|]. intros r0 H0. exfalso. eapply A4, H0.
  Qed.
  Lemma apart_of i op j rq a b la lb : precedes es (EReq j rq) (EStore (LCall i op)) ->
    (forall r, EAns j r ∈ es -> exists v, is_final v = true /\ precedes es (EStore (LVis i v)) (EAns j r)) ->
    req_apart es j rq a b -> store_label a = None -> store_label b = None -> precedes es a (EStore la) -> precedes es (EStore lb) b -> apart ls i op la lb.
  Proof using HI.
    intros H1 H2 [(r & H)|H] Ha Hb Hla Hlb.
    - left. destruct (H2 r) as (v & V1 & V2); [apply (precedes_in _ _ _ H)|]. exists v. split; [exact V1|]. apply precedes_store.
      eapply (once_ev a); [exact Ha| |exact Hla]. eapply (once_ev (EAns j r)); [reflexivity|exact V2|exact H].
    - right. apply precedes_store. eapply (once_ev b); [exact Hb|exact Hlb|]. eapply (once_ev (EReq j rq)); [reflexivity|exact H|exact H1].
  Qed.

  (** Uploads and the tokens for them. *)
  Lemma made tok key size : upload_made es tok key size -> exists id i j g, names s tok id size /\
    LCall i (OCreate key size) ∈ ls /\ LVis i (VRet (RCreated id)) ∈ ls /\ gs !! j = Some g /\ i ∈ g_ids g /\ needs (g_rq g) = Some (CreateObject key size).
  Proof using Hmac HI Hok Hbound.
    intros (j & rq & H1 & H2 & Hn). destruct (answered _ _ _ H1 H2) as (g & G1 & G2 & G3 & G4 & G5).
    assert (exists vs, map snd (g_cs g) = [(OCreate key size, vs)] /\ RespUpload 202 tok = create_answer s size vs) as (vs & E & Et).
    { remember (handle s rq) as p eqn:Ep in G4. pose proof (handle_shape s rq) as Hsh. rewrite <- Ep in Hsh.
      destruct Hsh as [x Hx|key' size' Hn'|tok' id size' offset len body|tok' id size' receipts|key'|key' op0 f Hl _ _ Hf1 Hf2|size' body Hn' Em].
      - apply runs_ret_inv in G4 as [_ <-]. contradiction Hx.
      - rewrite Hn in Hn'. injection Hn' as <- <-. exact (one_runs _ _ _ _ _ eq_refl G4).
      - destruct (one_runs _ _ (write_answer s id offset) _ _ eq_refl G4) as (vs & _ & E). unfold write_answer in E. repeat case_match; discriminate E.
      - destruct (one_runs _ _ commit_answer _ _ eq_refl G4) as (vs & _ & E). unfold commit_answer in E. repeat case_match; discriminate E.
      - destruct (one_runs _ _ delete_answer _ _ eq_refl G4) as (vs & _ & E). unfold delete_answer in E. repeat case_match; discriminate E.
      - destruct (one_runs _ _ f _ _ eq_refl G4) as (vs & _ & E). exfalso. eapply Hf1. symmetry. exact E.
      - congruence. }
    destruct (g_cs g) as [|[i [op' vs']] [|? ?]] eqn:Ecs; try discriminate E. cbn in E. injection E as -> ->.
    destruct (G5 i (OCreate key size) vs ltac:(left)) as (B1 & B2 & _). unfold create_answer in Et.
    destruct vs as [|[[id| | | | | | |]| |] [|? ?]]; try discriminate Et. injection Et as ->.
    assert (LVis i (VRet (RCreated id)) ∈ ls) as Hv by (apply in_vis_of; rewrite <- B2; left).
    exists id, i, j, g. split.
    { apply issued; [exact Hmac|eapply Hbound, Hv|]. pose proof (Hok _ _ H1) as Hk. unfold request_ok in Hk. unfold needs in Hn.
      destruct (decide _); destruct (rq_method rq); try discriminate Hn. injection Hn as _ <-. apply Hk. }
    split; [apply in_store, (precedes_in _ _ _ B1)|]. split; [exact Hv|]. split; [exact G1|]. split; [unfold g_ids; rewrite Ecs; left|]. rewrite G2. exact Hn.
  Qed.
  Lemma made_created tok key size : upload_made es tok key size -> exists id, names s tok id size /\ created_as ls id key size.
  Proof using Hmac HI Hok Hbound. intros H. destruct (made _ _ _ H) as (id & i & _ & _ & H1 & H2 & H3 & _). exists id. split; [exact H1|]. exists i. auto. Qed.
  Lemma names_of tok id size : names s tok id size -> upload_of s tok = Some (Itoken id 0).
  Proof using. intros H. unfold upload_of. rewrite H. reflexivity. Qed.

  (** A call that may change a key belongs to a request that may touch it. *)
  Lemma may_owner key i op : LCall i op ∈ ls -> may_change ls key i op -> exists j g,
    gs !! j = Some g /\ i ∈ g_ids g /\ EReq j (g_rq g) ∈ es /\ may_touch s es key j (g_rq g) /\
    forall a b la lb, req_apart es j (g_rq g) a b -> store_label a = None -> store_label b = None -> precedes es a (EStore la) -> precedes es (EStore lb) b -> apart ls i op la lb.
  Proof using Hmac HI Hok Hwf Hbound Huniq.
    intros Hc [Hm Hne]. destruct (call_facts _ _ Hc) as (j & g & pre & vs & post & r' & G1 & G2 & G3 & G4 & G5 & G6 & G7).
    exists j, g. split; [exact G1|]. split; [exact G2|]. split; [exact G5|]. split.
    2: { intros a b la lb H1 H2 H3 H4 H5. eapply apart_of; try eassumption. intros r Hr. apply (G7 _ Hr). }
    assert (Hvs : forall r e, EAns j r ∈ es -> VRet (RFailed e) ∉ vs).
    { intros r e Hr Hin. destruct (G7 _ Hr) as (_ & -> & _). apply in_vis_of in Hin. eapply Hne, Hin. }
    pose proof (shape_call s (g_rq g) _ _ _ _ _ (Hok _ _ G5) (handle_shape s (g_rq g)) G3) as Hsh.
    destruct op; try contradiction Hm.
    - (* commit *) destruct Hsh as [-> [(tok' & receipts & size & Em & Hn & Er)|(size & body & Hn & Em & Hg)]].
      + right. left. exists tok', receipts. split; [exact Em|]. split.
        * intros (tok2 & key' & size' & Hu & Hk & Eo). destruct (made_created _ _ _ Hu) as (id & N1 & N2).
          rewrite (names_of _ _ _ N1), (names_of _ _ _ Hn) in Eo. injection Eo as ->. destruct Hm as [size2 Hm]. destruct (Huniq _ _ _ _ _ Hm N2) as [-> _]. now apply Hk.
        * intros r Hr. destruct (G7 _ Hr) as (<- & _ & _). rewrite Er. unfold commit_answer. pose proof (fun e => Hvs _ e Hr) as Hx.
          destruct vs as [|[[]| |] [|? ?]]; auto. exfalso. eapply Hx. left.
      + right. right. destruct Hg as (_ & key' & size' & ens & tail & P1 & P2 & P3 & P4). exists size, body, ens, tail.
        split; [exact Hn|]. split; [exact Em|]. split; [exact P2|]. split; [exact P3|]. destruct Hm as [size2 Hm].
        enough (key' = key) as <- by exact P4. destruct (G4 _ P1) as (i' & Hi'). pose proof (gi_ok _ _ _ HI _ _ G1) as HG.
        destruct (gk_cs _ _ _ _ HG _ _ _ Hi') as (B1 & B2 & _). eapply (Huniq tok); [exact Hm|]. exists i'. split.
        * apply in_store, (precedes_in _ _ _ B1).
        * apply in_vis_of. rewrite <- B2. left.
    - (* delete *) destruct Hsh as [Hn Er]. left. rewrite Hm in Hn. split; [exact Hn|]. intros r Hr. destruct (G7 _ Hr) as (<- & _ & _). rewrite Er. unfold delete_answer.
      pose proof (fun e => Hvs _ e Hr) as Hx. destruct vs as [|[[]| |] [|? ?]]; auto. exfalso. eapply Hx. left.
  Qed.

  (** Writes of parts. *)
  Lemma part_call tok key size offset bytes jc rqc rc la lb : upload_made es tok key size ->
    part_settled s es tok offset bytes (EReq jc rqc) (EAns jc rc) ->
    precedes es (EReq jc rqc) (EStore la) -> precedes es (EStore lb) (EAns jc rc) ->
    forall id, names s tok id size -> settled_part ls id offset bytes la lb.
  Proof using Hmac HI Hok Hwf Hbound Honce.
    intros Hu (j & rq & receipt & len & body & H1 & H2 & H3 & H4 & H5) Hla Hlb id Hn.
    assert (EAns j (RespReceipt 202 receipt) ∈ es) as Ha by apply (precedes_in _ _ _ H3).
    destruct (answered _ _ _ H1 Ha) as (g & G1 & G2 & G3 & G4 & G5).
    assert (exists id' size', names s tok id' size' /\ exists vs, map snd (g_cs g) = [(OWrite id' offset len body, vs)] /\ RespReceipt 202 receipt = write_answer s id' offset vs)
      as (id' & size' & Hn' & vs & E & Et).
    { remember (handle s rq) as p eqn:Ep in G4. pose proof (handle_shape s rq) as Hsh. rewrite <- Ep in Hsh.
      destruct Hsh as [x Hx|key' size' Hn'|tok' id' size' offset' len' body' Em Hn'|tok' id' size' receipts|key'|key' op0 f Hl _ _ Hf1 Hf2|size' body' Hn' Em].
      - apply runs_ret_inv in G4 as [_ <-]. contradiction Hx.
      - destruct (one_runs _ _ (create_answer s size') _ _ eq_refl G4) as (vs & _ & E). unfold create_answer in E. repeat case_match; discriminate E.
      - rewrite H2 in Em. injection Em as <- <- <- <-. exists id', size'. split; [exact Hn'|]. exact (one_runs _ _ _ _ _ eq_refl G4).
      - destruct (one_runs _ _ commit_answer _ _ eq_refl G4) as (vs & _ & E). unfold commit_answer in E. repeat case_match; discriminate E.
      - destruct (one_runs _ _ delete_answer _ _ eq_refl G4) as (vs & _ & E). unfold delete_answer in E. repeat case_match; discriminate E.
      - destruct (one_runs _ _ f _ _ eq_refl G4) as (vs & _ & E). exfalso. eapply Hf2. symmetry. exact E.
      - congruence. }
    unfold names in Hn, Hn'. rewrite Hn in Hn'. injection Hn' as <- <-.
    destruct (g_cs g) as [|[i [op' vs']] [|? ?]] eqn:Ecs; try discriminate E. cbn in E. injection E as -> ->.
    destruct (G5 i (OWrite id offset len body) vs ltac:(left)) as (B1 & B2 & v & B3 & B4). unfold write_answer in Et.
    destruct vs as [|[[| | | | | | |]| |] [|? ?]]; try discriminate Et.
    assert (v = VRet RWritten) as ->.
    { assert (v ∈ vis_of i ls) as Hv by (apply in_vis_of, in_store, (precedes_in _ _ _ B4)). rewrite <- B2 in Hv. now apply elem_of_list_singleton in Hv. }
    exists i, len, body. cbv zeta. split; [apply in_store, (precedes_in _ _ _ B1)|]. split; [|split; [exact H4|]].
    - apply precedes_store. eapply (once_ev (EReq jc rqc)); [reflexivity| |exact Hla]. eapply (once_ev (EAns j (RespReceipt 202 receipt))); [reflexivity|exact B4|exact H3].
    - intros i' len' st' Hc Hne. destruct (call_facts _ _ Hc) as (j' & g' & pre & vs' & post & r' & K1 & K2 & K3 & K4 & K5 & K6 & K7).
      pose proof (shape_call s (g_rq g') _ _ _ _ _ (Hok _ _ K5) (handle_shape s (g_rq g')) K3) as Hsh. cbn in Hsh.
      destruct Hsh as [(tok' & size' & Em & Hn')|(Hb & key' & size' & Hin)].
      + eapply (apart_of i' _ j' (g_rq g') (EReq j rq) (EAns jc rc)); [exact K6|intros r Hr; apply (K7 _ Hr)| |reflexivity|reflexivity|exact B1|exact Hlb].
        eapply H5; [exact K5|exact Em| |].
        * rewrite (names_of _ _ _ Hn'), (names_of _ _ _ Hn). reflexivity.
        * intros ->. rewrite G1 in K1. injection K1 as <-. apply Hne. unfold g_ids in K2. rewrite Ecs, G3 in K2. cbn in K2. now apply elem_of_list_singleton in K2.
      + exfalso. destruct (K4 _ Hin) as (i2 & Hi2). pose proof (gi_ok _ _ _ HI _ _ K1) as HG'. destruct (gk_cs _ _ _ _ HG' _ _ _ Hi2) as (C1 & C2 & _).
        destruct (made _ _ _ Hu) as (id0 & i0 & j0 & g0 & M1 & M2 & M3 & M4 & M5 & M6). unfold names in M1. rewrite Hn in M1. injection M1 as <-.
        assert (i0 = i2) as -> by (eapply Honce; [exact M3|]; apply in_vis_of; rewrite <- C2; left).
        assert (j0 = j') as ->.
        { eapply (gi_own _ _ _ HI i2); [exact M4|exact K1|exact M5|]. unfold g_ids. apply elem_of_app. left. apply elem_of_list_In, in_map_iff.
          exists (i2, (OCreate key' size', [VRet (RCreated id)])). split; [reflexivity|]. apply elem_of_list_In, Hi2. }
        rewrite K1 in M4. injection M4 as <-. congruence.
  Qed.
End Main.

(** ** The server on a partition *)
Section Server.
  Variable s : server.
  Variable c : dcfg.
  Variable pages : list (list N).
  Variable es : list event.
  Notation ls := (store_labels es).
  Hypothesis Hmac : is_mac (sv_mac s).
  Hypothesis Hcfg : cfg_ok c.
  Hypothesis Hrun : conc_run s c pages es.
  Hypothesis Hok : forall j rq, EReq j rq ∈ es -> request_ok s rq.

  Lemma run_facts : exists gs ls' z', GInv s es gs /\ wf_labels ls /\
    (forall i id, LVis i (VRet (RCreated id)) ∈ ls -> id < 2 ^ 128) /\
    (forall tok k z k' z', created_as ls tok k z -> created_as ls tok k' z' -> k' = k /\ z' = z) /\
    (forall i j tok, LVis i (VRet (RCreated tok)) ∈ ls -> LVis j (VRet (RCreated tok)) ∈ ls -> i = j) /\
    spec_steps (sv_lpage s) {| z_state := ss_empty; z_procs := [] |} ls' z' /\ visible ls' = visible ls.
  Proof using Hcfg Hrun Hok.
    destruct Hrun as [y0 y hs Hf Hd Hlp Hh]. pose proof (ck_lpage _ Hcfg) as Hlt. rewrite <- Hlp in Hlt.
    destruct (inv_run s Hlt es hs Hh Hok) as (gs & _ & HI & Hv).
    { intros l1 l2 E Hv. destruct (dsteps_prefix _ _ _ _ Hd _ _ E) as (y1 & H1). rewrite Hlp in Hv. eapply dsteps_wf; eassumption. }
    rewrite Hlp in Hv. pose proof (fresh_good _ _ _ (ck_pages _ Hcfg) Hf) as HG.
    destruct (good_steps _ _ _ _ _ Hcfg Hv HG Hd) as (ls' & z' & lk & zz & H1 & H2 & _). rewrite <- Hlp in H1.
    destruct (trace_of _ _ _ _ H1) as (zs & Hz0 & _ & Hzs).
    assert (Hin : forall l, is_visible l = true -> l ∈ ls' <-> l ∈ ls) by (intros l Hl; rewrite <- (in_visible l ls' Hl), <- (in_visible l ls Hl), H2; reflexivity).
    exists gs, ls', z'. split; [exact HI|]. split; [eapply dsteps_wf; eassumption|]. split.
    { eapply created_bound; [exact Hd|apply (fp_procs _ _ _ Hf)]. }
    split.
    { intros tok k z k' z1 A B. eapply (DirectReal.created_unique (sv_lpage s) ls' zs Hz0 Hzs); apply created_visible; rewrite H2; apply created_visible; eassumption. }
    split; [|auto].
    intros i j tok A B. apply (Hin (LVis i (VRet (RCreated tok))) eq_refl) in A. apply (Hin (LVis j (VRet (RCreated tok))) eq_refl) in B.
    apply elem_of_list_lookup in A as [p A]. apply elem_of_list_lookup in B as [q B].
    pose proof (DirectReal.created_once (sv_lpage s) ls' zs Hz0 Hzs _ _ _ _ _ A B) as ->. rewrite A in B. now injection B as ->.
  Qed.

  Lemma last_without Q rq r Q' key : serves s Q rq r Q' -> q_com Q !! key = None -> answers_without s key rq r.
  Proof using.
    intros H Ho. split.
    - intros range Hn Hp Em. inversion H; subst; try congruence.
      + exfalso. match goal with A : _ \/ _ |- _ => destruct A as [(? & ? & ? & ?)|(? & ?)]; congruence end.
      + match goal with A : needs rq = Some (ReadObject ?k) |- _ => rewrite Hn in A; injection A as <- end.
        rewrite Ho. cbn [fmap option_fmap option_map]. unfold endpoint_read. cbv zeta. repeat case_match; simplify_eq; auto.
    - intros Hn Hp. inversion H; subst; try congruence.
      + exfalso. match goal with A : needs rq = Some ?a, C : _ \/ _ |- _ => rewrite Hn in A; injection A as <- end.
        unfold needs in Hn. match goal with A : _ \/ _ |- _ => destruct A as [(? & ? & ? & E)|(? & E)]; rewrite E in Hn end; destruct (decide _); discriminate Hn.
      + exfalso. unfold needs in Hn. match goal with A : rq_method rq = _ |- _ => rewrite A in Hn end. destruct (decide _); discriminate Hn.
      + match goal with A : needs rq = Some (InspectObject ?k) |- _ => rewrite Hn in A; injection A as <- end.
        rewrite Ho. reflexivity.
  Qed.

  (** What a GET or HEAD does. *)
  Lemma look_shape rq cs r key : runs (handle s rq) cs r -> needs rq = Some (ReadObject key) \/ needs rq = Some (InspectObject key) ->
    cs = [] \/ exists op vs, cs = [(op, vs)] /\ looks key op.
  Proof using.
    intros Hr Hn. remember (handle s rq) as p eqn:Ep. pose proof (handle_shape s rq) as Hsh. rewrite <- Ep in Hsh.
    destruct Hsh as [x Hx|key' size' Hn'|tok' id size' offset len body Em|tok' id size' receipts Em|key' Hn'|key' op0 f Hl Hn' _ _ _|size' body Hn' Em].
    - apply runs_ret_inv in Hr as [-> _]. auto.
    - exfalso. destruct Hn as [Hn|Hn]; rewrite Hn in Hn'; discriminate.
    - exfalso. unfold needs in Hn. rewrite Em in Hn. destruct (decide _); destruct Hn; discriminate.
    - exfalso. unfold needs in Hn. rewrite Em in Hn. destruct (decide _); destruct Hn; discriminate.
    - exfalso. destruct Hn as [Hn|Hn]; rewrite Hn in Hn'; discriminate.
    - right. assert (key' = key) as -> by (destruct Hn as [Hn|Hn], Hn' as [Hn'|Hn']; congruence).
      destruct (one_runs _ _ f _ _ eq_refl Hr) as (vs & -> & _). eauto.
    - exfalso. destruct Hn as [Hn|Hn]; rewrite Hn in Hn'; discriminate.
  Qed.

  Theorem conc_uploaded key data tok jc rqc receipts jr rqr r :
    upload_made es tok key (N.of_nat (length data)) ->
    EReq jc rqc ∈ es -> rq_method rqc = HPut tok receipts -> precedes es (EAns jc (Resp 201)) (EReq jr rqr) -> EAns jr r ∈ es ->
    (forall i, i * 2 ^ sv_lpage s < N.of_nat (length data) ->
       part_settled s es tok (i * 2 ^ sv_lpage s) (take (N.to_nat (2 ^ sv_lpage s)) (drop (N.to_nat (i * 2 ^ sv_lpage s)) data)) (EReq jc rqc) (EAns jc (Resp 201))) ->
    (forall j rq, EReq j rq ∈ es -> may_touch s es key j rq -> j <> jc -> req_apart es j rq (EReq jc rqc) (EAns jr r)) ->
    answers_with s key data rqr r.
  Proof using Hmac Hcfg Hrun Hok.
    intros Hu Hrc Em Hpre Har Hparts Hap. destruct run_facts as (gs & ls' & z' & HI & Hwf & Hbound & Huniq & Honce & Hspec & Hvis).
    assert (Hac : EAns jc (Resp 201) ∈ es) by apply (precedes_in _ _ _ Hpre). assert (Hrr : EReq jr rqr ∈ es) by apply (precedes_in _ _ _ Hpre).
    assert (Hin : forall l, is_visible l = true -> l ∈ ls' <-> l ∈ ls) by (intros l Hl; rewrite <- (in_visible l ls' Hl), <- (in_visible l ls Hl), Hvis; reflexivity).
    (* the object to be found *)
    assert (Hans : forall o cs Q', content o = data -> runs (handle s rqr) cs r -> chain (sv_lpage s) {| q_up := ∅; q_com := {[ key := o ]}; q_ids := ∅ |} cs Q' ->
      (forall op vs id, (op, vs) ∈ cs -> VRet (RCreated id) ∈ vs -> id < 2 ^ 128) -> answers_with s key data rqr r).
    { intros o cs Q' Ho Hr Hch Hids. eapply (last_answer s {| q_up := ∅; q_com := {[ key := o ]}; q_ids := ∅ |} rqr r Q' key o data); [|cbn; apply lookup_singleton|exact Ho].
      eapply request_refines; [apply Hmac|apply Hmac|apply (Hok _ _ Hrr)|exact Hids|exact Hr|exact Hch]. }
    destruct (answered s es gs HI _ _ _ Hrr Har) as (gr & R1 & R2 & R3 & R4 & R5).
    (* requests that do not look at the key *)
    assert (Hdec : {needs rqr = Some (ReadObject key) \/ needs rqr = Some (InspectObject key)} + {~ (needs rqr = Some (ReadObject key) \/ needs rqr = Some (InspectObject key))}).
    { destruct (needs rqr) as [[|k1|k1 z1|k1|k1|k1|k1]|]; try (right; intros [H|H]; discriminate H);
        (destruct (decide (k1 = key)) as [->|Hne]; [left; auto|right; intros [H|H]; try discriminate H; injection H as H; congruence]). }
    destruct Hdec as [Hlook|Hnot]; [|exists 0; split; [intros range H|intros H]; exfalso; apply Hnot; auto].
    destruct (look_shape _ _ _ _ R4 Hlook) as [E|(op & vs & E & Hop)].
    { set (o := {| co_id := 0; co_size := N.of_nat (length data); co_created := 0; co_bytes := fun i => default 0 (data !! N.to_nat i) |}).
      rewrite E in R4. eapply (Hans o [] _); [|exact R4|constructor|intros ? ? ? H; now apply elem_of_nil in H].
      apply content_of; [reflexivity|]. intros i b Hi. cbn. rewrite Nat2N.id, Hi. reflexivity. }
    destruct (g_cs gr) as [|[ir [op' vs']] [|? ?]] eqn:Ecr; try discriminate E. cbn in E. injection E as -> ->.
    destruct (R5 ir op vs ltac:(left)) as (B1 & B2 & v & B3 & B4).
    (* the upload and the commit *)
    destruct (made_created s es gs Hmac HI Hok Hbound _ _ _ Hu) as (id & Hn & Hcr).
    destruct (answered s es gs HI _ _ _ Hrc Hac) as (g & G1 & G2 & G3 & G4 & G5).
    assert (exists id' size', names s tok id' size' /\ exists vs, map snd (g_cs g) = [(OCommit id' false, vs)] /\ Resp 201 = commit_answer vs)
      as (id' & size' & Hn' & cvs & E & Et).
    { remember (handle s rqc) as p eqn:Ep in G4. pose proof (handle_shape s rqc) as Hsh. rewrite <- Ep in Hsh.
      destruct Hsh as [x _ Hx _ _|key' sz Hn'|tok' id' sz offset' len' body' Em'|tok' id' sz receipts' Em' Hn'|key' Hn'|key' op0 f Hl Hn' _ _ _|sz body' Hn' Em'].
      - apply runs_ret_inv in G4 as [_ <-]. exfalso. eapply Hx; [exact Em|reflexivity].
      - exfalso. unfold needs in Hn'. rewrite Em in Hn'. destruct (decide _); discriminate.
      - congruence.
      - rewrite Em in Em'. injection Em' as <- <-. exists id', sz. split; [exact Hn'|]. exact (one_runs _ _ _ _ _ eq_refl G4).
      - exfalso. unfold needs in Hn'. rewrite Em in Hn'. destruct (decide _); discriminate.
      - exfalso. unfold needs in Hn'. rewrite Em in Hn'. destruct (decide _); destruct Hn'; discriminate.
      - congruence. }
    unfold names in Hn, Hn'. rewrite Hn in Hn'. injection Hn' as <- <-.
    destruct (g_cs g) as [|[ic [op' vs']] [|? ?]] eqn:Ecs; try discriminate E. cbn in E. injection E as -> ->.
    destruct (G5 ic (OCommit id false) cvs ltac:(left)) as (C1 & C2 & w & C3 & C4). unfold commit_answer in Et.
    destruct cvs as [|[[| |x| | | | |]| |] [|? ?]]; try discriminate Et; [|exfalso; destruct e; discriminate Et]. clear Et.
    assert (w = VRet (RCommitted x)) as ->.
    { assert (w ∈ vis_of ic ls) as Hw by (apply in_vis_of, in_store, (precedes_in _ _ _ C4)). rewrite <- C2 in Hw. now apply elem_of_list_singleton in Hw. }
    assert (Hcall : LCall ic (OCommit id false) ∈ ls) by (apply in_store, (precedes_in _ _ _ C1)).
    destruct x as [oid|].
    2: { exfalso. destruct (spec_discard _ _ _ Hspec) as [_ Hd]. destruct (Hd ic) as [tok' Hd'].
         - apply Hin; [reflexivity|]. apply in_store, (precedes_in _ _ _ C4).
         - apply (Hin (LCall ic (OCommit tok' true)) eq_refl) in Hd'. pose proof (wf_once _ _ _ _ Hwf Hcall Hd'). discriminate. }
    (* the time between them *)
    assert (Hcr' : precedes es (EAns jc (Resp 201)) (EStore (LCall ir op))) by (eapply (once_ev s es gs HI (EReq jr rqr)); [reflexivity|exact Hpre|exact B1]).
    destruct (spec_commit_look (sv_lpage s) ls' z' key (N.of_nat (length data)) id ic false oid ir op v Hspec) as (created & bytes & Hb & Ha).
    - apply created_visible. rewrite Hvis. apply created_visible. exact Hcr.
    - apply Hin; [reflexivity|exact Hcall].
    - apply precedes_visible; [reflexivity|reflexivity|]. rewrite Hvis. apply precedes_visible; [reflexivity|reflexivity|].
      apply precedes_store. eapply (once_ev s es gs HI (EAns jc (Resp 201))); [reflexivity|exact C4|exact Hcr'].
    - exact Hop.
    - apply Hin; [reflexivity|]. apply in_store, (precedes_in _ _ _ B4).
    - exact B3.
    - intros i op' Hi Hm Hne. apply (Hin (LCall i op') eq_refl) in Hi.
      apply apart_visible; [reflexivity|reflexivity|]. rewrite Hvis. apply apart_visible; [reflexivity|reflexivity|].
      apply (proj2 (may_visible ls' key i op')) in Hm. rewrite Hvis in Hm. apply (proj1 (may_visible ls key i op')) in Hm.
      destruct (may_owner s es gs Hmac HI Hok Hwf Hbound Huniq key i op' Hi Hm) as (j & g' & K1 & K2 & K3 & K4 & K5).
      apply (K5 (EReq jc rqc) (EAns jr r)); [|reflexivity|reflexivity|exact C1|exact B4]. apply Hap; [exact K3|exact K4|].
      intros ->. rewrite G1 in K1. injection K1 as <-. apply Hne. unfold g_ids in K2. rewrite Ecs, G3 in K2. cbn in K2. now apply elem_of_list_singleton in K2.
    - rewrite <- (vis_of_visible ir ls'), Hvis, vis_of_visible in Ha. rewrite <- B2 in Ha.
      set (o := {| co_id := oid; co_size := N.of_nat (length data); co_created := created; co_bytes := bytes |}) in *.
      eapply (Hans o [(op, vs)] _).
      + apply content_of; [reflexivity|]. intros i b Hi.
        assert (bytes_at bytes 0 data) as Hby.
        { clear -Hb Hparts Hu Hn HI Hok Hwf Hbound Honce Hmac C1 C4 Hvis.
          assert (0 < 2 ^ sv_lpage s) as HL by (apply N.neq_0_lt_0, N.pow_nonzero; discriminate).
          assert (Hp : forall i, i * 2 ^ sv_lpage s < N.of_nat (length data) -> bytes_at bytes (i * 2 ^ sv_lpage s) (take (N.to_nat (2 ^ sv_lpage s)) (drop (N.to_nat (i * 2 ^ sv_lpage s)) data))).
          { intros i Hi. apply Hb. apply settled_visible; [reflexivity|reflexivity|]. rewrite Hvis. apply settled_visible; [reflexivity|reflexivity|].
            eapply (part_call s es gs Hmac HI Hok Hwf Hbound Honce); [exact Hu|exact (Hparts i Hi)|exact C1|exact C4|exact Hn]. }
          revert Hp HL. clear. generalize (2 ^ sv_lpage s) as L. intros L Hp HL i b Hi.
          pose proof (N.div_mod (N.of_nat i) L ltac:(clear -HL; lia)) as E. pose proof (N.mod_lt (N.of_nat i) L ltac:(clear -HL; lia)) as Hm.
          set (p := N.of_nat i / L) in *. set (m := N.of_nat i mod L) in *. clearbody p m.
          pose proof (lookup_lt_Some _ _ _ Hi) as Hlt. rewrite (N.mul_comm L p) in E.
          assert (p * L < N.of_nat (length data)) as Hpl by (clear -E Hlt; lia).
          rewrite N.add_0_l, E. rewrite <- (N2Nat.id m). apply (Hp p Hpl).
          rewrite lookup_take by (clear -Hm; lia). rewrite lookup_drop. rewrite <- Hi. f_equal. clear -E. lia. }
        specialize (Hby i b Hi). rewrite N.add_0_l in Hby. exact Hby.
      + exact R4.
      + econstructor; [apply Ha; cbn; apply lookup_singleton|constructor].
      + intros op0 vs0 x Hx Hv. apply elem_of_list_singleton in Hx. injection Hx as -> ->. rewrite B2 in Hv. eapply Hbound, in_vis_of, Hv.
  Qed.

  Theorem conc_deleted key jd rqd code jr rqr r :
    EReq jd rqd ∈ es -> needs rqd = Some (DeleteObject key) -> code = 200 \/ code = 404 ->
    precedes es (EAns jd (Resp code)) (EReq jr rqr) -> EAns jr r ∈ es ->
    (forall j rq, EReq j rq ∈ es -> may_touch s es key j rq -> j <> jd -> req_apart es j rq (EReq jd rqd) (EAns jr r)) ->
    answers_without s key rqr r.
  Proof using Hmac Hcfg Hrun Hok.
    intros Hrd Hnd Hcode Hpre Har Hap. destruct run_facts as (gs & ls' & z' & HI & Hwf & Hbound & Huniq & Honce & Hspec & Hvis).
    assert (Had : EAns jd (Resp code) ∈ es) by apply (precedes_in _ _ _ Hpre). assert (Hrr : EReq jr rqr ∈ es) by apply (precedes_in _ _ _ Hpre).
    assert (Hin : forall l, is_visible l = true -> l ∈ ls' <-> l ∈ ls) by (intros l Hl; rewrite <- (in_visible l ls' Hl), <- (in_visible l ls Hl), Hvis; reflexivity).
    destruct (answered s es gs HI _ _ _ Hrr Har) as (gr & R1 & R2 & R3 & R4 & R5).
    (* the delete *)
    destruct (answered s es gs HI _ _ _ Hrd Had) as (g & G1 & G2 & G3 & G4 & G5).
    assert (exists vs, map snd (g_cs g) = [(ODelete key None, vs)] /\ Resp code = delete_answer vs) as (dvs & E & Et).
    { remember (handle s rqd) as p eqn:Ep in G4. pose proof (handle_shape s rqd) as Hsh. rewrite <- Ep in Hsh.
      destruct Hsh as [x _ _ Hx _|key' sz Hn'|tok' id' sz offset' len' body' Em'|tok' id' sz receipts' Em' Hn'|key' Hn'|key' op0 f Hl Hn' _ _ _|sz body' Hn' Em'].
      - apply runs_ret_inv in G4 as [_ <-]. exfalso. specialize (Hx _ Hnd). injection Hx as ->. destruct Hcode; discriminate.
      - congruence.
      - exfalso. unfold needs in Hnd. rewrite Em' in Hnd. destruct (decide _); discriminate.
      - exfalso. unfold needs in Hnd. rewrite Em' in Hnd. destruct (decide _); discriminate.
      - rewrite Hnd in Hn'. injection Hn' as <-. exact (one_runs _ _ _ _ _ eq_refl G4).
      - destruct Hn'; congruence.
      - congruence. }
    destruct (g_cs g) as [|[ic [op' vs']] [|? ?]] eqn:Ecs; try discriminate E. cbn in E. injection E as -> ->.
    destruct (G5 ic (ODelete key None) dvs ltac:(left)) as (C1 & C2 & w & C3 & C4).
    assert (exists rd, dvs = [VRet rd] /\ (rd = RDeleted \/ rd = RFailed ObjectNotFound)) as (rd & -> & Hrd').
    { unfold delete_answer in Et. destruct dvs as [|[[]| |] [|? ?]]; try discriminate Et; [eexists; split; [reflexivity|]; auto..].
      right. f_equal. injection Et as ->. destruct Hcode as [H|H]; destruct e; cbn in H; try discriminate H; reflexivity. }
    assert (w = VRet rd) as ->.
    { assert (w ∈ vis_of ic ls) as Hw by (apply in_vis_of, in_store, (precedes_in _ _ _ C4)). rewrite <- C2 in Hw. now apply elem_of_list_singleton in Hw. }
    assert (Hcall : LCall ic (ODelete key None) ∈ ls) by (apply in_store, (precedes_in _ _ _ C1)).
    (* the look *)
    assert (Hlook : needs rqr = Some (ReadObject key) \/ needs rqr = Some (InspectObject key) ->
      chain (sv_lpage s) q_empty (map snd (g_cs gr)) q_empty).
    { intros Hlook. destruct (look_shape _ _ _ _ R4 Hlook) as [E|(op & vs & E & Hop)]; rewrite E; [constructor|].
      destruct (g_cs gr) as [|[ir [op' vs']] [|? ?]] eqn:Ecr; try discriminate E. cbn in E. injection E as -> ->.
      destruct (R5 ir op vs ltac:(left)) as (B1 & B2 & v & B3 & B4).
      assert (vs = [VRet (RFailed ObjectNotFound)]) as ->.
      { rewrite B2, <- vis_of_visible, <- Hvis, vis_of_visible.
        eapply (spec_delete_look (sv_lpage s) ls' z' key ic rd ir op v Hspec).
        - apply Hin; [reflexivity|exact Hcall].
        - exact Hrd'.
        - apply precedes_visible; [reflexivity|reflexivity|]. rewrite Hvis. apply precedes_visible; [reflexivity|reflexivity|].
          apply precedes_store. eapply (once_ev s es gs HI (EAns jd (Resp code))); [reflexivity|exact C4|].
          eapply (once_ev s es gs HI (EReq jr rqr)); [reflexivity|exact Hpre|exact B1].
        - exact Hop.
        - apply Hin; [reflexivity|]. apply in_store, (precedes_in _ _ _ B4).
        - exact B3.
        - intros i op' Hi Hm Hne. apply (Hin (LCall i op') eq_refl) in Hi.
          apply apart_visible; [reflexivity|reflexivity|]. rewrite Hvis. apply apart_visible; [reflexivity|reflexivity|].
          apply (proj2 (may_visible ls' key i op')) in Hm. rewrite Hvis in Hm. apply (proj1 (may_visible ls key i op')) in Hm.
          destruct (may_owner s es gs Hmac HI Hok Hwf Hbound Huniq key i op' Hi Hm) as (j & g' & K1 & K2 & K3 & K4 & K5).
          apply (K5 (EReq jd rqd) (EAns jr r)); [|reflexivity|reflexivity|exact C1|exact B4]. apply Hap; [exact K3|exact K4|].
          intros ->. rewrite G1 in K1. injection K1 as <-. apply Hne. unfold g_ids in K2. rewrite Ecs, G3 in K2. cbn in K2. now apply elem_of_list_singleton in K2. }
      econstructor; [|constructor]. destruct Hop as [(id & ->)|(id & start & fin & buffer & ->)]; constructor; intros co [H _]; discriminate H. }
    assert (Hserve : needs rqr = Some (ReadObject key) \/ needs rqr = Some (InspectObject key) -> serves s q_empty rqr r q_empty).
    { intros H. eapply request_refines; [apply Hmac|apply Hmac|apply (Hok _ _ Hrr)| |exact R4|apply Hlook, H].
      intros op vs id Hx Hv. apply elem_of_list_In, in_map_iff in Hx as ((i & y) & E & Hx). cbn in E. subst y. apply elem_of_list_In in Hx.
      destruct (R5 _ _ _ Hx) as (_ & -> & _). eapply Hbound, in_vis_of, Hv. }
    split.
    - intros range Hn. exact (proj1 (last_without _ _ _ _ _ (Hserve (or_introl Hn)) (lookup_empty key)) range Hn).
    - intros Hn. exact (proj2 (last_without _ _ _ _ _ (Hserve (or_intror Hn)) (lookup_empty key)) Hn).
  Qed.
End Server.
