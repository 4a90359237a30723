(** Every step of a lite store is a step of the abstract store: inspecting,
    reading, writing; whole histories. *)
From Coq Require Import ZifyBool ZifyNat ZifyN.
From stdpp Require Import base numbers list_numbers option gmap sets list.
From Verif Require Import Util Bytes BuddyModel BuddySpec BuddyProofs BuddyInv LayoutModel LayoutProofs MetaModel MetaSpec MetaProofs PropertiesMeta.
From Verif Require Import PageIOModel PageIOSpec PageIOProofs PageIOWrite PageIOSys PropertiesPageIO DirectModel DirectBase.
From Verif Require Import JournalModel JournalSpec JournalProofs LiteModel LiteSpec LiteJournal LiteNode LiteRecord LiteInv LiteSteps LiteSteps2 LiteLin LiteSim LiteSim2.
Open Scope N_scope.
Ltac Zify.zify_post_hook ::= idtac.

(** One call on its own is a system with one call. *)
Lemma call_sys f spage vjs : forall s cl, sys_run f spage (s, [cl])
   ((fun vj => {| e_call := 0; e_valid := fst vj; e_junk := snd vj |}) <$> vjs)
   = let '(s', c') := call_run f spage (s, cl) vjs in (s', [c']).
Proof.
  induction vjs as [|[v j] vjs IH]; intros s cl; [reflexivity|].
  rewrite fmap_cons, run_cons. cbn [fst snd].
  destruct (call_step f spage v j s cl) as [s' c'] eqn:Ecs. rewrite <- IH.
  unfold sys_run. cbn [fold_left]. f_equal.
  unfold sys_step. cbn [snd fst e_call e_valid e_junk lookup list_lookup]. rewrite Ecs. reflexivity.
Qed.

Section sim.
Context (c : liconf) (Hc : conf_sizes c).
Notation spage := (li_spage c).
Notation lpage := (li_lpage c).
Notation dpg := (dpages spage lpage).
Notation core := (core c).
Notation live := (live c).
Notation bchain := (bchain c).
Notation linv := (linv c).
Notation srel := (srel c).
Notation sim := (sim c).
Notation simk := (simk c).
Implicit Types (us : list txn) (calls : list lcall) (objs : list lobj) (A F : device).

Section step.
Context (s : lstate) (A : device) (us : list txn) (objs : list lobj) (leak : list page) (HL : linv s A us objs leak)
  (st : sstore) (HS : srel (flushed A us) objs st).

Lemma sim_inspect key oid fuel s' obs : do_inspect c s key oid fuel = Some (s', obs) -> simk leak s' st obs.
Proof.
  intros E. unfold do_inspect in E. pose proof (lin_find c Hc HL key fuel st_committed oid) as Hf.
  destruct (find_object c (now s) key fuel st_committed oid) as [| |[f|]]; [discriminate|contradiction| |].
  - destruct Hf as (l1 & o & l2 & _ & _ & Hm & Ho & [[_ _ F3 F4 _] _]). rewrite F3, F4 in E. injection E as <- <-.
    destruct (srel_find_some c HS key oid o Ho Hm) as (so & Hso & (R1 & R2 & _) & _).
    apply (sim_stay c s A us objs leak HL st HS). pose proof (SInspect lpage st key oid) as H. rewrite Hso in H. cbn in H. rewrite R1, R2 in H. exact H.
  - injection E as <- <-. apply (sim_stay c s A us objs leak HL st HS). pose proof (SInspect lpage st key oid) as H.
    rewrite (srel_find_none c HS key oid Hf) in H. exact H.
Qed.

Lemma obj_op o : o ∈ objs -> object_pages Lite spage lpage (obj_of_req (lo_req o)) (dpg (lo_req o)).
Proof.
  clear HS. intros Ho. pose proof (lin_core c HL) as HK. destruct (k_obj _ _ _ _ _ _ _ _ _ _ HK o Ho) as [[Hv _] _].
  destruct (k_alloc _ _ _ _ _ _ _ _ _ _ HK) as [f HI]. destruct (elem_split objs o Ho) as (x & y & ->).
  eapply (lite_object_pages spage lpage (co_pages _ Hc) (co_lpage _ Hc) (co_ratio _ Hc)) with
    (L := (mpage <$> x ++ o :: y) ++ (x ≫= fun o => dpg (lo_req o)) ++ (y ≫= fun o => dpg (lo_req o)) ++ (ls_calls s ≫= cpages c) ++ leak); [exact Hv|].
  eapply inv_perm; [exact HI|]. unfold LiteInv.live. rewrite bind_app, bind_cons. clear. perm_solve.
Qed.

(** The data bytes on the device. *)
Lemma data_dev o pg x : o ∈ objs -> pg ∈ dpg (lo_req o) -> in_page pg x ->
  outside_journal (li_jc c) x /\ untouched us x /\ ls_dev s x = flushed A us x.
Proof.
  intros Ho Hp Hx. pose proof (data_low c Hc HL o pg x Ho Hp Hx) as Hb. pose proof (heap_outside c Hc x Hb) as Hout.
  pose proof (data_untouched c Hc (lin_core c HL) o pg x Ho Hp Hx) as Hu. split; [exact Hout|]. split; [exact Hu|]. eapply (lin_dev c HL); assumption.
Qed.

Lemma sim_read key oid start fin fuel steps s' obs : do_read c s key oid start fin fuel steps = Some (s', obs) -> simk leak s' st obs.
Proof.
  intros E. unfold do_read in E. pose proof (lin_find c Hc HL key fuel st_committed oid) as Hf.
  destruct (find_object c (now s) key fuel st_committed oid) as [| |[f|]]; [discriminate|contradiction| |].
  2: { injection E as <- <-. apply (sim_stay c s A us objs leak HL st HS). constructor. exact (srel_find_none c HS key oid Hf). }
  destruct Hf as (l1 & o & l2 & _ & _ & Hm & Ho & [[F1 _ _ _ F5] _]). rewrite F5 in E. cbn [mbind option_bind] in E.
  rewrite F1 in E. destruct (lin_decodes c Hc HL o Ho) as [_ Hdec]. rewrite Hdec in E. clear Hdec.
  destruct (srel_find_some c HS key oid o Ho Hm) as (so & Hso & (R1 & R2 & R3) & _).
  pose proof (C08_lite_read_returns_range spage lpage _ _ (ls_dev s) start fin (obj_op o Ho)) as HR.
  change (o_size (obj_of_req (lo_req o))) with (cr_size (lo_req o)) in HR. rewrite <- R2 in HR.
  destruct ((start <? default (so_size so) fin) && (default (so_size so) fin <=? so_size so)) eqn:Er.
  - destruct HR as (fuel' & outs & Hd & Hlen & Hat & _).
    destruct (drain (lite_read_step lpage (ls_dev s)) steps (read_start Lite spage lpage (obj_of_req (lo_req o)) start fin)) as [r|] eqn:Ed; [|discriminate].
    pose proof (drain_unique _ _ _ _ _ _ Hd Ed) as <-. injection E as <- <-.
    apply (sim_stay c s A us objs leak HL st HS). apply (SRead _ _ _ _ _ _ so _ Hso); [lia|lia|].
    intros i v Hi Hv. destruct (Hat i Hi) as (x & Hx & ->). destruct (R3 i v Hv) as (x' & Hx' & <-). rewrite Hx in Hx'. injection Hx' as <-.
    destruct (locate_in c _ _ _ Hx) as (pg & Hp & Hin). f_equal. apply (data_dev o pg x Ho Hp Hin).
  - rewrite HR in E. destruct steps as [|n]; cbn [drain] in E.
    all: injection E as <- <-; apply (sim_stay c s A us objs leak HL st HS); apply (SReadRange _ _ _ _ _ _ so Hso); lia.
Qed.

Lemma sim_write key id offset len stream fuel steps s' obs : offset + 2 ^ lpage < 2 ^ 64 ->
  do_write c s key id offset len stream fuel steps = Some (s', obs) -> simk leak s' st obs.
Proof.
  intros Hw E. unfold do_write in E. pose proof (lin_find c Hc HL key fuel st_incomplete (Some id)) as Hf.
  destruct (find_object c (now s) key fuel st_incomplete (Some id)) as [| |[f|]]; [discriminate|contradiction| |].
  2: { injection E as <- <-. apply (sim_stay c s A us objs leak HL st HS). constructor. exact (srel_inc_none c HS key id Hf). }
  destruct Hf as (l1 & o & l2 & _ & _ & Hm & Ho & [[F1 _ _ _ F5] _]). rewrite F5 in E. cbn [mbind option_bind] in E.
  rewrite F1 in E. destruct (lin_decodes c Hc HL o Ho) as [_ Hdec]. rewrite Hdec in E. clear Hdec.
  destruct (srel_inc_some c HS key id o Ho Hm) as (so & Hsi & (R1 & R2 & R3) & Hso & Hoid).
  pose proof (obj_op o Ho) as Hop. set (ob := obj_of_req (lo_req o)) in *. set (ps := dpg (lo_req o)) in *.
  set (vjs := replicate steps (true, fun _ : N => 0)) in *.
  destruct (call_run Lite spage (ls_dev s, write_start Lite spage lpage ob offset len stream) vjs) as [d' [w|r]] eqn:Ec; [discriminate|].
  injection E as <- <-.
  assert (Hin : forall x, d' x <> ls_dev s x -> exists i, in_part lpage (cr_size (lo_req o)) offset i /\ locate ps i = Some x).
  { pose proof (C09_writes_touch_only_their_pages Lite spage lpage ob ps (ls_dev s) [(offset, len, stream)]
      ((fun vj => {| e_call := 0; e_valid := fst vj; e_junk := snd vj |}) <$> vjs) Hop) as HT.
    cbv zeta in HT. cbn [fmap list_fmap] in HT. rewrite call_sys, Ec in HT. cbn [fst] in HT.
    assert (HFw : Forall (fun q : N * N * list item => fst (fst q) + 2 ^ lpage < 2 ^ 64) [(offset, len, stream)]) by (constructor; [exact Hw|constructor]).
    intros x Hx. destruct (HT HFw x Hx) as (of & ln & sm & Hel & H).
    apply elem_of_list_singleton in Hel. injection Hel as -> -> ->. exact H. }
  assert (Hd : forall x, d' x <> ls_dev s x -> outside_journal (li_jc c) x /\ untouched us x).
  { intros x Hx. destruct (Hin x Hx) as (i & _ & Hl). destruct (locate_in c _ _ _ Hl) as (pg & Hp & Hix).
    destruct (data_dev o pg x Ho Hp Hix) as (H1 & H2 & _). auto. }
  destruct (patch_view c s A us objs leak HL d' Hd) as (HV' & P1 & P2). set (A' := patch A (ls_dev s) d') in *.
  assert (Hsame : forall x, (forall pg, pg ∈ ps -> ~ in_page pg x) -> flushed A' us x = flushed A us x).
  { intros x Hx. apply P1. destruct (decide (d' x = ls_dev s x)) as [|Hne]; [assumption|]. exfalso. destruct (Hin x Hne) as (i & _ & Hl).
    destruct (locate_in c _ _ _ Hl) as (pg & Hp & Hix). exact (Hx pg Hp Hix). }
  assert (Hout : forall i x, locate ps i = Some x -> ~ in_part lpage (cr_size (lo_req o)) offset i -> flushed A' us x = flushed A us x).
  { intros i x Hl Hni. apply P1. destruct (decide (d' x = ls_dev s x)) as [|Hne]; [assumption|]. exfalso. destruct (Hin x Hne) as (j & Hj & Hlj).
    rewrite (locate_inj _ _ _ _ (op_disjoint _ _ _ _ _ Hop) Hl Hlj) in Hni. exact (Hni Hj). }
  assert (Hav : Forall (fun vj : bool * (N -> N) => fst vj = true) vjs) by (unfold vjs; apply Forall_replicate; reflexivity).
  destruct (C10_rejections_have_a_reason Lite spage lpage ob ps offset len stream (ls_dev s) vjs d' r Hop Hw Hav Ec) as [(e & -> & Hpe & ->)|[Hvp Hr]].
  { rewrite set_dev_same. assert (Emk : mk (ls_j s) (ls_alloc s) (ls_ov s) (ls_calls s) (ls_used s) = s) by (destruct s; reflexivity). rewrite Emk.
    apply (sim_stay c s A us objs leak HL st HS). apply (SWriteBad _ _ _ _ _ _ _ _ so Hsi). rewrite R2. exact Hpe. }
  set (so' := match r with WOk => put so offset (stream_bytes stream) | _ => spoil lpage so offset end).
  assert (Hok : r = WOk -> no_fail stream /\ N.of_nat (length (stream_bytes stream)) = len /\ offset mod 2 ^ lpage = 0 /\
      offset + len = N.min (offset + 2 ^ lpage) (so_size so) /\
      forall i, in_part lpage (cr_size (lo_req o)) offset i -> exists x b, locate ps i = Some x /\ stream_bytes stream !! N.to_nat (i - offset) = Some b /\ d' x = b).
  { intros ->. destruct (C09_successful_write_is_in_place Lite spage lpage ob ps (ls_dev s) offset len stream vjs d' Hop Hw Ec) as (H1 & H2 & H3 & H4).
    split; [exact H1|]. split; [exact H2|]. split; [|split; [rewrite R2; exact H3|exact H4]].
    unfold write_start in Ec. destruct (write_check lpage (o_size ob) offset len) as [e|] eqn:Ew.
    - exfalso. revert Ec. clear. generalize (ls_dev s). induction vjs as [|[v j] l IH]; intros d0 Ec; [injection Ec as _ Ec; discriminate Ec|].
      rewrite run_cons in Ec. cbn [call_step] in Ec. exact (IH _ Ec).
    - apply (write_check_ok lpage (o_size ob) offset len Hw Ew). }
  assert (Hrel : orel c (flushed A' us) (lo_req o) so').
  { unfold so'. split; [destruct r; exact R1|]. split; [destruct r; exact R2|].
    assert (Hspoil : forall i v, so_bytes (spoil lpage so offset) i = Some v -> exists x, locate ps i = Some x /\ flushed A' us x = v).
    { intros i v. cbn [spoil so_bytes]. destruct ((offset <=? i) && (i <? offset + 2 ^ lpage)) eqn:Eb; [discriminate|]. intros Hv.
      destruct (R3 i v Hv) as (x & Hx & Hxv). exists x. split; [exact Hx|]. rewrite <- Hxv. apply (Hout i x Hx). intros [H1 H2]. clear -Eb H1 H2. lia. }
    destruct r; [|exact Hspoil|exact Hspoil]. destruct (Hok eq_refl) as (_ & Hlen & _ & Hend & Hat).
    intros i v. cbn [put so_bytes]. destruct ((offset <=? i) && (i <? offset + N.of_nat (length (stream_bytes stream)))) eqn:Eb; intros Hv.
    - assert (Hip : in_part lpage (cr_size (lo_req o)) offset i).
      { unfold in_part. rewrite <- R2, <- Hend, <- Hlen. clear -Eb. lia. }
      destruct (Hat i Hip) as (x & b & Hx & Hb & Hdx). exists x. split; [exact Hx|]. rewrite Hb in Hv. injection Hv as <-. rewrite <- Hdx.
      destruct (locate_in c _ _ _ Hx) as (pg & Hp & Hix). destruct (data_dev o pg x Ho Hp Hix) as (H1 & H2 & _). exact (P2 x H1 H2).
    - destruct (R3 i v Hv) as (x & Hx & Hxv). exists x. split; [exact Hx|]. rewrite <- Hxv. apply (Hout i x Hx). unfold in_part.
      rewrite <- R2, <- Hend, <- Hlen. intros H. clear -Eb H. lia. }
  apply (simk_keep c _ _ _ _ A' us objs {| ss_inc := <[id := (key, so')]> (ss_inc st); ss_com := ss_com st |}).
  split; [|split].
  - split; [exact HV'|]. cbn [mk ls_j ls_alloc ls_ov ls_calls ls_used set_dev js_acked].
    eapply (core_frame c Hc); [| | |exact (lin_core c HL)].
    + intros x Hx. apply Hsame. intros pg Hp Hix. pose proof (data_low c Hc HL o pg x Ho Hp Hix) as H. clear -H Hx. lia.
    + intros q x Hq Hx. apply Hsame. intros pg Hp Hix. exact (meta_data c HL o q pg x Ho Hq Hp Hix Hx).
    + intros r0 raw p off x Hcl Hx. apply Hsame. intros pg Hp Hix.
      apply (data_call c HL o _ pg (off, p) x Ho Hcl Hp); [cbn [cpages]; apply elem_of_app; right; constructor|exact Hix|exact Hx].
  - assert (Hoth : forall q, q ∈ objs -> q <> o -> forall so0, orel c (flushed A us) (lo_req q) so0 -> orel c (flushed A' us) (lo_req q) so0).
    { intros q Hq Hne so0. apply orel_keep. intros pg x Hp Hx. apply Hsame. intros pg' Hp' Hx'. apply Hne. symmetry.
      exact (data_data c HL o q pg' pg x Ho Hq Hp' Hp Hx' Hx). }
    destruct Hm as (Mk & Ms & _). destruct HS as [S1 S2 S3 S4]. split; cbn [ss_inc ss_com].
    + intros q Hq Hsq. destruct (N.eq_dec (lo_id q) id) as [Ei|Hne].
      * assert (q = o) as -> by (eapply (same_id c (lin_core c HL)); [exact Hq|exact Ho|congruence]).
        exists so'. rewrite Ei, lookup_insert, Mk. auto.
      * rewrite lookup_insert_ne by congruence. destruct (S1 q Hq Hsq) as (so0 & E0 & R0). exists so0. split; [exact E0|].
        apply Hoth; [exact Hq|congruence|exact R0].
    + intros id' k so0. rewrite lookup_insert_Some. intros [[<- [= <- <-]]|[_ H]]; [exists o; auto|]. exact (S2 id' k so0 H).
    + intros q Hq Hsq. destruct (S3 q Hq Hsq) as (so0 & E0 & R0). exists so0. split; [exact E0|].
      apply Hoth; [exact Hq| |exact R0]. intros ->. rewrite Ms in Hsq. discriminate Hsq.
    + exact S4.
  - apply ssteps_one. change (o_size ob) with (cr_size (lo_req o)) in Hvp. rewrite <- R2 in Hvp.
    destruct Hr as [->|Hr].
    + destruct (Hok eq_refl) as (H1 & H2 & _). now apply SWrite.
    + assert (so' = spoil lpage so offset) as -> by (destruct Hr; reflexivity). now apply SWriteStream.
Qed.

(** ** One step *)
Lemma simk_step e s' obs : li_versioning c = false -> event_ok c e -> (removes_inner c s e -> bucket_quiet c s (event_key e)) ->
  lstep c s e = Some (s', obs) -> simk leak s' st obs.
Proof.
  intros Hver He Hq E. destruct e; cbn [lstep] in E.
  - eapply (sim_create c Hc s A us objs leak HL st HS); eassumption.
  - destruct (ls_calls s !! i) as [[r raw p off| | |]|] eqn:Ei; try discriminate. injection E as <- <-.
    now apply (sim_cwrite c Hc s A us objs leak HL st HS).
  - destruct (ls_calls s !! i) as [[|r raw p off| |]|] eqn:Ei; try discriminate.
    assert (E' : do_link c s i r off seen = (s', obs)) by congruence.
    eapply (sim_link c Hc s A us objs leak HL st HS); eassumption.
  - eapply (sim_commit c Hc s A us objs leak HL st HS); eassumption.
  - eapply (sim_delete c Hc s A us objs leak HL st HS); eassumption.
  - destruct (ls_calls s !! i) as [[| |b sig tks free|]|] eqn:Ei; try discriminate.
    eapply (sim_finish c s A us objs leak HL st HS); eassumption.
  - eapply sim_inspect; eassumption.
  - eapply sim_write; eassumption.
  - eapply sim_read; eassumption.
  - destruct (match e with JCommit _ _ => true | _ => false end) eqn:Ej; [destruct e; discriminate|].
    assert (E' : (j ← jstep (li_jc c) (ls_j s) e; Some (mk j (ls_alloc s) (ls_ov s) (ls_calls s) (ls_used s), [])) = Some (s', obs)) by (destruct e; try discriminate; exact E).
    destruct (jstep (li_jc c) (ls_j s) e) as [j|] eqn:Es; [|discriminate]. injection E' as <- <-.
    eapply (sim_journal c Hc s A us objs leak HL st HS); [|exact Es]. destruct e; try discriminate; reflexivity.
Qed.
Lemma sim_step e s' obs : li_versioning c = false -> event_ok c e -> (removes_inner c s e -> bucket_quiet c s (event_key e)) ->
  lstep c s e = Some (s', obs) -> sim s' st obs.
Proof. intros H1 H2 H3 H4. eapply simk_sim, simk_step; eassumption. Qed.
End step.

Lemma ssteps_app st l st1 l' st2 : ssteps lpage st l st1 -> ssteps lpage st1 l' st2 -> ssteps lpage st (l ++ l') st2.
Proof. induction 1; intros H'; [exact H'|]. econstructor; [eassumption|auto]. Qed.

Lemma simk_run es : li_versioning c = false -> forall s A us objs leak st s' obs, linv s A us objs leak -> srel (flushed A us) objs st ->
  Forall (event_ok c) es -> calm c s es -> lrun c s es = Some (s', obs) -> simk leak s' st obs.
Proof.
  intros Hver. induction es as [|e es IH]; intros s A us objs leak st s' obs HL HS He Hcalm E.
  - injection E as <- <-. apply (simk_keep c _ _ _ _ A us objs st). split; [exact HL|]. split; [exact HS|constructor].
  - cbn [lrun] in E. apply Forall_cons in He as [He0 He]. destruct Hcalm as [Hq Hcalm].
    destruct (lstep c s e) as [[s1 o1]|] eqn:E1; [|discriminate]. cbn [mbind option_bind] in E.
    destruct (lrun c s1 es) as [[s2 o2]|] eqn:E2; [|discriminate]. injection E as <- <-.
    destruct (simk_step s A us objs leak HL st HS e s1 o1 Hver He0 Hq E1) as (A1 & us1 & objs1 & leak1 & st1 & HL1 & HS1 & Hss1 & Hl1).
    destruct (IH s1 A1 us1 objs1 leak1 st1 s2 o2 HL1 HS1 He Hcalm E2) as (A2 & us2 & objs2 & leak2 & st2 & HL2 & HS2 & Hss2 & Hl2).
    exists A2, us2, objs2, leak2, st2. split; [exact HL2|]. split; [exact HS2|]. split; [eapply ssteps_app; eassumption|].
    rewrite existsb_app. intros H. apply orb_false_iff in H as [H1 H2]. rewrite (Hl2 H2). exact (Hl1 H1).
Qed.
Lemma sim_run es : li_versioning c = false -> forall s A us objs leak st s' obs, linv s A us objs leak -> srel (flushed A us) objs st ->
  Forall (event_ok c) es -> calm c s es -> lrun c s es = Some (s', obs) -> sim s' st obs.
Proof. intros H s A us objs leak st s' obs H1 H2 H3 H4 H5. eapply simk_sim, simk_run; eassumption. Qed.
End sim.
