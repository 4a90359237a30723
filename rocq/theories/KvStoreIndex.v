(** The commit: updating and writing an index page. *)
From Coq Require Import ZifyBool ZifyNat ZifyN.
From stdpp Require Import base numbers list_numbers option gmap sets fin_maps list.
From Verif Require Import Util Bytes PageIOModel PageIOProofs PageIOWrite BuddyModel KvAllocModel KvAllocSpec KvAllocProofs KvAllocInv
  KvCodecModel KvCodecSpec KvCodecProofs KvReadModel PropertiesKvRead KvLogModel KvLogSpec KvLogProofs KvLogSys KvLogInv KvStoreModel KvStoreSpec KvStoreInv KvStoreFrame KvStoreSteps KvStoreCommit KvStoreGroup KvStorePages.
Open Scope N_scope.
Ltac Zify.zify_post_hook ::= idtac.

Lemma elook_cons k0 e0 es k : elook ((k0, e0) :: es) k = if decide (k0 = k) then Some e0 else elook es k.
Proof.
  unfold elook. cbn [list_to_map foldr fst snd uncurry]. destruct (decide (k0 = k)) as [->|Hne]; [apply (lookup_insert (M:=gmap okey))|apply (lookup_insert_ne (M:=gmap okey)); exact Hne].
Qed.

Lemma live_nodup c a live total : good_kconf c -> KIc c a live total -> NoDup live.
Proof.
  intros Hc HK. pose proof (good_spage c Hc) as ([H1 _] & H63 & _). apply NoDup_alt. intros i j e Ei Ej. destruct (decide (i = j)) as [|Hne]; [assumption|]. exfalso.
  pose proof (live_placed c Hc _ _ _ e HK ltac:(eapply elem_of_list_lookup_2; exact Ei)) as (P1 & _). destruct e as [o s]. cbn in P1.
  apply (ki_disjoint _ _ _ _ H1 H63 _ _ _ HK i j _ _ Hne Ei Ej o). split; apply ext_byte; lia.
Qed.

Lemma page_update_spec c es : good_kconf c -> forall a m live total, KIc c a live total -> NoDup (fst <$> es) ->
  (forall k e, k ∈ (fst <$> es) -> ext_of (m !! k) = Some e -> e ∈ live) ->
  (forall k k' e, k ∈ (fst <$> es) -> k' ∈ (fst <$> es) -> ext_of (m !! k) = Some e -> ext_of (m !! k') = Some e -> k = k') ->
  exists a' m' live', page_update a m es = Some (a', m') /\ KIc c a' live' total /\
    (forall k, m' !! k = match elook es k with Some e => e | None => m !! k end) /\
    (forall e, e ∈ live' -> e ∈ live /\ forall k, k ∈ (fst <$> es) -> ext_of (m !! k) <> Some e) /\
    (forall e, e ∈ live -> (forall k, k ∈ (fst <$> es) -> ext_of (m !! k) <> Some e) -> e ∈ live').
Proof.
  intros Hc. pose proof (good_spage c Hc) as ([Hsp1 Hsl] & H63 & H9). induction es as [|[k0 e0] es IH]; intros a m live total HK Hn H1 H2.
  - exists a, m, live. split; [reflexivity|]. split; [exact HK|]. split; [reflexivity|]. split; [|auto]. intros e He. split; [exact He|]. intros k Hk. inversion Hk.
  - rewrite fmap_cons in *. cbn [fst] in *. apply NoDup_cons in Hn as [Hn1 Hn2]. cbn [page_update].
    set (m' := match e0 with Some d => <[k0:=d]> m | None => delete k0 m end).
    assert (forall k, k <> k0 -> m' !! k = m !! k) as Hne. { intros k Hk. unfold m'. destruct e0; [apply lookup_insert_ne; congruence|apply lookup_delete_ne; congruence]. }
    assert (m' !! k0 = e0) as Heq. { unfold m'. destruct e0; [apply lookup_insert|apply lookup_delete]. }
    assert (forall k, k ∈ (fst <$> es) -> m' !! k = m !! k) as Hin by (intros k Hk; apply Hne; intros ->; contradiction).
    assert (forall a1 live1, KIc c a1 live1 total -> (forall e, e ∈ live1 -> e ∈ live /\ ext_of (m !! k0) <> Some e) -> (forall e, e ∈ live -> ext_of (m !! k0) <> Some e -> e ∈ live1) ->
      exists a' m2 live', page_update a1 m' es = Some (a', m2) /\ KIc c a' live' total /\
      (forall k, m2 !! k = match elook ((k0, e0) :: es) k with Some e => e | None => m !! k end) /\
      (forall e, e ∈ live' -> e ∈ live /\ forall k, k ∈ k0 :: (fst <$> es) -> ext_of (m !! k) <> Some e) /\
      (forall e, e ∈ live -> (forall k, k ∈ k0 :: (fst <$> es) -> ext_of (m !! k) <> Some e) -> e ∈ live')) as Hgo.
    { intros a1 live1 HK1 Hs1 Hs2. destruct (IH a1 m' live1 total HK1 Hn2) as (a' & m2 & live' & E & HK' & Em & Hl1 & Hl2).
      - intros k e Hk Ee. rewrite Hin in Ee by exact Hk. apply Hs2; [eapply H1; [right; exact Hk|exact Ee]|]. intros Ee'. pose proof (H2 k k0 e ltac:(right; exact Hk) ltac:(left) Ee Ee'). subst k. contradiction.
      - intros k k' e Hk Hk' Ee Ee'. rewrite Hin in Ee, Ee' by assumption. eapply H2; [right; exact Hk|right; exact Hk'|exact Ee|exact Ee'].
      - exists a', m2, live'. split; [exact E|]. split; [exact HK'|]. split.
        + intros k. rewrite Em, elook_cons. destruct (decide (k0 = k)) as [<-|Hk].
          * assert (elook es k0 = None) as -> by (apply elook_None; exact Hn1). exact Heq.
          * rewrite Hne by congruence. reflexivity.
        + split.
          { intros e He. destruct (Hl1 e He) as [He1 He2]. split; [apply Hs1, He1|]. intros k Hk. apply elem_of_cons in Hk as [->|Hk]; [apply Hs1, He1|].
            rewrite <- (Hin k Hk). apply He2, Hk. } intros e He Hno. apply Hl2; [apply Hs2; [exact He|apply Hno; left]|].
          intros k Hk. rewrite Hin by exact Hk. apply Hno. right. exact Hk. }
    destruct (m !! k0) as [[i|s o]|] eqn:Ek.
    + apply (Hgo a live HK); [|auto]. intros e He. split; [exact He|discriminate].
    + assert ((o, s) ∈ live) as Hlive by (apply (H1 k0); [left|rewrite Ek; reflexivity]). apply elem_of_list_split in Hlive as (l1 & l2 & ->).
      destruct (release_ki _ _ _ _ Hsp1 H63 _ _ _ _ _ _ HK) as (a1 & Er & HK1). rewrite Er. apply (Hgo a1 (l1 ++ l2) HK1).
      * intros e He. split.
        -- apply elem_of_app in He as [He|He]; apply elem_of_app; [left; exact He|right; right; exact He].
        -- cbn [ext_of]. intros [= <-]. pose proof (live_nodup c _ _ _ Hc HK) as Hnd. apply NoDup_app in Hnd as (_ & Hx & Hnd). apply NoDup_cons in Hnd as [Hy _].
           apply elem_of_app in He as [He|He]; [apply (Hx _ He); left|contradiction].
      * intros e He Hx. apply elem_of_app in He as [He|He]; apply elem_of_app; [left; exact He|right]. apply elem_of_cons in He as [->|He]; [|exact He]. exfalso. apply Hx. reflexivity.
    + apply (Hgo a live HK); [|auto]. intros e He. split; [exact He|discriminate].
Qed.

Lemma page_map_nodup l : NoDup (fst <$> l) -> forall k, page_map l !! k = page_find l k.
Proof.
  intros Hn k. unfold page_map. assert (forall (m0 : gmap okey odata), foldl (fun m e => <[fst e := snd e]> m) m0 l !! k = match page_find l k with Some d => Some d | None => m0 !! k end) as G.
  { clear - Hn. induction l as [|[k0 d0] l IH]; intros m0; [reflexivity|]. rewrite fmap_cons in Hn. apply NoDup_cons in Hn as [Hn1 Hn2]. cbn [foldl fst snd page_find].
    rewrite IH by exact Hn2. case_bool_decide as Hk.
    - subst k0. assert (page_find l k = None) as ->. { destruct (page_find l k) as [d|] eqn:E; [|reflexivity]. exfalso. apply Hn1. apply page_find_elem in E. apply elem_of_list_fmap. exists (k, d). auto. }
      apply lookup_insert.
    - rewrite lookup_insert_ne by exact Hk. reflexivity. }
  rewrite G. rewrite lookup_empty. destruct (page_find l k); reflexivity.
Qed.

Section pages.
Context {NL : Prop} (c : kconf) (y : kstate).
Hypothesis Hc : good_kconf c.
Hypothesis H : SI (NL:=NL) c y.

Lemma ents_of_look idx ents k : NoDup (fst <$> ents) -> elook (ents_of c idx ents) k = if decide (kc_index c k = Some idx) then elook ents k else None.
Proof using Type.
  intros Hn. unfold ents_of. induction ents as [|[k0 e0] ents IH]; [cbn; destruct (decide _); reflexivity|].
  rewrite fmap_cons in Hn. apply NoDup_cons in Hn as [Hn1 Hn2]. rewrite filter_cons. cbn [fst]. destruct (decide (kc_index c k0 = Some idx)) as [E|E].
  - rewrite !elook_cons, IH by exact Hn2. destruct (decide (k0 = k)) as [->|Hne]; [|reflexivity]. rewrite decide_True by exact E. reflexivity.
  - rewrite elook_cons, IH by exact Hn2. destruct (decide (k0 = k)) as [->|Hne]; [|reflexivity]. rewrite decide_False by exact E. rewrite decide_False by exact E. reflexivity.
Qed.
Lemma ents_of_nodup idx ents : NoDup (fst <$> ents) -> NoDup (fst <$> ents_of c idx ents).
Proof using Type.
  intros Hn. unfold ents_of. induction ents as [|[k0 e0] ents IH]; [constructor|]. rewrite fmap_cons in Hn. apply NoDup_cons in Hn as [Hn1 Hn2].
  rewrite filter_cons. destruct (decide _); [|apply IH, Hn2]. rewrite fmap_cons. apply NoDup_cons. split; [|apply IH, Hn2].
  intros Hin. apply Hn1. apply elem_of_list_fmap in Hin as (x & E & Hin). apply elem_of_list_filter in Hin as [_ Hin]. apply elem_of_list_fmap. eauto.
Qed.

(** What the update of a page does: it never panics, unless the page overflows. *)
Lemma page_task_spec ents todo ready idx order junk a r : ks_commit y = Some (CPages ents todo ready) -> idx ∈ todo ->
  page_task c (ks_dev y) (ks_alloc y) idx ents order junk = Some (a, r) ->
  exists live live' total, KIc c (ks_alloc y) live total /\ owned (NL:=NL) (ow c y) live /\ KIc c a live' total /\
    (forall e, e ∈ live -> (forall k e', kc_index c k = Some idx -> elook ents k = Some e' -> ext_of (eff c y k) <> Some e) -> e ∈ live') /\
    (forall e, e ∈ live' -> e ∈ live /\ forall k e', kc_index c k = Some idx -> elook ents k = Some e' -> ext_of (eff c y k) <> Some e) /\
    r = bundle_serialise junk order /\ N.of_nat (length junk) = kc_psize c /\ Forall valid_pair order /\ Forall (fun e => nonempty_key (fst e)) order /\
    NoDup (fst <$> order) /\ (forall k d, (k, d) ∈ order -> kc_index c k = Some idx) /\
    forall k, kc_index c k = Some idx -> page_find order k = match elook ents k with Some e => e | None => eff c y k end.
Proof using Hc H.
  intros Ec Hidx E. pose proof (s_b _ _ H) as HB. pose proof (b_stage _ _ HB) as Hst. unfold stage_ok in Hst. rewrite Ec in Hst.
  destruct Hst as (H1 & m & Em & Hm & Hok & Hrn & Htodo & Hall & Hready). rewrite Forall_forall in Htodo. pose proof (Htodo idx Hidx) as Hi.
  pose proof (b_pages _ _ HB idx Hi) as [[l El] Pn Pk Pd]. unfold decode in *. rewrite El in *. cbn [from_option id] in *.
  unfold page_task in E. destruct (N.eqb_spec (N.of_nat (length junk)) (kc_psize c)) as [Hj|]; [|discriminate E]. cbn [negb] in E. rewrite El in E.
  assert (forall k, kc_index c k = Some idx -> eff c y k = page_find l k) as Heff.
  { intros k Ei. unfold eff. rewrite Ei. cbn [mbind option_bind]. unfold epage, ready_of. rewrite Ec.
    assert ((list_to_map ready : gmap N (list N)) !! idx = None) as ->.
    { destruct ((list_to_map ready : gmap N (list N)) !! idx) as [pg|] eqn:Er; [|reflexivity]. apply elem_of_list_to_map_2 in Er. destruct (Hready idx pg Er) as (_ & G & _). contradiction. }
    cbn [from_option id]. unfold decode. rewrite El. reflexivity. }
  destruct (s_own _ _ H) as (live & total & HK & Ho). pose proof (page_map_nodup l Pn) as Hpm.
  assert (forall k, k ∈ (fst <$> ents_of c idx ents) -> kc_index c k = Some idx /\ exists e', elook ents k = Some e') as Hof.
  { intros k Hk. apply elem_of_list_fmap in Hk as ([k0 e0] & -> & Hin). cbn [fst]. unfold ents_of in Hin. apply elem_of_list_filter in Hin as [Ei Hin]. split; [exact Ei|].
    exists e0. apply elook_elem; [apply Hok|exact Hin]. }
  assert (forall k e, k ∈ (fst <$> ents_of c idx ents) -> ext_of (page_map l !! k) = Some e -> ow c y (OKey k) = Some e) as Hown.
  { intros k e Hk Ee. cbn [ow]. rewrite Heff by apply Hof, Hk. rewrite <- Hpm. exact Ee. }
  destruct (page_update_spec c (ents_of c idx ents) Hc (ks_alloc y) (page_map l) live total HK (ents_of_nodup idx ents (proj1 Hok))) as (a1 & m1 & live' & Eu & HK' & Em1 & Hl1 & Hl2).
  { intros k e Hk Ee. eapply (proj1 Ho). apply Hown; eassumption. }
  { intros k k' e Hk Hk' Ee Ee'. pose proof (own_inj _ _ Ho _ _ _ (Hown k e Hk Ee) (Hown k' e Hk' Ee')) as Eq. injection Eq as ->. reflexivity. }
  rewrite Eu in E. case_bool_decide as Hp; [|discriminate E]. injection E as -> <-.
  exists live, live', total. split; [exact HK|]. split; [exact Ho|]. split; [exact HK'|]. split.
  { intros e He Hno. apply Hl2; [exact He|]. intros k Hk Ee. destruct (Hof k Hk) as [Ei (e' & Ee')]. eapply Hno; [exact Ei|exact Ee'|]. rewrite Heff by exact Ei. rewrite <- Hpm. exact Ee. }
  split.
  { intros e He. destruct (Hl1 e He) as [Hx1 Hx2]. split; [exact Hx1|]. intros k e' Ei Ee'. rewrite Heff by exact Ei. rewrite <- Hpm. apply Hx2.
    apply elem_of_list_fmap. exists (k, e'). split; [reflexivity|]. unfold ents_of. apply elem_of_list_filter. split; [exact Ei|]. apply elook_elem; [apply Hok|exact Ee']. }
  split; [reflexivity|]. split; [exact Hj|].
  assert (forall k d, (k, d) ∈ order <-> m1 !! k = Some d) as Hord by (intros k d; rewrite Hp; apply (elem_of_map_to_list (M:=gmap okey))).
  assert (NoDup (fst <$> order)) as Hno by (rewrite Hp; apply NoDup_fst_map_to_list).
  assert (forall k d, (k, d) ∈ order -> ((k, d) ∈ l) \/ (elook ents k = Some (Some d) /\ kc_index c k = Some idx)) as Hcase.
  { intros k d Hin. apply Hord in Hin. rewrite Em1, ents_of_look in Hin by apply Hok. destruct (decide (kc_index c k = Some idx)) as [Ei|_].
    - destruct (elook ents k) as [e|] eqn:Ee; [right; subst e; auto|]. left. rewrite Hpm in Hin. apply page_find_elem, Hin.
    - left. rewrite Hpm in Hin. apply page_find_elem, Hin. }
  assert (forall k d, (k, d) ∈ order -> valid_key k /\ nonempty_key k /\ kc_index c k = Some idx /\ valid_data d) as Hval.
  { intros k d Hin. destruct (Hcase k d Hin) as [Hl|[Ee Ei]]; [destruct (Pk k d Hl) as (? & ? & ?); repeat split; try assumption; eapply Pd; exact Hl|].
    destruct (m !! k) as [e|] eqn:Ek; [|apply Hok in Ek; congruence]. destruct (com_valid c y Hc H m k e Em Ek) as (V1 & V2 & V3). repeat split; try assumption.
    eapply (V3 (Some d)); [eapply (proj2 Hok); eassumption| |reflexivity]. intros s o [= ->]. eapply live_placed; [exact Hc|exact HK|]. eapply (proj1 Ho _ (o, s)).
    instantiate (1 := OCom k). cbn [ow]. unfold pcom. rewrite Ec, Ei. cbn [mbind option_bind]. rewrite bool_decide_true by exact Hidx. rewrite Ee. reflexivity. }
  split; [apply Forall_forall; intros [k d] Hin; destruct (Hval k d Hin) as (? & ? & ? & ?); split; assumption|].
  split; [apply Forall_forall; intros [k d] Hin; apply (Hval k d Hin)|]. split; [exact Hno|]. split; [intros k d Hin; apply (Hval k d Hin)|].
  intros k Ei. assert (page_find order k = m1 !! k) as ->.
  { destruct (m1 !! k) as [d|] eqn:Ed; [apply page_find_nodup; [exact Hno|]; apply Hord, Ed|]. destruct (page_find order k) as [d|] eqn:Ef; [|reflexivity].
    apply page_find_elem in Ef. apply Hord in Ef. congruence. }
  rewrite Em1, ents_of_look by apply Hok. rewrite decide_True by exact Ei. rewrite Heff by exact Ei. rewrite Hpm. reflexivity.
Qed.
(** ... so exactly when the entries do not fit. *)
Lemma page_task_panics ents todo ready idx order junk a r : ks_commit y = Some (CPages ents todo ready) -> idx ∈ todo ->
  page_task c (ks_dev y) (ks_alloc y) idx ents order junk = Some (a, r) -> (r = None <-> kc_psize c < N.of_nat (pairs_size order)).
Proof using Hc H.
  intros Ec Hidx E. destruct (page_task_spec _ _ _ _ _ _ _ _ Ec Hidx E) as (_ & _ & _ & _ & _ & _ & _ & _ & -> & Hj & Hv & Hn & _). split.
  - intros Er. destruct (N.lt_ge_cases (kc_psize c) (N.of_nat (pairs_size order))) as [|Hle]; [assumption|]. exfalso.
    destruct (bundle_roundtrip junk order Hv Hn ltac:(lia)) as (page & Ep & _). congruence.
  - intros Hlt. apply bundle_overflow; [exact Hv|lia].
Qed.

Lemma si_page_update ents todo ready idx order junk a page : ks_commit y = Some (CPages ents todo ready) -> idx ∈ todo ->
  page_task c (ks_dev y) (ks_alloc y) idx ents order junk = Some (a, Some page) ->
  SI (NL:=NL) c (ks_go y (ks_log y) (ks_dev y) a (Some (CPages ents (filter (fun i => i <> idx) todo) (ready ++ [(idx, page)]))) (ks_lost y)).
Proof using Hc H.
  intros Ec Hidx E. destruct (page_task_spec _ _ _ _ _ _ _ _ Ec Hidx E) as (live & live' & total & HK & Ho & HK' & Hlive & Hlive' & Eser & Hj & Hv & Hn & Hnd & Hix & Hfind).
  pose proof (s_b _ _ H) as HB. pose proof (b_stage _ _ HB) as Hst. unfold stage_ok in Hst. rewrite Ec in Hst.
  destruct Hst as (H1 & m & Em & Hm & Hok & Hrn & Htodo & Hall & Hready). pose proof (proj1 (Forall_forall _ _) Htodo idx Hidx) as Hi.
  assert (pairs_size order <= length junk)%nat as Hfit.
  { destruct (Nat.le_gt_cases (pairs_size order) (length junk)) as [|Hlt]; [assumption|]. rewrite (bundle_overflow junk order Hv Hlt) in Eser. discriminate Eser. }
  destruct (bundle_roundtrip junk order Hv Hn Hfit) as (page' & Ep & Hpl & Hrd). rewrite Ep in Eser. injection Eser as <-.
  assert (decode page = order) as Edec by (unfold decode; rewrite Hrd; reflexivity).
  assert (idx ∉ (fst <$> ready)) as Hnr. { intros Hin. apply elem_of_list_fmap in Hin as ([i' p'] & E' & Hin). cbn in E'. subst i'. destruct (Hready _ _ Hin) as (_ & G & _). contradiction. }
  set (y' := ks_go _ _ _ _ _ _).
  assert (forall j, epage c y' j = if decide (j = idx) then page else epage c y j) as Eep.
  { intros j. unfold epage, ready_of. cbn [y' ks_go ks_commit ks_dev]. rewrite Ec, list_to_map_app. destruct (decide (j = idx)) as [->|Hne].
    - rewrite lookup_union_r by (apply not_elem_of_list_to_map_1; exact Hnr). cbn [list_to_map foldr fst snd uncurry]. rewrite lookup_insert. reflexivity.
    - destruct ((list_to_map ready : gmap N (list N)) !! j) as [p|] eqn:Er; [rewrite (lookup_union_Some_l _ _ _ _ Er); reflexivity|].
      rewrite lookup_union_r by exact Er. cbn [list_to_map foldr fst snd uncurry]. rewrite lookup_insert_ne by congruence. rewrite lookup_empty. reflexivity. }
  assert (forall k, eff c y' k = if decide (kc_index c k = Some idx) then match elook ents k with Some e => e | None => eff c y k end else eff c y k) as Eeff.
  { intros k. destruct (decide (kc_index c k = Some idx)) as [Ei|Hne].
    - rewrite <- Hfind by exact Ei. unfold eff. rewrite Ei. cbn [mbind option_bind]. rewrite Eep, decide_True by reflexivity. rewrite Edec. reflexivity.
    - unfold eff. destruct (kc_index c k) as [j|] eqn:Ej; [|reflexivity]. cbn [mbind option_bind]. rewrite Eep, decide_False by congruence. reflexivity. }
  assert (forall k, pcom c y' k = if decide (kc_index c k = Some idx) then None else pcom c y k) as Epc.
  { intros k. unfold pcom. rewrite Ec. cbn [y' ks_go ks_commit]. destruct (kc_index c k) as [j|] eqn:Ej; [|rewrite decide_False by discriminate; reflexivity]. cbn [mbind option_bind].
    destruct (decide (Some j = Some idx)) as [E'|Hne].
    - injection E' as ->. rewrite bool_decide_false; [reflexivity|]. intros Hin. apply elem_of_list_filter in Hin as [G _]. apply G. reflexivity.
    - assert (bool_decide (j ∈ filter (fun i => i <> idx) todo) = bool_decide (j ∈ todo)) as ->; [|reflexivity].
      apply bool_decide_ext. rewrite elem_of_list_filter. split; [tauto|]. intros Hin. split; [congruence|exact Hin]. }
  assert (forall k, kc_index c k = Some idx -> pcom c y k = elook ents k) as Epc0.
  { intros k Ei. unfold pcom. rewrite Ec, Ei. cbn [mbind option_bind]. rewrite bool_decide_true by exact Hidx. reflexivity. }
  assert (forall k, cur c y' k = cur c y k) as Ecur.
  { intros k. unfold cur. rewrite Epc, Eeff. destruct (decide (kc_index c k = Some idx)) as [Ei|_]; [|reflexivity]. rewrite Epc0 by exact Ei. destruct (elook ents k); reflexivity. }
  assert (forall k e, pth c y' k e -> pth c y k e) as Epth.
  { intros k e [He|[He|He]].
    - left. exact He.
    - rewrite Eeff in He. destruct (decide (kc_index c k = Some idx)) as [Ei|_]; [|right; left; exact He]. destruct (elook ents k) as [e'|] eqn:Ee; [|right; left; exact He].
      right. right. rewrite Epc0 by exact Ei. rewrite Ee. exact He.
    - rewrite Epc in He. destruct (decide _); [discriminate He|]. right. right. exact He. }
  constructor.
  - apply (go_BI c y H _ _ _ _ _ None); try reflexivity; try discriminate; try apply HB; try apply keeps_refl.
    + intros m' k Em' Ek. rewrite Em in Em'. injection Em' as <-. fold y'. rewrite Eeff. destruct (decide _); [|reflexivity]. apply Hok in Ek. rewrite Ek. reflexivity.
    + rewrite Em. discriminate.
    + unfold stage_ok. cbn [ks_go ks_commit ks_com ks_log ks_dev]. split; [exact H1|]. exists m. split; [exact Em|]. split; [exact Hm|]. split; [exact Hok|]. split; [|split; [|split]].
      * rewrite fmap_app. apply NoDup_app. split; [exact Hrn|]. split; [|apply NoDup_singleton]. intros j Hj1 Hj2. apply elem_of_list_singleton in Hj2. cbn in Hj2. subst j. contradiction.
      * apply Forall_forall. intros j Hjj. apply elem_of_list_filter in Hjj as [_ Hjj]. rewrite Forall_forall in Htodo. apply Htodo, Hjj.
      * intros k e j El Ej Hnj. fold y'. rewrite Eeff. destruct (decide (kc_index c k = Some idx)) as [Ei|Hne]; [rewrite El; reflexivity|]. apply (Hall k e j El Ej). intros Hin. apply Hnj, elem_of_list_filter. split; [congruence|exact Hin].
      * intros j pg Hin. apply elem_of_app in Hin as [Hin|Hin].
        -- destruct (Hready j pg Hin) as (G1 & G2 & G3 & G4 & G5). split; [exact G1|]. split; [intros Hx; apply elem_of_list_filter in Hx as [_ Hx]; contradiction|]. split; [exact G3|]. split; [exact G4|exact G5].
        -- apply elem_of_list_singleton in Hin. injection Hin as -> ->. split; [exact Hi|]. split; [intros Hx; apply elem_of_list_filter in Hx as [Hx _]; apply Hx; reflexivity|].
           split; [|split; [lia|]].
           ++ constructor; [exists order; exact Hrd|rewrite Edec; exact Hnd| |].
              ** intros k d Hkd. rewrite Edec in Hkd. rewrite Forall_forall in Hv, Hn. split; [apply (Hv _ Hkd)|]. split; [apply (Hn _ Hkd)|eapply Hix; exact Hkd].
              ** intros k d Hkd. rewrite Edec in Hkd. rewrite Forall_forall in Hv. apply (Hv _ Hkd).
           ++ intros k Ek. rewrite Edec. destruct (decide (kc_index c k = Some idx)) as [Ei|Hne].
              ** rewrite Hfind by exact Ei. apply Hok in Ek. rewrite Ek. unfold eff. rewrite Ei. cbn [mbind option_bind]. unfold epage, ready_of. rewrite Ec.
                 rewrite not_elem_of_list_to_map_1 by exact Hnr. reflexivity.
              ** destruct (page_find order k) as [d|] eqn:E1; [apply page_find_elem in E1; exfalso; apply Hne; eapply Hix; exact E1|].
                 destruct (page_find (decode (page_at c (ks_dev y) idx)) k) as [d|] eqn:E2; [|reflexivity]. apply page_find_elem in E2. exfalso. apply Hne. apply (po_key _ _ _ (b_pages _ _ HB idx Hi) _ _ E2).
  - intros m' k e s o Em' Ek Ec' Hhw'. rewrite Ecur in Ec'. apply (s_vcom _ _ H m' k e s o Em' Ek Ec'). unfold hw_of. rewrite Ec. intros b Hb. inversion Hb.
  - exists live', total. split; [exact HK'|].
    assert (forall t e, ow c y' t = Some e -> exists t0, ow c y t0 = Some e /\ (forall k e', kc_index c k = Some idx -> elook ents k = Some e' -> t0 <> OKey k) /\
       (t0 = t \/ exists k, t = OKey k /\ t0 = OCom k /\ kc_index c k = Some idx)) as Hmap.
    { intros t e Ee. destruct t as [k|k|n|i].
      - cbn [ow] in Ee. rewrite Eeff in Ee. destruct (decide (kc_index c k = Some idx)) as [Ei|Hne].
        + destruct (elook ents k) as [e'|] eqn:El.
          * exists (OCom k). split; [cbn [ow]; rewrite Epc0 by exact Ei; rewrite El; exact Ee|]. split; [discriminate|]. right. eauto.
          * exists (OKey k). split; [exact Ee|]. split; [intros k' e' _ El' [= ->]; congruence|]. left; reflexivity.
        + exists (OKey k). split; [exact Ee|]. split; [intros k' e' Ei' _ [= ->]; contradiction|]. left; reflexivity.
      - cbn [ow] in Ee. rewrite Epc in Ee. destruct (decide _); [discriminate Ee|]. exists (OCom k). split; [exact Ee|]. split; [discriminate|]. left; reflexivity.
      - exists (OLog n). split; [exact Ee|]. split; [discriminate|]. left; reflexivity.
      - exists (OWr i). split; [exact Ee|]. split; [discriminate|]. left; reflexivity. }
    split; [|split].
    + intros t e Ee. destruct (Hmap t e Ee) as (t0 & Et0 & Hnk & _). apply Hlive; [eapply (proj1 Ho); exact Et0|]. intros k e' Ei El Ex. eapply Hnk; [exact Ei|exact El|]. eapply (own_inj _ _ Ho); [exact Et0|exact Ex].
    + intros t t' e Ee Ee'. destruct (Hmap t e Ee) as (t0 & Et0 & _ & Hr). destruct (Hmap t' e Ee') as (t0' & Et0' & _ & Hr'). pose proof (own_inj _ _ Ho _ _ _ Et0 Et0') as <-.
      destruct Hr as [->|(k & -> & -> & Ei)], Hr' as [<-|(k' & -> & Eq & Ei')]; try reflexivity.
      * subst t. cbn [ow] in Ee. rewrite Epc, decide_True in Ee by exact Ei'. discriminate Ee.
      * cbn [ow] in Ee'. rewrite Epc, decide_True in Ee' by exact Ei. discriminate Ee'.
      * congruence.
    + intros Hg e He. destruct (Hlive' e He) as [Hin Hno]. destruct (own_cov _ _ Ho Hg e Hin) as [t Et]. destruct t as [k|k|n|i].
      * exists (OKey k). cbn [ow] in *. rewrite Eeff. destruct (decide (kc_index c k = Some idx)) as [Ei|_]; [|exact Et].
        destruct (elook ents k) as [e'|] eqn:El; [|exact Et]. exfalso. eapply Hno; eassumption.
      * cbn [ow] in Et. destruct (decide (kc_index c k = Some idx)) as [Ei|Hne].
        -- exists (OKey k). cbn [ow]. rewrite Eeff, decide_True by exact Ei. rewrite Epc0 in Et by exact Ei. destruct (elook ents k) as [e'|]; [exact Et|discriminate Et].
        -- exists (OCom k). cbn [ow]. rewrite Epc, decide_False by exact Hne. exact Et.
      * exists (OLog n). exact Et.
      * exists (OWr i). exact Et.
  - intros k e He. apply Epth in He. eapply (s_placed _ _ H); exact He.
  - intros k k' e e' Hkk He He'. apply Epth in He, He'. eapply (s_disj _ _ H); eassumption.
  - apply H.
Qed.

(** A page write changes no heap byte and no other page. *)
Lemma page_write_heap idx page x : idx < kc_pages c -> N.of_nat (length page) = kc_psize c -> kc_base c <= x -> dev_write (ks_dev y) (idx * kc_psize c) page x = ks_dev y x.
Proof using Hc.
  intros Hi Hl Hx. apply dev_write_out. right. rewrite Hl. pose proof (good_pages c Hc) as [_ E].
  assert ((idx + 1) * kc_psize c <= kc_pages c * kc_psize c) by (apply N.mul_le_mono_r; lia). rewrite N.mul_add_distr_r, N.mul_1_l in *. lia.
Qed.
Lemma page_write_at idx page j : N.of_nat (length page) = kc_psize c ->
  page_at c (dev_write (ks_dev y) (idx * kc_psize c) page) j = if decide (j = idx) then page else page_at c (ks_dev y) j.
Proof using Type.
  intros Hl. unfold page_at. destruct (decide (j = idx)) as [->|Hne].
  - apply list_eq. intros i. unfold dev_read. rewrite list_lookup_fmap. destruct (decide (i < length page)%nat) as [Hi|Hi].
    + rewrite lookup_seq_lt by lia. cbn. destruct (page !! i) as [b|] eqn:Eb; [|apply lookup_ge_None in Eb; lia]. f_equal. apply dev_write_in; [lia|].
      replace (N.to_nat (idx * kc_psize c + N.of_nat i - idx * kc_psize c)) with i by lia. exact Eb.
    + rewrite lookup_seq_ge by lia. rewrite lookup_ge_None_2 by lia. reflexivity.
  - unfold dev_read. apply list_fmap_ext. intros i n Hn. apply lookup_seq in Hn as [-> Hlt]. cbn [Nat.add]. apply dev_write_out. rewrite Hl.
    destruct (N.lt_trichotomy j idx) as [Hj|[Hj|Hj]]; [left|congruence|right].
    + assert ((j + 1) * kc_psize c <= idx * kc_psize c) by (apply N.mul_le_mono_r; lia). rewrite N.mul_add_distr_r, N.mul_1_l in *. lia.
    + assert ((idx + 1) * kc_psize c <= j * kc_psize c) by (apply N.mul_le_mono_r; lia). rewrite N.mul_add_distr_r, N.mul_1_l in *. lia.
Qed.
Lemma ready_delete (ready : list (N * list N)) i idx page j : NoDup (fst <$> ready) -> ready !! i = Some (idx, page) ->
  (list_to_map (delete i ready) : gmap N (list N)) !! j = if decide (j = idx) then None else (list_to_map ready : gmap N (list N)) !! j.
Proof using Type.
  intros Hn Ei. pose proof (delete_Permutation ready i _ Ei) as Hp. assert (NoDup (fst <$> delete i ready)) as Hn'.
  { rewrite Hp in Hn. rewrite fmap_cons in Hn. apply NoDup_cons in Hn. apply Hn. }
  assert (list_to_map ready = (list_to_map ((idx, page) :: delete i ready) : gmap N (list N))) as -> by (apply list_to_map_proper; [exact Hn|exact Hp]).
  cbn [list_to_map foldr fst snd uncurry]. destruct (decide (j = idx)) as [->|Hne].
  - apply not_elem_of_list_to_map_1. rewrite Hp, fmap_cons in Hn. apply NoDup_cons in Hn. apply Hn.
  - rewrite lookup_insert_ne by congruence. reflexivity.
Qed.

Lemma keeps_heap d : (forall x, kc_base c <= x -> d x = ks_dev y x) -> keeps c y d None.
Proof using Hc H.
  intros Hd t e v _ Et [Hs Hv]. split; [exact Hs|]. intros i b Hi. rewrite Hd; [apply Hv, Hi|]. destruct (s_own _ _ H) as (live & total & HK & Ho).
  destruct (placed_addr c Hc e) as (_ & _ & G & _); [|lia]. eapply live_placed; [exact Hc|exact HK|]. eapply (proj1 Ho); exact Et.
Qed.

Lemma si_page_write ents todo ready i idx page d : ks_commit y = Some (CPages ents todo ready) -> ready !! i = Some (idx, page) ->
  od_write (kc_spage c) (ks_dev y) (idx * kc_psize c) page = Some d ->
  SI (NL:=NL) c (ks_go y (ks_log y) d (ks_alloc y) (Some (CPages ents todo (delete i ready))) (ks_lost y)).
Proof using Hc H.
  intros Ec Ei Ed. apply od_write_Some in Ed.
  pose proof (s_b _ _ H) as HB. pose proof (b_stage _ _ HB) as Hst. unfold stage_ok in Hst. rewrite Ec in Hst.
  destruct Hst as (H1 & m & Em & Hm & Hok & Hrn & Htodo & Hall & Hready). pose proof (elem_of_list_lookup_2 _ _ _ Ei) as Hin.
  destruct (Hready idx page Hin) as (Hi & Hnt & Hpok & Hpl & Hpf).
  assert (forall x, kc_base c <= x -> d x = ks_dev y x) as Hd by (intros x Hx; rewrite Ed; apply page_write_heap; assumption).
  assert (forall j, page_at c d j = if decide (j = idx) then page else page_at c (ks_dev y) j) as Hpa by (intros j; rewrite Ed; apply page_write_at; exact Hpl).
  set (y' := ks_go _ _ _ _ _ _).
  assert (forall j, epage c y' j = epage c y j) as Eep.
  { intros j. unfold epage, ready_of. cbn [y' ks_go ks_commit ks_dev]. rewrite Ec, (ready_delete _ _ _ _ _ Hrn Ei), Hpa. destruct (decide (j = idx)) as [->|Hne]; [|reflexivity].
    cbn [from_option id]. assert ((list_to_map ready : gmap N (list N)) !! idx = Some page) as -> by (apply elem_of_list_to_map_1; [exact Hrn|exact Hin]). reflexivity. }
  assert (forall k, eff c y' k = eff c y k) as Eeff by (intros k; unfold eff; destruct (kc_index c k); [|reflexivity]; cbn [mbind option_bind]; rewrite Eep; reflexivity).
  assert (forall k, pcom c y' k = pcom c y k) as Epc by (intros k; unfold pcom; rewrite Ec; reflexivity).
  assert (forall k, cur c y' k = cur c y k) as Ecur by (intros k; unfold cur; rewrite Epc, Eeff; reflexivity).
  assert (forall k e, pth c y' k e -> pth c y k e) as Epth.
  { intros k e. unfold pth. rewrite Eeff, Epc. intros [He|He]; [|right; exact He]. unfold dpg in He. destruct (kc_index c k) as [j|] eqn:Ej; [|discriminate He]. cbn [mbind option_bind y' ks_go ks_dev] in He.
    rewrite Hpa in He. destruct (decide (j = idx)) as [->|Hne].
    - right. left. unfold eff. rewrite Ej. cbn [mbind option_bind]. unfold epage, ready_of. rewrite Ec.
      assert ((list_to_map ready : gmap N (list N)) !! idx = Some page) as -> by (apply elem_of_list_to_map_1; [exact Hrn|exact Hin]). exact He.
    - left. unfold dpg. rewrite Ej. exact He. }
  assert (forall j pg, (j, pg) ∈ delete i ready -> (j, pg) ∈ ready /\ j <> idx) as Hdel.
  { intros j pg Hj. pose proof (delete_Permutation ready i _ Ei) as Hp. split; [rewrite Hp; right; exact Hj|]. intros ->. rewrite Hp, fmap_cons in Hrn. apply NoDup_cons in Hrn as [G _]. apply G.
    apply elem_of_list_fmap. exists (idx, pg). auto. }
  constructor.
  - apply (go_BI c y H _ _ _ _ _ None); try reflexivity; try discriminate; try apply HB; try (intros; apply Eeff); try (apply keeps_heap; exact Hd).
    + unfold stage_ok. cbn [ks_go ks_commit ks_com ks_log ks_dev]. split; [exact H1|]. exists m. split; [exact Em|]. split; [exact Hm|]. split; [exact Hok|]. split; [|split; [exact Htodo|split]].
      * rewrite list_fmap_delete. apply NoDup_delete, Hrn.
      * intros k e j El Ej Hnj. fold y'. rewrite Eeff. eapply Hall; eassumption.
      * intros j pg Hj. destruct (Hdel j pg Hj) as [Hj' Hne]. destruct (Hready j pg Hj') as (G1 & G2 & G3 & G4 & G5). split; [exact G1|]. split; [exact G2|]. split; [exact G3|]. split; [exact G4|].
        intros k Ek. rewrite Hpa, decide_False by exact Hne. apply G5, Ek.
    + intros j Hj. rewrite Hpa. destruct (decide (j = idx)) as [->|Hne]; [exact Hpok|apply HB, Hj].
  - intros m' k e s o Em' Ek Ec' Hhw'. rewrite Ecur in Ec'. destruct (s_vcom _ _ H m' k e s o Em' Ek Ec') as (v & Ev & Hv); [unfold hw_of; rewrite Ec; intros b Hb; inversion Hb|].
    exists v. split; [exact Ev|]. destruct (cur_owner c y k s o Ec') as (t & Et & _). apply (keeps_heap d Hd t (o, s) v); [discriminate|exact Et|exact Hv].
  - destruct (s_own _ _ H) as (live & total & HK & Ho). exists live, total. split; [exact HK|]. eapply owned_ext; [exact Ho|]. intros [k|k|n|j]; cbn [ow]; [rewrite Eeff|rewrite Epc| |]; reflexivity.
  - intros k e He. apply Epth in He. eapply (s_placed _ _ H); exact He.
  - intros k k' e e' Hkk He He'. apply Epth in He, He'. eapply (s_disj _ _ H); eassumption.
  - apply (writes_kept c y H _ None); [apply keeps_heap; exact Hd|discriminate].
Qed.
End pages.
