(** The commit: grouping entries and moving values to the heap. *)
From Coq Require Import ZifyBool ZifyNat ZifyN.
From stdpp Require Import base numbers list_numbers option gmap sets fin_maps list.
From Verif Require Import Util Bytes PageIOModel PageIOProofs PageIOWrite BuddyModel KvAllocModel KvAllocSpec KvAllocProofs KvAllocInv
  KvCodecModel KvCodecSpec KvCodecProofs KvReadModel PropertiesKvRead KvLogModel KvLogSpec KvLogProofs KvLogSys KvLogInv KvStoreModel KvStoreSpec KvStoreInv KvStoreFrame KvStoreSteps KvStoreCommit.
Open Scope N_scope.
Ltac Zify.zify_post_hook ::= idtac.

Lemma elook_elem (ents : list (okey * option odata)) k e : NoDup (fst <$> ents) -> elook ents k = Some e <-> (k, e) ∈ ents.
Proof. intros Hn. unfold elook. symmetry. apply (elem_of_list_to_map (M:=gmap okey)). exact Hn. Qed.
Lemma elook_None (ents : list (okey * option odata)) k : elook ents k = None <-> k ∉ (fst <$> ents).
Proof. unfold elook. symmetry. apply (not_elem_of_list_to_map (M:=gmap okey)). Qed.

(** What grouping does with an entry at a position. *)
Definition moved (e : option odata) : Prop := match e with Some (DInline i) => tuple_inline_threshold < N.of_nat (length i) | _ => False end.
Record grouped (c : kconf) (live live' : list extent) (order ents : list (okey * option odata)) (hw : list (N * list N)) : Prop := {
  g_mv : Forall2 (fun x x' => fst x' = fst x /\ mv (snd x) (snd x')) order ents;
  g_sub : forall e, e ∈ live -> e ∈ live';
  g_new : forall j k e e', order !! j = Some (k, e) -> ents !! j = Some (k, e') -> moved e ->
     exists s o, e' = Some (DHeap s o) /\ (o, s) ∈ live' /\ (o, s) ∉ live /\ exists buf, (o, buf) ∈ hw;
  g_inj : forall j j' k k' e1 e2 x, order !! j = Some (k, e1) -> order !! j' = Some (k', e2) -> moved e1 -> moved e2 ->
     (ents !! j ≫= fun p => ext_of (snd p)) = Some x -> (ents !! j' ≫= fun p => ext_of (snd p)) = Some x -> j = j';
  g_hw : forall off buf, (off, buf) ∈ hw -> exists j k i junk, order !! j = Some (k, Some (DInline i)) /\ ents !! j = Some (k, Some (DHeap (N.of_nat (length i)) off)) /\
     buf = i ++ junk /\ N.of_nat (length buf) = ceil_pow2 (N.of_nat (length i)) (kc_spage c);
  g_all : forall e, e ∈ live' -> e ∈ live \/ exists j k e', ents !! j = Some (k, e') /\ ext_of e' = Some e /\ exists e0, order !! j = Some (k, e0)
}.

Lemma ceil_pos n p : 0 < n -> 2 ^ p <= ceil_pow2 n p.
Proof.
  intros Hn. pose proof (ceil_pow2_ge n p) as Hge. pose proof (ceil_pow2_mult n p) as Hm. apply N.mod_divide in Hm as [q Hq]; [|apply pow2_nz]. rewrite Hq in *.
  assert (q <> 0) as H0 by (intros ->; clear -Hge Hn; lia). clear -H0. revert H0. generalize (2 ^ p). intros; nia.
Qed.

Lemma group_spec c order : good_kconf c -> forall a live total junks a' hw ents, KIc c a live total ->
  group_moves (kc_spage c) a order junks = Some (a', hw, ents) ->
  exists live' total', KIc c a' live' total' /\ grouped c live live' order ents hw.
Proof.
  intros Hc. pose proof (good_spage c Hc) as ([Hsp1 Hsl] & H63 & H9). induction order as [|[k e] order IH]; intros a live total junks a' hw ents HK E.
  - cbn in E. injection E as <- <- <-. exists live, total. split; [exact HK|]. constructor; [constructor|auto|intros j k e e' Ej; discriminate Ej|intros j j' k k' e1 e2 x Ej; discriminate Ej|intros off buf Hin; inversion Hin|auto].
  - assert (forall e, ~ moved e -> mv e e) as Hmv0.
    { intros [[i|s o]|] Hm; cbn; try reflexivity. destruct (N.ltb_spec tuple_inline_threshold (N.of_nat (length i))) as [Hx|Hx]; [|reflexivity]. exfalso. apply Hm. exact Hx. }
    assert (~ moved e -> (x ← group_moves (kc_spage c) a order junks; let '(a, hw, ents) := x in Some (a, hw, (k, e) :: ents)) = Some (a', hw, ents) ->
      exists live' total', KIc c a' live' total' /\ grouped c live live' ((k, e) :: order) ents hw) as Hplain.
    { intros Hnm E'. destruct (group_moves _ a order junks) as [[[a1 hw1] ents1]|] eqn:Eg; [|discriminate E']. cbn [mbind option_bind] in E'. injection E' as -> -> <-.
      destruct (IH _ _ _ _ _ _ _ HK Eg) as (live' & total' & HK' & [G1 G2 G3 G4 G5 G6]). exists live', total'. split; [exact HK'|]. constructor.
      - constructor; [split; [reflexivity|apply Hmv0, Hnm]|exact G1].
      - exact G2.
      - intros [|j] k0 e0 e' Ej Ej' Hm; cbn in Ej, Ej'; [injection Ej as <- <-; contradiction|]. eapply G3; eassumption.
      - intros [|j] [|j'] k0 k' e1 e2 x Ej Ej' Hm Hm' Ex Ex'; cbn in Ej, Ej', Ex, Ex'; [reflexivity|injection Ej as <- <-; contradiction|injection Ej' as <- <-; contradiction|].
        f_equal. eapply G4; eassumption.
      - intros off buf Hin. destruct (G5 off buf Hin) as (j & k0 & i & junk & E1 & E2 & E3). exists (S j), k0, i, junk. auto.
      - intros e0 He. destruct (G6 e0 He) as [Hl|(j & k0 & e' & E1 & E2 & E3)]; [left; exact Hl|right]. exists (S j), k0, e'. auto. }
    cbn [group_moves] in E. destruct e as [[i|s o]|]; [|exact (Hplain ltac:(auto) E)|exact (Hplain ltac:(auto) E)].
    destruct (N.ltb_spec tuple_inline_threshold (N.of_nat (length i))) as [Hx|Hx]; [|apply Hplain; [cbn; lia|exact E]]. clear Hplain.
    assert (0 < N.of_nat (length i)) as Hpos by (unfold tuple_inline_threshold in Hx; lia).
    destruct (kv_allocate a (N.of_nat (length i))) as [[a1 off]| |] eqn:Ea; try discriminate E. destruct junks as [|junk junks]; [discriminate E|].
    destruct (N.eqb_spec (N.of_nat (length junk)) (N.max (2 ^ kc_spage c) (ceil_pow2 (N.of_nat (length i)) (kc_spage c)))) as [Hj|]; [|discriminate E]. cbn [negb] in E.
    destruct (group_moves _ a1 order junks) as [[[a2 hw1] ents1]|] eqn:Eg; [|discriminate E]. cbn [mbind option_bind] in E. injection E as -> <- <-.
    destruct (allocate_ki _ _ _ _ Hsp1 H63 _ _ _ _ _ _ HK Hpos Ea) as (HK1 & Hw & Hd).
    destruct (IH _ _ _ _ _ _ _ HK1 Eg) as (live' & total' & HK' & [G1 G2 G3 G4 G5 G6]). exists live', total'. split; [exact HK'|].
    pose proof (fresh_live c _ _ Hc Hw Hd) as Hfr. constructor.
    + constructor; [|exact G1]. split; [reflexivity|]. cbn [snd mv]. destruct (N.ltb_spec tuple_inline_threshold (N.of_nat (length i))) as [_|Hx']; [|lia]. eauto.
    + intros f Hf. apply G2. right. exact Hf.
    + intros [|j] k0 e0 e' Ej Ej' Hm; cbn in Ej, Ej'.
      * injection Ej as <- <-. injection Ej' as <-. eexists _, _. split; [reflexivity|]. split; [apply G2; left|]. split; [exact Hfr|]. eexists. left.
      * destruct (G3 j k0 e0 e' Ej Ej' Hm) as (s & o & -> & Hin & Hni & buf & Hb). eexists _, _. split; [reflexivity|]. split; [exact Hin|]. split; [|exists buf; right; exact Hb].
        intros Hl. apply Hni. right. exact Hl.
    + assert (forall j k0 e0 x, order !! j = Some (k0, e0) -> moved e0 -> (ents1 !! j ≫= fun p => ext_of (snd p)) = Some x -> x <> (off, N.of_nat (length i))) as Hnew.
      { intros j k0 e0 x Ej Hm Ex ->. destruct (Forall2_lookup_l _ _ _ _ _ G1 Ej) as ([k1 e1] & Ej1 & Ek & _). cbn in Ek. subst k1. rewrite Ej1 in Ex. cbn in Ex.
        destruct (G3 j k0 e0 e1 Ej Ej1 Hm) as (s & o & -> & _ & Hni & _). cbn in Ex. injection Ex as -> ->. apply Hni. left. }
      intros [|j] [|j'] k0 k' e1 e2 x Ej Ej' Hm Hm' Ex Ex'; cbn in Ej, Ej'; [reflexivity| | |].
      * exfalso. cbn in Ex. injection Ex as <-. eapply Hnew; [exact Ej'|exact Hm'|exact Ex'|reflexivity].
      * exfalso. cbn in Ex'. injection Ex' as <-. eapply Hnew; [exact Ej|exact Hm|exact Ex|reflexivity].
      * f_equal. eapply G4; eassumption.
    + intros off' buf Hin. apply elem_of_cons in Hin as [Hin|Hin].
      * injection Hin as -> ->. exists 0%nat, k, i, (drop (length i) junk). repeat split. rewrite app_length, drop_length.
        rewrite N.max_r in Hj by (apply ceil_pos, Hpos). pose proof (ceil_pow2_ge (N.of_nat (length i)) (kc_spage c)) as Hge. clear -Hj Hge. lia.
      * destruct (G5 off' buf Hin) as (j & k0 & i0 & junk0 & E1 & E2 & E3). exists (S j), k0, i0, junk0. auto.
    + intros e0 He. destruct (G6 e0 He) as [Hl|(j & k0 & e' & E1 & E2 & E3)]; [|right; exists (S j), k0, e'; auto].
      apply elem_of_cons in Hl as [->|Hl]; [|left; exact Hl]. right. eexists 0%nat, k, _. split; [reflexivity|]. split; [reflexivity|]. eexists; reflexivity.
Qed.

Lemma mv_ext e e' : mv e e' -> ~ moved e -> e' = e.
Proof. destruct e as [[i|s o]|]; cbn; try (intros ->; reflexivity). destruct (N.ltb_spec tuple_inline_threshold (N.of_nat (length i))); [contradiction|auto]. Qed.

Lemma grouped_ents c live live' (m : kmap) order ents hw : grouped c live live' order ents hw -> order ≡ₚ map_to_list m ->
  NoDup (fst <$> order) /\ (fst <$> ents) = (fst <$> order) /\ ents_ok m ents /\
  (forall k e, elook ents k = Some e -> exists j e0, order !! j = Some (k, e0) /\ ents !! j = Some (k, e) /\ m !! k = Some e0).
Proof.
  intros G Hp. pose proof (NoDup_fst_map_to_list (M:=gmap okey) m) as Hnd.
  assert (NoDup (fst <$> order)) as Hn by (rewrite Hp; exact Hnd).
  assert ((fst <$> ents) = (fst <$> order)) as Ef.
  { pose proof (g_mv _ _ _ _ _ _ G) as F. clear -F. induction F as [|x x' l l' [E _] F IH]; [reflexivity|]. cbn. rewrite E, IH. reflexivity. }
  assert (forall k e, elook ents k = Some e -> exists j e0, order !! j = Some (k, e0) /\ ents !! j = Some (k, e) /\ m !! k = Some e0) as Hl.
  { intros k e E. apply elook_elem in E; [|rewrite Ef; exact Hn]. apply elem_of_list_lookup in E as [j Ej].
    destruct (Forall2_lookup_r _ _ _ _ _ (g_mv _ _ _ _ _ _ G) Ej) as ([k0 e0] & Ej0 & Ek & _). cbn in Ek. subst k0. exists j, e0. repeat split; try assumption.
    apply (elem_of_map_to_list (M:=gmap okey)). rewrite <- Hp. eapply elem_of_list_lookup_2; exact Ej0. }
  split; [exact Hn|]. split; [exact Ef|]. split; [|exact Hl]. split; [rewrite Ef; exact Hn|]. intros k. split.
  - rewrite elook_None, Ef, Hp. rewrite elem_of_list_fmap. split.
    + intros E ([k0 e0] & Ek & Hin). cbn in Ek. subst k0. apply (elem_of_map_to_list (M:=gmap okey)) in Hin. congruence.
    + intros Hni. destruct (m !! k) as [e|] eqn:E; [|reflexivity]. exfalso. apply Hni. exists (k, e). split; [reflexivity|]. apply (elem_of_map_to_list (M:=gmap okey)). exact E.
  - intros e e' Em El. destruct (Hl k e' El) as (j & e0 & Ej & Ej' & E0). rewrite Em in E0. injection E0 as <-.
    destruct (Forall2_lookup_l _ _ _ _ _ (g_mv _ _ _ _ _ _ G) Ej) as ([k1 e1] & Ej1 & _ & Hmv). rewrite Ej' in Ej1. injection Ej1 as <- <-. exact Hmv.
Qed.

(** Steps that change only stage, allocator and device. *)
Section go.
Context {NL : Prop} (c : kconf) (y : kstate).
Hypothesis Hc : good_kconf c.
Hypothesis H : SI (NL:=NL) c y.

Lemma go_BI log d a st lost t0 : 
  (exists q, linv (kc_log c) log q) -> l_hist log = l_hist (ks_log y) -> l_ncommit log = l_ncommit (ks_log y) -> 
  (l_ntail log - length (l_apply log) = l_ntail (ks_log y) - length (l_apply (ks_log y)))%nat ->
  let y' := ks_go y log d a st lost in
  (forall m k, ks_com y = Some m -> m !! k = None -> eff c y' k = eff c y k) -> (ks_com y = None -> forall k, eff c y' k = eff c y k) ->
  stage_ok c y' -> (forall idx, idx < kc_pages c -> page_ok c idx (page_at c d idx)) ->
  keeps c y d t0 -> (forall n, t0 <> Some (OLog n)) -> (forall k, t0 <> Some (OKey k)) -> BI c y'.
Proof using H.
  intros Hl L1 L3 L5 y' He1 He2 Hst Hpg Hk Ht1 Ht2. pose proof (s_b _ _ H) as HB.
  assert (applied y' = applied y) as Ea by exact L5. constructor; try assumption.
  - unfold hist, y'. cbn [ks_go ks_log ks_vals]. rewrite L1. apply HB.
  - rewrite Ea. cbn [y' ks_go ks_log]. rewrite L3. apply HB.
  - rewrite Ea. unfold hist. cbn [y' ks_go ks_log ks_unc]. rewrite L1, L3. apply HB.
  - intros n k s o raw v Hn Eh Hlast Ev. rewrite Ea in Hlast. unfold last_op, hist in *. cbn [y' ks_go ks_log ks_vals ks_dev] in *. rewrite L1 in *. rewrite L3 in Hn.
    apply (Hk (OLog n) (o, s) v); [intros E; eapply Ht1; symmetry; exact E| |].
    * cbn. destruct (Nat.leb_spec (l_ncommit (ks_log y)) n) as [_|Hx]; [|lia]. rewrite Eh. reflexivity.
    * eapply (b_vlog _ _ HB); eassumption.
  - intros k Eu Em. cbn [y' ks_go ks_unc ks_com ks_dev] in *. rewrite Ea.
    assert (eff c y' k = eff c y k) as ->. { destruct (ks_com y) as [m|] eqn:Ecm; [eapply He1; [reflexivity|]; apply Em; reflexivity|apply He2; reflexivity]. }
    pose proof (b_vpage _ _ HB k Eu Em) as Hv. change (upto c y' (applied y)) with (upto c y (applied y)). destruct (eff c y k) as [[i|s o]|] eqn:Ee; [exact Hv| |exact Hv].
    destruct (latest _ k) as [v|]; [|exact Hv]. cbn [shows] in *. apply (Hk (OKey k) (o, s) v); [intros E; eapply Ht2; symmetry; exact E| |exact Hv].
    cbn. rewrite Ee. reflexivity.
Qed.

Lemma si_group m order junks a hw ents : ks_commit y = Some CStart -> ks_com y = Some m -> order ≡ₚ map_to_list m ->
  group_moves (kc_spage c) (ks_alloc y) order junks = Some (a, hw, ents) ->
  SI (NL:=NL) c (ks_go y (ks_log y) (ks_dev y) a (Some (CHeap hw ents)) (ks_lost y)).
Proof using Hc H.
  intros Ec Em Hp E. pose proof (s_b _ _ H) as HB. destruct (s_own _ _ H) as (live & total & HK & Ho).
  destruct (group_spec c order Hc _ _ _ _ _ _ _ HK E) as (live' & total' & HK' & G). destruct (grouped_ents c _ _ m _ _ _ G Hp) as (Hn & Ef & Hok & Hl).
  set (y' := ks_go _ _ _ _ _ _).
  assert (ready_of y = [] /\ ready_of y' = []) as [Er Er'] by (unfold ready_of; rewrite Ec; auto).
  assert (forall k, eff c y' k = eff c y k) as Eeff by (intros k; rewrite !eff_nil by assumption; reflexivity).
  assert (forall k, pcom c y k = m !! k) as Epc by (intros k; unfold pcom; rewrite Ec, Em; reflexivity).
  assert (forall k, pcom c y' k = elook ents k) as Epc' by reflexivity.
  (* an owned extent is an old one or that of a moved entry *)
  assert (forall t e, ow c y' t = Some e -> ow c y t = Some e \/ exists k j e0, t = OCom k /\ order !! j = Some (k, e0) /\ moved e0 /\ (ents !! j ≫= fun p => ext_of (snd p)) = Some e /\ e ∈ live' /\ e ∉ live) as Hcase.
  { intros t e Ee. destruct t as [k|k|n|i].
    - left. cbn [ow] in *. rewrite Eeff in Ee. exact Ee.
    - cbn [ow] in Ee. rewrite Epc' in Ee. destruct (elook ents k) as [e1|] eqn:El; [|discriminate Ee]. cbn [mbind option_bind] in Ee.
      destruct (Hl k e1 El) as (j & e0 & Ej & Ej' & E0).
      assert (moved e0 \/ ~ moved e0) as [Hm|Hm]. { destruct e0 as [[i|s o]|]; [|right; auto|right; auto]. cbn. destruct (N.ltb_spec tuple_inline_threshold (N.of_nat (length i))); [left; assumption|right; lia]. }
      + right. exists k, j, e0. destruct (g_new _ _ _ _ _ _ G j k e0 e1 Ej Ej' Hm) as (s & o & -> & Hin & Hni & _). cbn in Ee. injection Ee as <-.
        split; [reflexivity|]. split; [exact Ej|]. split; [exact Hm|]. rewrite Ej'. auto.
      + left. cbn [ow]. rewrite Epc, E0. cbn [mbind option_bind]. destruct (Forall2_lookup_l _ _ _ _ _ (g_mv _ _ _ _ _ _ G) Ej) as ([k2 e2] & Ej2 & _ & Hmv). rewrite Ej' in Ej2. injection Ej2 as <- <-.
        cbn in Hmv. apply mv_ext in Hmv; [|exact Hm]. subst e1. exact Ee.
    - left. exact Ee.
    - left. exact Ee. }
  assert (exists live total, KIc c (ks_alloc y') live total /\ owned (NL:=NL) (ow c y') live) as Hown.
  { exists live', total'. split; [exact HK'|]. split; [|split].
    - intros t e Ee. destruct (Hcase t e Ee) as [Ee'|(k & j & e0 & _ & _ & _ & _ & Hin & _)]; [|exact Hin]. apply (g_sub _ _ _ _ _ _ G). eapply (proj1 Ho); exact Ee'.
    - intros t t' e Ee Ee'. destruct (Hcase t e Ee) as [E1|(k & j & e0 & -> & Ej & Hm & Ex & Hin & Hni)]; destruct (Hcase t' e Ee') as [E1'|(k' & j' & e0' & -> & Ej' & Hm' & Ex' & Hin' & Hni')].
      + eapply (own_inj _ _ Ho); eassumption.
      + exfalso. apply Hni'. eapply (proj1 Ho); exact E1.
      + exfalso. apply Hni. eapply (proj1 Ho); exact E1'.
      + pose proof (g_inj _ _ _ _ _ _ G _ _ _ _ _ _ _ Ej Ej' Hm Hm' Ex Ex') as <-. rewrite Ej in Ej'. injection Ej' as <- _. reflexivity.
    - intros Hg e He. destruct (g_all _ _ _ _ _ _ G e He) as [Hin|(j & k & e' & Ej & Ex & _)].
      + destruct (own_cov _ _ Ho Hg e Hin) as [t Et]. exists t. destruct t as [k|k|n|i]; cbn [ow] in *; [rewrite Eeff; exact Et| |exact Et|exact Et].
        rewrite Epc in Et. rewrite Epc'. destruct (m !! k) as [e0|] eqn:Emk; [|discriminate Et]. cbn [mbind option_bind] in Et.
        destruct (elook ents k) as [e1|] eqn:El; [|apply Hok in El; congruence]. cbn [mbind option_bind].
        pose proof (proj2 (proj2 Hok k) _ _ Emk El) as Hmv. apply mv_ext in Hmv; [subst e1; exact Et|]. destruct e0 as [[i|s o]|]; [discriminate Et|auto|auto].
      + exists (OCom k). cbn [ow]. rewrite Epc'. assert (elook ents k = Some e') as -> by (apply elook_elem; [apply Hok|eapply elem_of_list_lookup_2; exact Ej]). exact Ex. }
  destruct (own_pth c y' Hc Er' Hown) as [Hpl Hdj].
  constructor; [|  |exact Hown|exact Hpl|exact Hdj|exact (s_writes _ _ H)].
  - apply (go_BI _ _ _ _ _ None); try reflexivity; try discriminate; try apply HB; try (intros; apply Eeff); try apply keeps_refl.
    pose proof (b_stage _ _ HB) as Hst. unfold stage_ok in *. cbn [ks_go ks_commit ks_com ks_log ks_dev]. rewrite Ec in Hst. destruct Hst as (H1 & m' & Em' & Hm' & _).
    rewrite Em in Em'. injection Em' as <-. split; [exact H1|]. exists m. split; [exact Em|]. split; [exact Hm'|]. split; [exact Hok|].
    intros off buf Hin. destruct (g_hw _ _ _ _ _ _ G off buf Hin) as (j & k & i & junk & E1 & E2 & E3 & E4). exists k, i, junk. split; [|split; [exact E3|split; [|exact E4]]].
    + apply (elem_of_map_to_list (M:=gmap okey)). rewrite <- Hp. eapply elem_of_list_lookup_2; exact E1.
    + apply elook_elem; [apply Hok|]. eapply elem_of_list_lookup_2; exact E2.
  - intros m' k e s o Em' Ek Ecur Hhw. cbn [y' ks_go ks_com] in Em'. rewrite Em in Em'. injection Em' as <-.
    unfold cur in Ecur. rewrite Epc' in Ecur. destruct (elook ents k) as [e1|] eqn:El; [|apply Hok in El; congruence]. subst e1.
    destruct (Hl k _ El) as (j & e0 & Ej & Ej' & E0). rewrite Ek in E0. injection E0 as <-.
    assert (~ moved e) as Hnm. { intros Hm. destruct (g_new _ _ _ _ _ _ G j k e _ Ej Ej' Hm) as (s' & o' & Es & _ & _ & buf & Hb). injection Es as <- <-. apply (Hhw buf). exact Hb. }
    destruct (Forall2_lookup_l _ _ _ _ _ (g_mv _ _ _ _ _ _ G) Ej) as ([k2 e2] & Ej2 & _ & Hmv). rewrite Ej' in Ej2. injection Ej2 as <- <-. cbn in Hmv. apply mv_ext in Hmv; [|exact Hnm]. subst e.
    apply (s_vcom _ _ H m k _ s o Em Ek); [unfold cur; rewrite Epc, Ek; reflexivity|]. intros buf. unfold hw_of. rewrite Ec. intros Hin; inversion Hin.
Qed.
End go.
