(** The commit: writing moved values and index pages. *)
From Coq Require Import ZifyBool ZifyNat ZifyN.
From stdpp Require Import base numbers list_numbers option gmap sets fin_maps list.
From Verif Require Import Util Bytes PageIOModel PageIOProofs PageIOWrite BuddyModel KvAllocModel KvAllocSpec KvAllocProofs KvAllocInv
  KvCodecModel KvCodecSpec KvCodecProofs KvReadModel PropertiesKvRead KvLogModel KvLogSpec KvLogProofs KvLogSys KvLogInv KvStoreModel KvStoreSpec KvStoreInv KvStoreFrame KvStoreSteps KvStoreCommit KvStoreGroup.
Open Scope N_scope.
Ltac Zify.zify_post_hook ::= idtac.

Section go.
Context {NL : Prop} (c : kconf) (y : kstate).
Hypothesis Hc : good_kconf c.
Hypothesis H : SI (NL:=NL) c y.

Lemma writes_kept d t0 : keeps c y d t0 -> (forall i, t0 <> Some (OWr i)) -> Forall (kw_ok c d) (ks_writes y).
Proof using H.
  intros Hk Ht. apply Forall_lookup. intros j w Ej. destruct (wr_ok c y H j w Ej) as (W1 & W2 & W3 & W4 & W5 & W6).
  split; [exact W1|]. split; [exact W2|]. split; [exact W3|]. split; [exact W4|]. split; [exact W5|]. intros Hdn.
  apply (Hk (OWr j) (kw_off w, N.of_nat (length (kw_val w))) (kw_val w)); [intros E; eapply Ht; symmetry; exact E|apply wr_owner; exact Ej|apply W6; exact Hdn].
Qed.

Lemma si_move hw ents off buf d hw' : ks_commit y = Some (CHeap hw ents) -> (off, buf) ∈ hw ->
  (forall x, ~ (off <= x < off + N.of_nat (length buf)) -> d x = ks_dev y x) ->
  (forall x, x ∈ hw' -> x ∈ hw) -> (forall o b, (o, b) ∈ hw -> (o, b) ∈ hw' \/ o = off) ->
  ((forall b, (off, b) ∉ hw') -> d = dev_write (ks_dev y) off buf) ->
  SI (NL:=NL) c (ks_go y (ks_log y) d (ks_alloc y) (Some (CHeap hw' ents)) (ks_lost y)).
Proof using Hc H.
  intros Ec Hin Hd Hsub Hsup Hdone. pose proof (s_b _ _ H) as HB. pose proof (b_stage _ _ HB) as Hst. unfold stage_ok in Hst. rewrite Ec in Hst.
  destruct Hst as (H1 & m & Em & Hm & Hok & Hhw). destruct (Hhw off buf Hin) as (k0 & i & junk & Ek0 & Ebuf & El0 & Hlen).
  set (y' := ks_go _ _ _ _ _ _). assert (ow c y (OCom k0) = Some (off, N.of_nat (length i))) as Eow by (cbn [ow]; unfold pcom; rewrite Ec, El0; reflexivity).
  assert (forall x, ~ extent_bytes (kc_spage c) (off, N.of_nat (length i)) x -> d x = ks_dev y x) as Hd'.
  { intros x Hx. apply Hd. rewrite Hlen. rewrite ext_bytes_ceil in Hx. exact Hx. }
  pose proof (keeps_within c y Hc H d (OCom k0) _ Eow Hd') as Hk. pose proof (pages_within c y Hc H d (OCom k0) _ Eow Hd') as Hp.
  assert (ready_of y = [] /\ ready_of y' = []) as [Er Er'] by (unfold ready_of; rewrite Ec; auto).
  assert (forall k, dpg c y' k = dpg c y k) as Edpg.
  { intros k. unfold dpg. destruct (kc_index c k) as [idx|] eqn:Ei; [|reflexivity]. cbn [mbind option_bind y' ks_go ks_dev]. rewrite Hp by (eapply index_bound; eassumption). reflexivity. }
  assert (forall k, eff c y' k = eff c y k) as Eeff by (intros k; rewrite !eff_nil by assumption; apply Edpg).
  assert (forall k, pcom c y' k = pcom c y k) as Epc by (intros k; unfold pcom; rewrite Ec; reflexivity).
  assert (forall k e, pth c y' k e <-> pth c y k e) as Epth by (intros k e; unfold pth; rewrite Edpg, Eeff, Epc; reflexivity).
  assert (forall k, cur c y' k = cur c y k) as Ecur by (intros k; unfold cur; rewrite Epc, Eeff; reflexivity).
  destruct (s_own _ _ H) as (live & total & HK & Ho).
  constructor.
  - apply (go_BI c y H _ _ _ _ _ (Some (OCom k0))); try reflexivity; try discriminate; try apply HB; try (intros; apply Eeff); try exact Hk.
    + unfold stage_ok. cbn [ks_go ks_commit ks_com ks_log ks_dev]. split; [exact H1|]. exists m. split; [exact Em|]. split; [exact Hm|]. split; [exact Hok|].
      intros o b Hb. apply Hhw, Hsub, Hb.
    + intros idx Hi. rewrite (Hp idx Hi). apply HB, Hi.
  - intros m' k e s o Em' Ek Ec' Hhw'. cbn [y' ks_go ks_com] in Em'. rewrite Em in Em'. injection Em' as <-. rewrite Ecur in Ec'.
    destruct (cur_owner c y k s o Ec') as (t & Et & Ht). cbn [hw_of y' ks_go ks_commit] in Hhw'. destruct (decide (o = off)) as [->|Hne].
    + pose proof (live_same_off c Hc _ _ _ _ _ _ HK (proj1 Ho _ _ Et) (proj1 Ho _ _ Eow)) as ->. pose proof (own_inj _ _ Ho _ _ _ Et Eow) as ->.
      destruct Ht as [E|[E _]]; [|discriminate E]. injection E as <-. rewrite Ek0 in Ek. injection Ek as <-.
      destruct (com_facts c y H m k0 _ Em Ek0) as (h0 & n & t & raw & v & _ & _ & _ & Ee & _ & Htv & Elat & _).
      destruct t as [k' d'|k']; [|discriminate Ee]. cbn in Ee. injection Ee as ->. destruct Htv as (_ & _ & Hi). destruct v as [v|]; [|contradiction]. destruct Hi as (-> & _).
      exists v. split; [exact Elat|]. cbn [y' ks_go ks_dev]. rewrite (Hdone Hhw'), Ebuf. apply write_denotes.
    + destruct (s_vcom _ _ H m k e s o Em Ek Ec') as (v & Ev & Hv).
      { intros b Hb. unfold hw_of in Hb. rewrite Ec in Hb. destruct (Hsup _ _ Hb) as [Hb'|Hb']; [apply (Hhw' b Hb')|congruence]. }
      exists v. split; [exact Ev|]. apply (Hk t (o, s) v); [|exact Et|exact Hv]. intros E. injection E as ->. rewrite Eow in Et. congruence.
  - exists live, total. split; [exact HK|]. eapply owned_ext; [exact Ho|]. intros [k|k|n|j]; cbn [ow]; [rewrite Eeff|rewrite Epc| |]; reflexivity.
  - intros k e He. apply Epth in He. eapply (s_placed _ _ H); exact He.
  - intros k k' e e' Hkk He He'. apply Epth in He, He'. eapply (s_disj _ _ H); eassumption.
  - eapply writes_kept; [exact Hk|discriminate].
Qed.
Lemma si_move_torn hw ents i off buf v : ks_commit y = Some (CHeap hw ents) -> hw !! i = Some (off, buf) ->
  SI (NL:=NL) c (ks_go y (ks_log y) (torn (ks_dev y) off buf v) (ks_alloc y) (ks_commit y) (ks_lost y)).
Proof using Hc H.
  intros Ec Ei. rewrite Ec. apply elem_of_list_lookup_2 in Ei. apply (si_move hw ents off buf); auto.
  - intros x Hx. apply torn_out, Hx.
  - intros Hno. exfalso. eapply Hno; exact Ei.
Qed.
Lemma si_move_done hw ents i off buf d : ks_commit y = Some (CHeap hw ents) -> hw !! i = Some (off, buf) -> od_write (kc_spage c) (ks_dev y) off buf = Some d ->
  SI (NL:=NL) c (ks_go y (ks_log y) d (ks_alloc y) (Some (CHeap (delete i hw) ents)) (ks_lost y)).
Proof using Hc H.
  intros Ec Ei Ed. apply od_write_Some in Ed. subst d. apply (si_move hw ents off buf); auto.
  - eapply elem_of_list_lookup_2; exact Ei.
  - intros x Hx. apply dev_write_out. lia.
  - intros x Hx. apply elem_of_list_lookup in Hx as [j Hj]. destruct (decide (j < i)%nat); [rewrite lookup_delete_lt in Hj by assumption|rewrite lookup_delete_ge in Hj by lia];
      eapply elem_of_list_lookup_2; exact Hj.
  - intros o b Hb. pose proof (delete_Permutation hw i _ Ei) as Hp. rewrite Hp in Hb. apply elem_of_cons in Hb as [E|Hb]; [injection E as -> ->; right; reflexivity|left; exact Hb].
Qed.

Lemma si_pages ents idxs : ks_commit y = Some (CHeap [] ents) -> mapM (fun e => kc_index c (fst e)) ents = Some idxs ->
  SI (NL:=NL) c (ks_go y (ks_log y) (ks_dev y) (ks_alloc y) (Some (CPages ents (remove_dups idxs) [])) (ks_lost y)).
Proof using Hc H.
  intros Ec Emap. pose proof (s_b _ _ H) as HB. pose proof (b_stage _ _ HB) as Hst. unfold stage_ok in Hst. rewrite Ec in Hst.
  destruct Hst as (H1 & m & Em & Hm & Hok & _). set (y' := ks_go _ _ _ _ _ _).
  apply mapM_Some in Emap.
  assert (forall k e, elook ents k = Some e -> exists idx, kc_index c k = Some idx /\ idx ∈ remove_dups idxs) as Hidx.
  { intros k e El. apply elook_elem in El; [|apply Hok]. apply elem_of_list_lookup in El as [j Ej]. destruct (Forall2_lookup_l _ _ _ _ _ Emap Ej) as (idx & Ei & E).
    exists idx. split; [exact E|]. apply elem_of_remove_dups. eapply elem_of_list_lookup_2; exact Ei. }
  assert (ready_of y = [] /\ ready_of y' = []) as [Er Er'] by (unfold ready_of; rewrite Ec; auto).
  assert (forall k, eff c y' k = eff c y k) as Eeff by (intros k; rewrite !eff_nil by assumption; reflexivity).
  assert (forall k, pcom c y' k = pcom c y k) as Epc.
  { intros k. unfold pcom. rewrite Ec. cbn [y' ks_go ks_commit]. destruct (elook ents k) as [e|] eqn:El.
    - destruct (Hidx k e El) as (idx & -> & Hi). cbn [mbind option_bind]. rewrite bool_decide_true by exact Hi. reflexivity.
    - destruct (kc_index c k); [|reflexivity]. cbn [mbind option_bind]. destruct (bool_decide _); reflexivity. }
  assert (forall k e, pth c y' k e <-> pth c y k e) as Epth by (intros k e; unfold pth; rewrite Eeff, Epc; reflexivity).
  assert (forall k, cur c y' k = cur c y k) as Ecur by (intros k; unfold cur; rewrite Epc, Eeff; reflexivity).
  constructor.
  - apply (go_BI c y H _ _ _ _ _ None); try reflexivity; try discriminate; try apply HB; try (intros; apply Eeff); try apply keeps_refl.
    unfold stage_ok. cbn [ks_go ks_commit ks_com ks_log ks_dev]. split; [exact H1|]. exists m. split; [exact Em|]. split; [exact Hm|]. split; [exact Hok|].
    split; [constructor|]. split.
    + apply Forall_forall. intros idx Hi. rewrite elem_of_remove_dups, elem_of_list_lookup in Hi. destruct Hi as [j Hj]. destruct (Forall2_lookup_r _ _ _ _ _ Emap Hj) as (x & _ & E). eapply index_bound; eassumption.
    + split; [|intros idx page Hin; inversion Hin]. intros k e idx El Ei Hni. destruct (Hidx k e El) as (idx' & Ei' & Hi). rewrite Ei in Ei'. injection Ei' as <-. contradiction.
  - intros m' k e s o Em' Ek Ec' Hhw'. rewrite Ecur in Ec'. apply (s_vcom _ _ H m' k e s o Em' Ek Ec'). unfold hw_of. rewrite Ec. intros b Hb. inversion Hb.
  - destruct (s_own _ _ H) as (live & total & HK & Ho). exists live, total. split; [exact HK|]. eapply owned_ext; [exact Ho|]. intros [k|k|n|j]; cbn [ow]; [rewrite Eeff|rewrite Epc| |]; reflexivity.
  - intros k e He. apply Epth in He. eapply (s_placed _ _ H); exact He.
  - intros k k' e e' Hkk He He'. apply Epth in He, He'. eapply (s_disj _ _ H); eassumption.
  - apply H.
Qed.

Lemma si_head ents junk log : ks_commit y = Some (CPages ents [] []) -> N.of_nat (length junk) = kc_psize c -> lstep (kc_log c) (ks_log y) (ECommitEnd junk) = Some log ->
  SI (NL:=NL) c (ks_go y log (ks_dev y) (ks_alloc y) (Some CHeaded) (ks_lost y)).
Proof using Hc H.
  intros Ec Hj E. pose proof (s_b _ _ H) as HB. pose proof (b_stage _ _ HB) as Hst. unfold stage_ok in Hst. rewrite Ec in Hst.
  destruct Hst as (H1 & m & Em & Hm & Hok & _ & _ & Hall & _). set (y' := ks_go _ _ _ _ _ _).
  pose proof (linv_step c y Hc H (ECommitEnd junk) log Hj E) as Hl. destruct (b_log _ _ HB) as [q Hq]. pose proof (i_ord _ _ _ Hq) as (Ho1 & _).
  cbn [lstep] in E. destruct H1 as [ct Ect]. rewrite Ect in E. cbn [mbind option_bind] in E. destruct (state_page _ _ _); [|discriminate E]. cbn [mbind option_bind] in E. injection E as E.
  assert (l_hist log = l_hist (ks_log y) /\ l_ncommit log = l_ncommit (ks_log y) /\ l_commit log = None /\ (l_ntail log - length (l_apply log) = l_ntail (ks_log y) - length (l_apply (ks_log y)))%nat) as (L1 & L3 & L4 & L5) by (subst log; auto).
  assert (ready_of y = [] /\ ready_of y' = []) as [Er Er'] by (unfold ready_of; rewrite Ec; auto).
  assert (forall k, eff c y' k = eff c y k) as Eeff by (intros k; rewrite !eff_nil by assumption; reflexivity).
  assert (forall k, pcom c y' k = pcom c y k) as Epc.
  { intros k. unfold pcom. rewrite Ec. cbn [y' ks_go ks_commit]. destruct (kc_index c k) as [i|]; reflexivity. }
  assert (forall k e, pth c y' k e <-> pth c y k e) as Epth by (intros k e; unfold pth; rewrite Eeff, Epc; reflexivity).
  assert (forall k, cur c y' k = cur c y k) as Ecur by (intros k; unfold cur; rewrite Epc, Eeff; reflexivity).
  constructor.
  - apply (go_BI c y H _ _ _ _ _ None); try reflexivity; try discriminate; try assumption; try (intros; apply Eeff); try apply keeps_refl; [|apply HB].
    unfold stage_ok. cbn [ks_go ks_commit ks_com ks_log ks_dev]. split; [exact L4|]. exists m, (l_nhead (ks_log y)). split; [exact Em|]. unfold hist in *. cbn [ks_go ks_log]. rewrite L1, L3.
    split; [exact Ho1|]. split; [exact Hm|]. intros k e Ek. fold y'. rewrite Eeff. destruct (com_index c y Hc H m k e Em Ek) as (idx & Ei & _).
    destruct (elook ents k) as [e'|] eqn:El; [|apply Hok in El; congruence]. rewrite (Hall k e' idx El Ei); [|intros Hx; inversion Hx]. eapply (proj2 Hok); eassumption.
  - intros m' k e s o Em' Ek Ec' Hhw'. rewrite Ecur in Ec'. assert (l_ncommit (ks_log y') = l_ncommit (ks_log y)) as -> by exact L3.
    apply (s_vcom _ _ H m' k e s o Em' Ek Ec'). unfold hw_of. rewrite Ec. intros b Hb. inversion Hb.
  - destruct (s_own _ _ H) as (live & total & HK & Ho). exists live, total. split; [exact HK|]. eapply owned_ext; [exact Ho|]. intros [k|k|n|j]; cbn [ow]; [rewrite Eeff|rewrite Epc| |]; try reflexivity.
    cbn [y' ks_go ks_log]. rewrite L1, L3. reflexivity.
  - intros k e He. apply Epth in He. eapply (s_placed _ _ H); exact He.
  - intros k k' e e' Hkk He He'. apply Epth in He, He'. eapply (s_disj _ _ H); eassumption.
  - apply H.
Qed.

Lemma si_done : ks_commit y = Some CHeaded ->
  SI (NL:=NL) c {| ks_log := ks_log y; ks_dev := ks_dev y; ks_alloc := ks_alloc y; ks_unc := ks_unc y; ks_com := None;
          ks_commit := None; ks_writes := ks_writes y; ks_vals := ks_vals y; ks_lost := ks_lost y; ks_old := ks_old y |}.
Proof using Hc H.
  intros Ec. pose proof (s_b _ _ H) as HB. pose proof (b_stage _ _ HB) as Hst. unfold stage_ok in Hst. rewrite Ec in Hst.
  destruct Hst as (H1 & m & h0 & Em & Hh0 & Hm & Hall). pose proof (lens c y H) as [_ [Hn1 Hn2]]. set (y' := Build_kstate _ _ _ _ _ _ _ _ _ _).
  assert (ready_of y = [] /\ ready_of y' = []) as [Er Er'] by (unfold ready_of; rewrite Ec; auto).
  assert (forall k, eff c y' k = eff c y k) as Eeff by (intros k; rewrite !eff_nil by assumption; reflexivity).
  assert (forall k, pcom c y' k = pcom c y k) as Epc by (intros k; unfold pcom; rewrite Ec; reflexivity).
  assert (forall k e, pth c y' k e <-> pth c y k e) as Epth by (intros k e; unfold pth; rewrite Eeff, Epc; reflexivity).
  constructor; [constructor; try apply HB| | | | |].
  - split; [reflexivity|exact H1].
  - intros k Eu _. change (applied y') with (applied y). change (upto c y' (applied y)) with (upto c y (applied y)). change (ks_dev y') with (ks_dev y). rewrite Eeff.
    change (ks_unc y') with (ks_unc y) in Eu. destruct (m !! k) as [e|] eqn:Ek.
    + pose proof Eu as Eu'. rewrite (b_unc _ _ HB) in Eu'. rewrite (mapfold_untouched c y (b_tv _ _ HB) _ _ _ ltac:(split; [exact Hn1|exact Hn2]) Eu').
      destruct (com_facts c y H m k e Em Ek) as (_ & n & t & raw & v & _ & _ & _ & Ee & _ & Htv & El & _). rewrite El. pose proof (Hall k e Ek) as Hmv.
      destruct (eff c y k) as [[i|s o]|] eqn:Eef.
      * destruct e as [[i'|s' o']|]; cbn in Hmv; [|discriminate Hmv|discriminate Hmv]. destruct (_ <? _); [destruct Hmv as [? ?]; discriminate|]. injection Hmv as <-.
        destruct t as [k' d'|k']; [|discriminate Ee]. cbn in Ee. injection Ee as ->. destruct Htv as (_ & _ & Hi). destruct v as [v|]; [|contradiction]. destruct Hi as (-> & _). reflexivity.
      * destruct (s_vcom _ _ H m k e s o Em Ek) as (v' & Ev' & Hd).
        -- unfold cur, pcom. rewrite Ec. exact Eef.
        -- intros b. unfold hw_of. rewrite Ec. intros Hx; inversion Hx.
        -- rewrite El in Ev'. rewrite Ev'. exact Hd.
      * destruct e as [[i'|s' o']|]; cbn in Hmv; [destruct (_ <? _); [destruct Hmv as [? ?]; discriminate|discriminate]|discriminate Hmv|].
        destruct t as [k' d'|k']; [discriminate Ee|]. destruct Htv as (_ & _ & Hi). destruct v as [v|]; [contradiction|exact I].
    + apply (b_vpage _ _ HB k Eu). rewrite Em. intros m' [= <-]. exact Ek.
  - intros m' k e s o Em'. discriminate Em'.
  - destruct (s_own _ _ H) as (live & total & HK & Ho). exists live, total. split; [exact HK|]. eapply owned_ext; [exact Ho|]. intros [k|k|n|j]; cbn [ow]; [rewrite Eeff|rewrite Epc| |]; reflexivity.
  - intros k e He. apply Epth in He. eapply (s_placed _ _ H); exact He.
  - intros k k' e e' Hkk He He'. apply Epth in He, He'. eapply (s_disj _ _ H); eassumption.
  - apply H.
Qed.
End go.
