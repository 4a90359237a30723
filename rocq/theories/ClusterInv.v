(** The invariant of a store with several partitions. *)
From Coq Require Import ZifyBool ZifyNat ZifyN.
From stdpp Require Import base numbers option gmap sets functions list.
From Verif Require Import Util PageIOModel PageIOSpec BuddyModel TuplesModel DirectModel DirectBase DirectSteps DirectInv DirectTup DirectAlloc DirectSpec DirectSeqSpec DirectRel DirectSys DirectSeq ClusterModel ClusterSpec ClusterSim.
Open Scope N_scope.
Ltac Zify.zify_post_hook ::= idtac.

Lemma used_pstep c o h p h' p' v : pstepR c o h p h' p' v -> h_used h ⊆ h_used h'.
Proof. destruct 1; cbn; try reflexivity; set_solver. Qed.
Lemma used_mono c y l y' : dstep c y l y' -> h_used (y_sh y) ⊆ h_used (y_sh y').
Proof.
  destruct 1 as [|y i p o h' p' v Hi ? ? ? Hs| |]; cbn [y_sh set_dev set_tup h_used]; try reflexivity.
  apply pstep_R in Hs. eapply used_pstep, Hs.
Qed.
Lemma good_call c y z lk zz op : valid_op (dc_lpage c) op -> Good c y z lk zz ->
  Good c {| y_sh := y_sh y; y_procs := y_procs y ++ [PStart op] |} {| z_state := z_state z; z_procs := z_procs z ++ [SCall op] |} lk zz /\
  length (y_procs y) = length (z_procs z).
Proof.
  intros Hv [(qs & sp & Hp1 & Hp2 & HS & HT & HA & HR)]. split; [|rewrite Hp1, Hp2, !fmap_length; reflexivity].
  constructor. exists (qs ++ [(PStart op, SCall op)]), sp. cbn [y_procs y_sh z_state z_procs].
  assert (Hpm : PStart op :: y_procs y ≡ₚ y_procs y ++ [PStart op]) by apply Permutation_cons_append.
  split; [rewrite fmap_app, <- Hp1; reflexivity|]. split; [now rewrite fmap_app, Hp2|].
  split; [eapply SInv_perm; [exact Hpm|now apply S_new]|].
  split; [eapply TInv_perm; [exact Hpm|now apply T_new]|].
  split; [eapply AInv_perm; [exact Hpm|now apply A_new]|].
  eapply Rel_perm; [apply Permutation_cons_append|]. now apply Rel_new.
Qed.
Lemma good_used c y z lk zz id : Good c y z lk zz -> id ∈ ss_ids (z_state z) -> id ∈ h_used (y_sh y).
Proof. intros [(qs & sp & _ & _ & _ & _ & _ & HR)] H. now apply (rl_ids _ _ _ _ HR). Qed.

(** Calls mention no tokens but their own. *)
Lemma mentions_step lpage S all s S' s' v tok : sstep lpage S all s S' s' v -> mentions s' tok -> mentions s tok.
Proof. destruct 1; cbn; auto; try contradiction; intros ->; reflexivity. Qed.
Lemma mentions_steps lpage z ls z' tok : spec_steps lpage z ls z' -> (forall i op, LCall i op ∉ ls) ->
  forall s', s' ∈ z_procs z' -> mentions s' tok -> exists s, s ∈ z_procs z /\ mentions s tok.
Proof.
  induction 1 as [z|z ls z1 l z2 St IH S1]; intros Hnc s' Hs Hm; [eauto|].
  assert (Hn : forall i op, LCall i op ∉ ls) by (intros i op Hin; apply (Hnc i op), elem_of_app; now left).
  destruct S1 as [z1 op|z1 i s S2 s2 v Hi Ss]; [contradiction (Hnc (length (z_procs z1)) op); apply elem_of_app; right; constructor|].
  cbn [z_procs] in Hs. apply elem_of_list_lookup in Hs as [i' Hi']. destruct (decide (i' = i)) as [->|Hne].
  - rewrite list_lookup_insert in Hi' by (eapply lookup_lt_Some, Hi). injection Hi' as <-.
    apply (IH Hn s); [eapply elem_of_list_lookup_2, Hi|eapply mentions_step; eassumption].
  - rewrite list_lookup_insert_ne in Hi' by congruence. apply (IH Hn s'); [eapply elem_of_list_lookup_2, Hi'|exact Hm].
Qed.
Lemma visible_no_call ls l : visible ls = visible [l] -> (forall i op, l <> LCall i op) -> forall i op, LCall i op ∉ ls.
Proof.
  intros H Hl i op Hin. assert (Hv : LCall i op ∈ visible ls).
  { unfold visible. apply elem_of_list_In, filter_In. split; [now apply elem_of_list_In|reflexivity]. }
  rewrite H in Hv. destruct l; cbn in Hv.
  - apply elem_of_list_singleton in Hv. congruence.
  - apply elem_of_list_singleton in Hv. congruence.
  - apply elem_of_nil in Hv. contradiction.
Qed.

(** Ids drawn by partition [p]. *)
Definition owns (k : csys) (p : nat) (id : N) : Prop := exists y, k_parts k !! p = Some y /\ id ∈ h_used (y_sh y).
Record CInv (cc : ccfg) (k : csys) (zs : list ssys) (z : ssys) : Prop := {
  ci_len : length (k_parts k) = length (cc_parts cc) /\ length zs = length (cc_parts cc);
  ci_good : forall p c y zp, cc_parts cc !! p = Some c -> k_parts k !! p = Some y -> zs !! p = Some zp -> exists lk zz, Good c y zp lk zz;
  ci_excl : forall p q id, owns k p id -> owns k q id -> p = q;
  ci_mz : MZ (partition_of cc) (owns k) zs (k_calls k) z;
  ci_seen : forall p zp s tok, zs !! p = Some zp -> s ∈ z_procs zp -> mentions s tok -> tok ∈ k_seen k;
}.

Lemma MZ_own route (Own Own' : nat -> N -> Prop) zs K z : MZ route Own zs K z ->
  (forall p id, Own p id -> Own' p id) ->
  (forall p zp s tok q, zs !! p = Some zp -> s ∈ z_procs zp -> mentions s tok -> Own' q tok -> Own q tok) ->
  MZ route Own' zs K z.
Proof.
  intros [[M1 M2 M3 M4 M5 M6] Z2 Z3 Z4 Z5 Z6] H1 H2. constructor; auto; [constructor; eauto|].
  intros p zp s Hp Hs. destruct (Z2 p zp s Hp Hs) as [H3 H4]. split; [|exact H4]. intros tok Hm q Hq. apply H3 with (tok := tok); eauto.
Qed.

Lemma cstep_inv cc lpage k l k' zs z : cluster_ok cc lpage -> (forall i op, l = LCall i op -> valid_op lpage op) ->
  CInv cc k zs z -> cstep cc k l k' ->
  exists ls zs' z', spec_steps lpage z ls z' /\ visible ls = visible [l] /\ CInv cc k' zs' z'.
Proof.
  intros Hok Hv [[Hl1 Hl2] Hg He HM Hsn] St. destruct St as [k op p y c i y' Hgo Hp Hc Hd|k p y c l y' l' Hp Hc Hd Hfr Hl].
  - (* a call *)
    destruct (ko_parts _ _ Hok _ _ Hc) as [Hcfg Hlp]. inversion Hd as [y0 op0 E1 E2 E3| | |]; subst.
    2:{ destruct v; discriminate. }
    destruct (lookup_lt_is_Some_2 zs p) as [zp Hz]; [rewrite Hl2; eapply lookup_lt_Some, Hc|].
    destruct (Hg _ _ _ _ Hc Hp Hz) as (lk & zz & HG).
    destruct (good_call c y zp lk zz op) as [HG' Hlen]; [exact (Hv _ _ eq_refl)|exact HG|].
    set (y' := {| y_sh := y_sh y; y_procs := y_procs y ++ [PStart op] |}) in *.
    set (zp' := {| z_state := z_state zp; z_procs := z_procs zp ++ [SCall op] |}) in *.
    pose proof (lookup_lt_Some _ _ _ Hp) as Hpl. pose proof (lookup_lt_Some _ _ _ Hz) as Hzl.
    assert (Hown : forall q id, owns {| k_parts := <[p := y']> (k_parts k); k_calls := k_calls k ++ [(p, length (y_procs y))]; k_seen := seen_after k op |} q id <-> owns k q id).
    { intros q id. unfold owns. cbn [k_parts]. destruct (decide (q = p)) as [->|Hne].
      - rewrite list_lookup_insert by exact Hpl. split; intros (x & E & Hin); [injection E as <-; eauto|].
        assert (x = y) as -> by congruence. exists y'. auto.
      - rewrite list_lookup_insert_ne by congruence. reflexivity. }
    exists ([] ++ [LCall (length (z_procs z)) op]), (<[p := zp']> zs), {| z_state := z_state z; z_procs := z_procs z ++ [SCall op] |}.
    split; [econstructor; [constructor|constructor]|].
    split; [cbn; rewrite (mz_len _ _ _ _ _ HM); reflexivity|]. constructor.
    + cbn [k_parts]. rewrite !insert_length. auto.
    + intros q c' yq zq Hc' Hyq Hzq. cbn [k_parts] in Hyq. destruct (decide (q = p)) as [->|Hne].
      * rewrite list_lookup_insert in Hyq by assumption. rewrite list_lookup_insert in Hzq by assumption. injection Hyq as <-. injection Hzq as <-. assert (c' = c) as -> by congruence. eauto.
      * rewrite list_lookup_insert_ne in Hyq by congruence. rewrite list_lookup_insert_ne in Hzq by congruence. eauto.
    + intros q q' id. rewrite !Hown. apply He.
    + eapply (MZ_own _ (owns k)); [|intros q id; now rewrite Hown|intros q zq s tok q' _ _ _; now rewrite Hown].
      cbn [k_calls]. destruct HM as [Z1 Z2 Z3 Z4 Z5 Z6]. constructor; cbn [z_state z_procs].
      * rewrite list_fmap_insert. cbn [zp' z_state]. rewrite list_insert_id; [exact Z1|]. now rewrite list_lookup_fmap, Hz.
      * intros q zq s Hq Hs. destruct (decide (q = p)) as [->|Hne].
        -- rewrite list_lookup_insert in Hq by assumption. injection Hq as <-. cbn [zp' z_procs] in Hs.
           apply elem_of_app in Hs as [Hs|Hs]; [eapply Z2; eassumption|]. apply elem_of_list_singleton in Hs as ->.
           unfold goes_to in Hgo. split.
           ++ intros tok Hm q Hq. cbn in Hm. destruct Hq as (yq & Hyq & Hin). rewrite Hm in Hgo.
              destruct op; cbn in Hm, Hgo; try discriminate; eapply Hgo; eassumption.
           ++ intros key Hm. cbn in Hm. rewrite Hm in Hgo. congruence.
        -- rewrite list_lookup_insert_ne in Hq by congruence. eapply Z2; eassumption.
      * rewrite !app_length. cbn. lia.
      * intros j q i Hj. apply lookup_app_Some in Hj as [Hj|[Hj1 Hj2]].
        -- destruct (Z4 _ _ _ Hj) as (zq & Hq & E). assert (Hjl : (j < length (z_procs z))%nat) by (rewrite <- Z3; eapply lookup_lt_Some, Hj).
           rewrite lookup_app_l by exact Hjl. destruct (decide (q = p)) as [->|Hne].
           ++ exists zp'. split; [now apply list_lookup_insert|]. assert (zq = zp) as -> by congruence. cbn [zp' z_procs].
              rewrite lookup_app_l; [exact E|]. destruct (lookup_lt_is_Some_2 _ _ Hjl) as [s Hs]. rewrite Hs in E. eapply lookup_lt_Some, E.
           ++ exists zq. rewrite list_lookup_insert_ne by congruence. auto.
        -- destruct (j - length (k_calls k))%nat as [|n] eqn:Ej; [|discriminate]. injection Hj2 as <- <-.
           assert (j = length (z_procs z)) as -> by lia. exists zp'. split; [now apply list_lookup_insert|]. cbn [zp' z_procs].
           rewrite Hlen, !lookup_app_r by lia. now rewrite !Nat.sub_diag.
      * intros q zq i s Hq Hs. destruct (decide (q = p)) as [->|Hne].
        -- rewrite list_lookup_insert in Hq by assumption. injection Hq as <-. cbn [zp' z_procs] in Hs.
           apply lookup_app_Some in Hs as [Hs|[Hs1 Hs2]].
           ++ destruct (Z5 _ _ _ _ Hz Hs) as [j Hj]. exists j. now apply lookup_app_l_Some.
           ++ destruct (i - length (z_procs zp))%nat as [|n] eqn:Ej; [|discriminate]. exists (length (k_calls k)).
              rewrite lookup_app_r by lia. rewrite Nat.sub_diag. cbn. repeat f_equal. lia.
        -- rewrite list_lookup_insert_ne in Hq by congruence. destruct (Z5 _ _ _ _ Hq Hs) as [j Hj]. exists j. now apply lookup_app_l_Some.
      * assert (Hold : forall j x, k_calls k !! j = Some x -> x <> (p, length (y_procs y))).
        { intros j [q i] Hj E. injection E as -> ->. destruct (Z4 _ _ _ Hj) as (zq & Hq & E). assert (zq = zp) as -> by congruence.
          destruct (lookup_lt_is_Some_2 (z_procs z) j) as [s Hs]; [rewrite <- Z3; eapply lookup_lt_Some, Hj|]. rewrite Hs in E.
          apply lookup_lt_Some in E. lia. }
        intros j j' x Hj Hj'. apply lookup_app_Some in Hj as [Hj|[Hj1 Hj2]], Hj' as [Hj'|[Hj1' Hj2']].
        -- eapply Z6; eassumption.
        -- destruct (j' - length (k_calls k))%nat; [|discriminate]. injection Hj2' as <-. now apply Hold in Hj.
        -- destruct (j - length (k_calls k))%nat; [|discriminate]. injection Hj2 as <-. now apply Hold in Hj'.
        -- apply lookup_lt_Some in Hj2, Hj2'. cbn in *. lia.
    + intros q zq s tok Hq Hs Hm. cbn [k_seen]. unfold seen_after. destruct (decide (q = p)) as [->|Hne].
      * rewrite list_lookup_insert in Hq by assumption. injection Hq as <-. cbn [zp' z_procs] in Hs.
        apply elem_of_app in Hs as [Hs|Hs].
        -- pose proof (Hsn _ _ _ _ Hz Hs Hm). destruct (op_token op); set_solver.
        -- apply elem_of_list_singleton in Hs as ->. cbn in Hm. rewrite Hm. set_solver.
      * rewrite list_lookup_insert_ne in Hq by congruence. pose proof (Hsn _ _ _ _ Hq Hs Hm). destruct (op_token op); set_solver.
  - (* a step of a partition *)
    destruct (ko_parts _ _ Hok _ _ Hc) as [Hcfg Hlp].
    destruct (lookup_lt_is_Some_2 zs p) as [zp Hz]; [rewrite Hl2; eapply lookup_lt_Some, Hc|].
    destruct (Hg _ _ _ _ Hc Hp Hz) as (lk & zz & HG).
    assert (Hnc : forall i op, l <> LCall i op) by (intros i op ->; exact Hl).
    destruct (good_step c y l y' zp lk zz Hcfg) as (ls & zp' & lk' & zz' & Hs & Hvis & HG' & _); [destruct l; [contradiction|exact I|exact I]|exact HG|exact Hd|].
    pose proof (lookup_lt_Some _ _ _ Hp) as Hpl. pose proof (lookup_lt_Some _ _ _ Hz) as Hzl.
    pose proof (used_mono _ _ _ _ Hd) as Hum.
    set (k' := {| k_parts := <[p := y']> (k_parts k); k_calls := k_calls k; k_seen := k_seen k |}).
    assert (Hown1 : forall q id, owns k q id -> owns k' q id).
    { intros q id (yq & Hq & Hin). destruct (decide (q = p)) as [->|Hne].
      - exists y'. cbn [k' k_parts]. split; [now apply list_lookup_insert|]. assert (yq = y) as -> by congruence. now apply Hum.
      - exists yq. cbn [k' k_parts]. rewrite list_lookup_insert_ne by congruence. auto. }
    assert (Hown2 : forall q id, owns k' q id -> owns k q id \/ (q = p /\ id ∉ k_seen k /\ forall q', ~ owns k q' id)).
    { intros q id (yq & Hq & Hin). cbn [k' k_parts] in Hq. destruct (decide (q = p)) as [->|Hne].
      - rewrite list_lookup_insert in Hq by exact Hpl. injection Hq as <-.
        destruct (decide (id ∈ h_used (y_sh y))) as [Ho|Hn]; [left; exists y; auto|]. right. split; [reflexivity|].
        destruct (Hfr id Hin Hn) as [H1 H2]. split; [exact H1|]. intros q' (yq' & Hq' & Hin'). eapply H2; eassumption.
      - rewrite list_lookup_insert_ne in Hq by congruence. left. exists yq. auto. }
    assert (He' : forall q q' id, owns k' q id -> owns k' q' id -> q = q').
    { intros q q' id Hq Hq'. destruct (Hown2 _ _ Hq) as [H1|(-> & _ & H1)], (Hown2 _ _ Hq') as [H2|(-> & _ & H2)].
      - eapply He; eassumption.
      - now apply H2 in H1.
      - now apply H1 in H2.
      - reflexivity. }
    assert (HM' : MZ (partition_of cc) (owns k') zs (k_calls k) z).
    { eapply MZ_own; [exact HM|exact Hown1|]. intros q zq s tok q' Hq Hin Hm Ho. destruct (Hown2 _ _ Ho) as [H1|(_ & H1 & _)]; [exact H1|].
      contradiction H1. eapply Hsn; eassumption. }
    assert (Hncs : forall i op, LCall i op ∉ ls) by (eapply visible_no_call; eassumption).
    rewrite Hlp in Hs.
    destruct (lift_steps _ _ He' lpage zs (k_calls k) z p zp ls zp' HM' Hz Hncs Hs) as (ls' & z' & H1 & H2 & H3).
    { intros id Hid. exists y'. cbn [k' k_parts]. split; [now apply list_lookup_insert|]. eapply good_used; eassumption. }
    exists ls', (<[p := zp']> zs), z'. split; [exact H1|]. split.
    { apply relabel_visible in H3. rewrite Hvis in H3. destruct l as [i op|i v|]; [contradiction| |].
      - destruct Hl as (j & Hj & ->). cbn in H3. destruct (visible ls') as [|[| |] [|]]; try contradiction H3.
        + destruct H3 as (Hj' & -> & _). cbn. repeat f_equal. eapply (mz_inj _ _ _ _ _ HM); eassumption.
        + destruct H3 as (_ & _ & []).
      - subst l'. cbn in H3. destruct (visible ls') as [|[]]; try contradiction H3. reflexivity. }
    constructor.
    + cbn [k' k_parts]. rewrite !insert_length. auto.
    + intros q c' yq zq Hc' Hyq Hzq. cbn [k' k_parts] in Hyq. destruct (decide (q = p)) as [->|Hne].
      * rewrite list_lookup_insert in Hyq by assumption. rewrite list_lookup_insert in Hzq by assumption. injection Hyq as <-. injection Hzq as <-. assert (c' = c) as -> by congruence. eauto.
      * rewrite list_lookup_insert_ne in Hyq by congruence. rewrite list_lookup_insert_ne in Hzq by congruence. eauto.
    + exact He'.
    + exact H2.
    + intros q zq s tok Hq Hin Hm. cbn [k' k_seen]. destruct (decide (q = p)) as [->|Hne].
      * rewrite list_lookup_insert in Hq by assumption. injection Hq as <-.
        destruct (mentions_steps _ _ _ _ _ Hs Hncs _ Hin Hm) as (s0 & Hs0 & Hm0). eapply Hsn; eassumption.
      * rewrite list_lookup_insert_ne in Hq by congruence. eapply Hsn; eassumption.
Qed.

Definition zempty : ssys := {| z_state := ss_empty; z_procs := [] |}.
Lemma fresh_inv cc lpage k : cluster_ok cc lpage -> fresh_cluster cc k -> CInv cc k (replicate (length (cc_parts cc)) zempty) zempty.
Proof.
  intros Hok [F1 F2 F3 F4].
  assert (Hz : forall p zp, replicate (length (cc_parts cc)) zempty !! p = Some zp -> zp = zempty).
  { intros p zp H. now apply lookup_replicate in H as [-> _]. }
  assert (Hno : forall p id, ~ owns k p id).
  { intros p id (y & Hy & Hin). destruct (lookup_lt_is_Some_2 (cc_parts cc) p) as [c Hc]; [rewrite <- F1; eapply lookup_lt_Some, Hy|].
    destruct (F2 _ _ _ Hc Hy) as [pages Hf]. rewrite (fp_used _ _ _ Hf) in Hin. set_solver. }
  assert (Hst : forall p Sp, (z_state <$> replicate (length (cc_parts cc)) zempty) !! p = Some Sp -> Sp = ss_empty).
  { intros p Sp H. rewrite list_lookup_fmap in H. destruct (_ !! p) as [zp|] eqn:E; [|discriminate]. injection H as <-. now rewrite (Hz _ _ E). }
  constructor.
  - rewrite replicate_length. auto.
  - intros p c y zp Hc Hy Hp. rewrite (Hz _ _ Hp). destruct (F2 _ _ _ Hc Hy) as [pages Hf]. exists [], false.
    eapply fresh_good; [|exact Hf]. apply (ko_parts _ _ Hok _ _ Hc).
  - intros p q id H. now apply Hno in H.
  - rewrite F3. constructor.
    + constructor; cbn [zempty z_state ss_empty ss_up ss_com ss_ids].
      * intros tok u. rewrite lookup_empty. split; [discriminate|]. intros (p & Sp & Hp & E). rewrite (Hst _ _ Hp) in E. cbn in E. now rewrite lookup_empty in E.
      * intros tok u. rewrite lookup_empty. split; [discriminate|]. intros (p & Sp & Hp & E). rewrite (Hst _ _ Hp) in E. cbn in E. now rewrite lookup_empty in E.
      * intros id. split; [set_solver|]. intros (p & Sp & Hp & E). rewrite (Hst _ _ Hp) in E. cbn in E. set_solver.
      * intros p Sp id Hp E. rewrite (Hst _ _ Hp) in E. cbn in E. set_solver.
      * intros p Sp tok u Hp E. rewrite (Hst _ _ Hp) in E. cbn in E. now rewrite lookup_empty in E.
      * intros p Sp tok u Hp E. rewrite (Hst _ _ Hp) in E. cbn in E. now rewrite lookup_empty in E.
    + intros p zp s Hp Hs. rewrite (Hz _ _ Hp) in Hs. cbn in Hs. now apply elem_of_nil in Hs.
    + reflexivity.
    + intros j p i H. discriminate.
    + intros p zp i s Hp Hs. rewrite (Hz _ _ Hp) in Hs. discriminate.
    + intros j j' x H. discriminate.
  - intros p zp s tok Hp Hs. rewrite (Hz _ _ Hp) in Hs. cbn in Hs. now apply elem_of_nil in Hs.
Qed.
Lemma csteps_inv cc lpage k0 ls k : cluster_ok cc lpage -> fresh_cluster cc k0 -> valid_calls lpage ls -> csteps cc k0 ls k ->
  exists ls' zs z, spec_steps lpage zempty ls' z /\ visible ls' = visible ls /\ CInv cc k zs z.
Proof.
  intros Hok Hf Hv Hs. induction Hs as [k0|k0 ls k1 l k2 Hs IH St].
  - exists [], (replicate (length (cc_parts cc)) zempty), zempty. split; [constructor|]. split; [reflexivity|]. eapply fresh_inv; eassumption.
  - destruct IH as (ls1 & zs1 & z1 & H1 & H2 & H3); [exact Hf|intros i op Hin; apply (Hv i), elem_of_app; now left|].
    destruct (cstep_inv cc lpage k1 l k2 zs1 z1 Hok) as (ls2 & zs2 & z2 & H4 & H5 & H6).
    { intros i op ->. apply (Hv i), elem_of_app. right. constructor. }
    { exact H3. }
    { exact St. }
    exists (ls1 ++ ls2), zs2, z2. split; [eapply spec_app; eassumption|]. split; [rewrite !visible_app; now rewrite H2, H5|exact H6].
Qed.
