(** Formatting, crashing and opening; every step keeps the invariant. *)
From Coq Require Import ZifyBool ZifyNat ZifyN.
From stdpp Require Import base numbers list_numbers option gmap sets fin_maps list.
From Verif Require Import Util Bytes PageIOModel PageIOProofs PageIOWrite BuddyModel KvAllocModel KvAllocSpec KvAllocProofs KvAllocInv
  KvCodecModel KvCodecSpec KvCodecProofs KvReadModel PropertiesKvRead KvLogModel KvLogSpec KvLogProofs KvLogSys KvLogInv KvStoreModel KvStoreSpec KvStoreInv KvStoreFrame KvStoreSteps KvStoreCommit KvStoreGroup KvStorePages KvStoreIndex.
Open Scope N_scope.
Ltac Zify.zify_post_hook ::= idtac.

Lemma new_ok c : good_kconf c -> exists a, kv_alloc_new (kc_base c) (kc_heap c) (kc_spage c) (kc_lpage c) = Ok a /\ KIc c a [] 0.
Proof.
  intros Hc. pose proof (good_spage c Hc) as ([Hsp1 Hsl] & H63 & _).
  assert (exists a, kv_alloc_new (kc_base c) (kc_heap c) (kc_spage c) (kc_lpage c) = Ok a) as [a E].
  { unfold kv_alloc_new. rewrite !mod_pow2_spec. rewrite (proj2 (gk_base _ Hc)), (gk_heap _ Hc). cbn [N.eqb negb]. eexists. reflexivity. }
  exists a. split; [exact E|]. eapply new_ki; [exact Hsl|exact E].
Qed.

Lemma mark_entries_spec c l : good_kconf c -> forall a live total, KIc c a live total -> NoDup (fst <$> l) ->
  (forall k s o, (k, DHeap s o) ∈ l -> placed c (o, s)) ->
  (forall k k' s o s' o', k <> k' -> (k, DHeap s o) ∈ l -> (k', DHeap s' o') ∈ l -> extents_disjoint (kc_spage c) (o, s) (o', s')) ->
  (forall k s o e, (k, DHeap s o) ∈ l -> e ∈ live -> extents_disjoint (kc_spage c) (o, s) e) ->
  exists a' live' total', mark_entries a l = Some a' /\ KIc c a' live' total' /\
    (forall e, e ∈ live' <-> e ∈ live \/ exists k, (k, DHeap (snd e) (fst e)) ∈ l).
Proof.
  intros Hc. pose proof (good_spage c Hc) as ([Hsp1 Hsl] & H63 & _). induction l as [|[k d] l IH]; intros a live total HK Hn Hp Hd Hdl.
  - exists a, live, total. split; [reflexivity|]. split; [exact HK|]. intros e. split; [auto|]. intros [He|[k He]]; [exact He|inversion He].
  - rewrite fmap_cons in Hn. apply NoDup_cons in Hn as [Hn1 Hn2]. cbn [fst] in Hn1. destruct d as [i|s o]; cbn [mark_entries].
    + destruct (IH a live total HK Hn2) as (a' & live' & total' & E & HK' & Hl).
      * intros k' s o Hin. eapply Hp. right. exact Hin.
      * intros k1 k2 s o s' o' Hne H1 H2. eapply Hd; [exact Hne|right; exact H1|right; exact H2].
      * intros k' s o e Hin. eapply Hdl. right. exact Hin.
      * exists a', live', total'. split; [exact E|]. split; [exact HK'|]. intros e. rewrite Hl. split; (intros [He|[k' He]]; [left; exact He|]).
        -- right. exists k'. right. exact He.
        -- apply elem_of_cons in He as [E'|He]; [discriminate E'|]. right. exists k'. exact He.
    + destruct (mark_succeeds _ _ _ _ Hsp1 H63 a live total o s HK) as [a1 E1]; [eapply Hp; left|intros e He; eapply Hdl; [left|exact He]|]. rewrite E1.
      assert (placed c (o, s)) as Hpl by (eapply Hp; left).
      pose proof (mark_ki _ _ _ _ Hsp1 H63 _ _ _ _ _ _ HK (ext_ok_placed _ _ _ _ _ Hpl) E1) as HK1.
      destruct (IH a1 _ _ HK1 Hn2) as (a' & live' & total' & E & HK' & Hl).
      * intros k' s' o' Hin. eapply Hp. right. exact Hin.
      * intros k1 k2 s1 o1 s' o' Hne H1 H2. eapply Hd; [exact Hne|right; exact H1|right; exact H2].
      * intros k' s' o' e Hin He. apply elem_of_cons in He as [->|He]; [|eapply Hdl; [right; exact Hin|exact He]].
        eapply Hd; [|right; exact Hin|left]. intros ->. apply Hn1. apply elem_of_list_fmap. exists (k, DHeap s' o'). auto.
      * exists a', live', total'. split; [exact E|]. split; [exact HK'|]. intros e. rewrite Hl. split.
        -- intros [He|[k' He]]; [|right; exists k'; right; exact He]. apply elem_of_cons in He as [->|He]; [right; exists k; left|left; exact He].
        -- intros [He|[k' He]]; [left; right; exact He|]. apply elem_of_cons in He as [E'|He]; [|right; exists k'; exact He]. left. injection E' as _ <- <-. destruct e. left.
Qed.

Lemma index_entries_spec c d : good_kconf c -> (forall idx, idx < kc_pages c -> page_ok c idx (page_at c d idx)) ->
  exists l, index_entries c d = Some l /\ NoDup (fst <$> l) /\
    forall k e, (k, e) ∈ l <-> exists idx, kc_index c k = Some idx /\ page_find (decode (page_at c d idx)) k = Some e.
Proof.
  intros Hc Hp. unfold index_entries.
  assert (forall n, (n <= N.to_nat (kc_pages c))%nat -> exists ls, mapM (fun i => bundle_read (page_at c d (N.of_nat i))) (seq 0 n) = Some ls /\ NoDup (fst <$> concat ls) /\
    forall k e, (k, e) ∈ concat ls <-> exists idx, kc_index c k = Some idx /\ idx < N.of_nat n /\ page_find (decode (page_at c d idx)) k = Some e) as G.
  { induction n as [|n IH]; intros Hn.
    - exists []. split; [reflexivity|]. split; [constructor|]. intros k e. split; [intros Hin; inversion Hin|]. intros (idx & _ & Hx & _). lia.
    - destruct (IH ltac:(lia)) as (ls & E & Hnd & Hin). destruct (Hp (N.of_nat n) ltac:(lia)) as [[l El] Pn Pk Pd]. unfold decode in Pn, Pk, Pd. rewrite El in Pn, Pk, Pd. cbn [from_option id] in Pn, Pk, Pd.
      exists (ls ++ [l]). split; [|split].
      + rewrite seq_S. cbn [Nat.add]. apply mapM_Some. apply mapM_Some in E. apply Forall2_app; [exact E|]. constructor; [exact El|constructor].
      + rewrite concat_app. cbn [concat]. rewrite app_nil_r, fmap_app. apply NoDup_app. split; [exact Hnd|]. split; [|exact Pn].
        intros k Hk1 Hk2. apply elem_of_list_fmap in Hk1 as ([k1 e1] & -> & H1). apply elem_of_list_fmap in Hk2 as ([k2 e2] & E2 & H2). cbn [fst] in E2. subst k2.
        apply Hin in H1 as (idx & Ei & Hx & _). destruct (Pk k1 e2 H2) as (_ & _ & Ei'). cbn [fst] in *. rewrite Ei in Ei'. injection Ei' as ->. lia.
      + intros k e. rewrite concat_app. cbn [concat]. rewrite app_nil_r, elem_of_app, Hin. split.
        * intros [(idx & Ei & Hx & Ef)|Hl]; [exists idx; split; [exact Ei|split; [lia|exact Ef]]|]. exists (N.of_nat n). destruct (Pk k e Hl) as (_ & _ & Ei). split; [exact Ei|]. split; [lia|].
          unfold decode. rewrite El. apply page_find_nodup; [exact Pn|exact Hl].
        * intros (idx & Ei & Hx & Ef). destruct (decide (idx = N.of_nat n)) as [->|Hne]; [|left; exists idx; split; [exact Ei|split; [lia|exact Ef]]].
          right. unfold decode in Ef. rewrite El in Ef. apply page_find_elem, Ef. }
  destruct (G _ (le_n _)) as (ls & E & Hnd & Hin). rewrite E. cbn [mbind option_bind]. exists (concat ls). split; [reflexivity|]. split; [exact Hnd|].
  intros k e. rewrite Hin. split; [intros (idx & Ei & _ & Ef); eauto|]. intros (idx & Ei & Ef). exists idx. split; [exact Ei|]. split; [|exact Ef]. pose proof (index_bound c k idx Hc Ei). lia.
Qed.

(** Opening a device with sound pages whose extents are apart. *)
Lemma open_spec c d log ops vals lost : good_kconf c -> (forall idx, idx < kc_pages c -> page_ok c idx (page_at c d idx)) ->
  let pg k := idx ← kc_index c k; page_find (decode (page_at c d idx)) k in
  (forall k e, ext_of (pg k) = Some e -> placed c e) ->
  (forall k k' e e', k <> k' -> ext_of (pg k) = Some e -> ext_of (pg k') = Some e' -> extents_disjoint (kc_spage c) e e') ->
  exists a live total, kv_open c d log ops vals lost =
      Some {| ks_log := log; ks_dev := d; ks_alloc := a; ks_unc := mapfold ops; ks_com := None;
              ks_commit := None; ks_writes := []; ks_vals := vals; ks_lost := lost; ks_old := [] |} /\
    KIc c a live total /\ forall e, e ∈ live <-> exists k, ext_of (pg k) = Some e.
Proof.
  intros Hc Hp pg Hpl Hdj. destruct (new_ok c Hc) as (a0 & E0 & HK0). destruct (index_entries_spec c d Hc Hp) as (l & El & Hn & Hin).
  assert (forall k s o, (k, DHeap s o) ∈ l <-> ext_of (pg k) = Some (o, s)) as Hx.
  { intros k s o. rewrite Hin. unfold pg. split.
    - intros (idx & -> & E). cbn [mbind option_bind]. rewrite E. reflexivity.
    - intros E. destruct (kc_index c k) as [idx|]; [|discriminate E]. cbn [mbind option_bind] in E. exists idx. split; [reflexivity|].
      destruct (page_find _ k) as [[i|s' o']|]; try discriminate E. cbn in E. injection E as -> ->. reflexivity. }
  destruct (mark_entries_spec c l Hc a0 [] 0 HK0 Hn) as (a & live & total & Em & HK & Hl).
  - intros k s o Hk. apply Hx in Hk. eapply Hpl; exact Hk.
  - intros k k' s o s' o' Hne Hk Hk'. apply Hx in Hk, Hk'. eapply Hdj; eassumption.
  - intros k s o e _ He. inversion He.
  - exists a, live, total. unfold kv_open. rewrite E0, El. cbn [mbind option_bind]. rewrite Em. cbn [mbind option_bind]. split; [reflexivity|]. split; [exact HK|].
    intros e. rewrite Hl. split.
    + intros [He|[k Hk]]; [inversion He|]. apply Hx in Hk. exists k. destruct e; exact Hk.
    + intros [k Hk]. right. exists k. apply Hx. destruct e; exact Hk.
Qed.

(** ** What the invariant says for reads and for what is on the device. *)
Lemma si_vcom_read {NL : Prop} c y : good_kconf c -> SI (NL:=NL) c y -> vcom_read c y.
Proof.
  intros Hc H m k s o Em Ek. pose proof (s_b _ _ H) as HB. pose proof (b_stage _ _ HB) as Hst. unfold stage_ok in Hst.
  apply (s_vcom _ _ H m k _ s o Em Ek).
  - unfold cur, pcom. destruct (ks_commit y) as [[|hw ents|ents todo ready|]|].
    + rewrite Em. cbn [mbind option_bind]. rewrite Ek. reflexivity.
    + destruct Hst as (_ & m' & Em' & _ & Hok & _). rewrite Em in Em'. injection Em' as <-. destruct (elook ents k) as [e'|] eqn:El; [|apply Hok in El; congruence].
      pose proof (proj2 (proj2 Hok k) _ _ Ek El) as Hmv. cbn in Hmv. exact Hmv.
    + destruct Hst as (_ & m' & Em' & _ & Hok & _ & _ & Hall & _). rewrite Em in Em'. injection Em' as <-. destruct (elook ents k) as [e'|] eqn:El; [|apply Hok in El; congruence].
      pose proof (proj2 (proj2 Hok k) _ _ Ek El) as Hmv. cbn in Hmv. subst e'. destruct (com_index c y Hc H m k _ Em Ek) as (idx & Ei & _). rewrite Ei. cbn [mbind option_bind].
      case_bool_decide as Hin; [reflexivity|]. apply (Hall k _ idx El Ei Hin).
    + destruct Hst as (_ & m' & h0 & Em' & _ & _ & Hall). rewrite Em in Em'. injection Em' as <-. exact (Hall k _ Ek).
    + destruct Hst as [E _]. congruence.
  - intros buf Hin. unfold hw_of in Hin. destruct (ks_commit y) as [[|hw ents|ents todo ready|]|] eqn:Ec; try (inversion Hin; fail).
    destruct Hst as (_ & m' & Em' & _ & Hok & Hhw). rewrite Em in Em'. injection Em' as <-. destruct (Hhw o buf Hin) as (k0 & i & junk & Ek0 & _ & El0 & _).
    destruct (elook ents k) as [e'|] eqn:El; [|apply Hok in El; congruence]. pose proof (proj2 (proj2 Hok k) _ _ Ek El) as Hmv. cbn in Hmv. subst e'.
    destruct (s_own _ _ H) as (live & total & HK & Ho).
    assert (ow c y (OCom k) = Some (o, s)) as E1 by (cbn [ow]; unfold pcom; rewrite Ec, El; reflexivity).
    assert (ow c y (OCom k0) = Some (o, N.of_nat (length i))) as E2 by (cbn [ow]; unfold pcom; rewrite Ec, El0; reflexivity).
    pose proof (live_same_off c Hc _ _ _ _ _ _ HK (proj1 Ho _ _ E1) (proj1 Ho _ _ E2)) as ->. pose proof (own_inj _ _ Ho _ _ _ E1 E2) as E. injection E as <-. congruence.
Qed.
Lemma si_ri {NL : Prop} c y : good_kconf c -> SI (NL:=NL) c y -> RI c y.
Proof. intros Hc H. split; [apply H|]. eapply si_vcom_read; eassumption. Qed.

(** A key without operations since the last commit: the page on the device. *)
Lemma device_shows {NL : Prop} c y k : good_kconf c -> SI (NL:=NL) c y -> mapfold (slice (hist y) (l_nhead (ks_log y)) (l_ntail (ks_log y))) !! k = None ->
  shows (ks_dev y) (dpg c y k) (latest (upto c y (l_ntail (ks_log y))) k).
Proof.
  intros Hc H Hno. pose proof (s_b _ _ H) as HB. destruct (b_log _ _ HB) as [q Hq]. pose proof (i_ord _ _ _ Hq) as (Ho1 & Ho2 & Ho3). pose proof (lens c y H) as [_ [Hn1 Hn2]].
  assert (applied y <= l_ntail (ks_log y))%nat as Hap by (unfold applied; lia).
  assert (forall a b, (l_nhead (ks_log y) <= a)%nat -> (a <= b)%nat -> (b <= l_ntail (ks_log y))%nat -> mapfold (slice (hist y) a b) !! k = None) as Hsub.
  { intros a b Ha Hab Hb. apply mapfold_None. intros n t Hn. rewrite mapfold_None in Hno. pose proof (lookup_lt_Some _ _ _ Hn) as Hlt. rewrite slice_length in Hlt by (unfold hist; lia).
    apply (Hno (a + n - l_nhead (ks_log y))%nat). rewrite slice_lookup by lia. rewrite <- (slice_lookup _ a b) by lia. replace (a + n - a)%nat with n by lia. exact Hn. }
  rewrite (mapfold_untouched c y (b_tv _ _ HB) (applied y) (l_ntail (ks_log y)) k) by (try (apply Hsub; lia); unfold hist; lia).
  assert (ks_unc y !! k = None) as Eu by (rewrite (b_unc _ _ HB); apply Hsub; lia).
  destruct (ks_commit y) as [st|] eqn:Ec.
  - destruct st as [|hw ents|ents todo ready|].
    4: { pose proof (b_vpage _ _ (s_b _ _ (si_done c y Hc H Ec)) k Eu ltac:(discriminate)) as G. rewrite eff_nil in G by reflexivity. exact G. }
    all: pose proof (b_stage _ _ HB) as Hst; unfold stage_ok in Hst; rewrite Ec in Hst; destruct Hst as (_ & m & Em & Hm & Hst).
    all: assert (m !! k = None) as Ek by (rewrite Hm; apply Hsub; lia).
    all: pose proof (b_vpage _ _ HB k Eu ltac:(rewrite Em; intros m' [= <-]; exact Ek)) as G.
    + rewrite eff_nil in G by (unfold ready_of; rewrite Ec; reflexivity). exact G.
    + rewrite eff_nil in G by (unfold ready_of; rewrite Ec; reflexivity). exact G.
    + assert (eff c y k = dpg c y k) as <-; [|exact G]. destruct Hst as (_ & _ & _ & _ & Hr). unfold eff, dpg. destruct (kc_index c k) as [idx|]; [|reflexivity]. cbn [mbind option_bind].
      unfold epage, ready_of. rewrite Ec. destruct ((list_to_map ready : gmap N (list N)) !! idx) as [pg|] eqn:Er; [|reflexivity]. cbn [from_option id].
      apply elem_of_list_to_map_2 in Er. destruct (Hr idx pg Er) as (_ & _ & _ & _ & Hf). apply Hf, Ek.
  - pose proof (b_stage _ _ HB) as Hst. unfold stage_ok in Hst. rewrite Ec in Hst. destruct Hst as [Em _].
    pose proof (b_vpage _ _ HB k Eu ltac:(rewrite Em; discriminate)) as G. rewrite eff_nil in G by (unfold ready_of; rewrite Ec; reflexivity). exact G.
Qed.

(** ** Power loss. *)
Theorem crash_spec {NL : Prop} c y : good_kconf c -> SI (NL:=NL) c y -> l_maxflush (ks_log y) <= lc_bufsize (kc_log c) ->
  exists y', kstep c y KCrash = Some y' /\ RI c y' /\ applied y' = l_ntail (ks_log y) /\
    ks_vals y' = take (l_ntail (ks_log y)) (ks_vals y) /\ l_acked (ks_log y') = l_acked (ks_log y) /\ l_ntail (ks_log y') = l_ntail (ks_log y) /\
    (log_without_heap c y -> forall NL' : Prop, SI (NL:=NL') c y').
Proof.
  intros Hc H Hmax. pose proof (s_b _ _ H) as HB. destruct (b_log _ _ HB) as [q Hq]. pose proof (i_ord _ _ _ Hq) as (Ho1 & Ho2 & Ho3). pose proof (lens c y H) as [Hlen [Hn1 Hn2]].
  pose proof (linv_load _ _ _ (gk_log _ Hc) Hq Hmax) as Hload. set (nt := l_ntail (ks_log y)) in *. set (nh := l_nhead (ks_log y)) in *.
  assert (lstep (kc_log c) (ks_log y) ECrash = log_open (kc_log c) (l_page (ks_log y)) (l_dev (ks_log y)) (l_acked (ks_log y)) (take nt (l_hist (ks_log y))) nh nt (l_maxflush (ks_log y))) as Es by reflexivity.
  unfold log_open in Es. rewrite Hload in Es. cbn [mbind option_bind] in Es. set (log := Build_lstate _ _ _ _ _ _ _ _ _ _ _ _ _ _ _ _) in Es.
  assert (exists q', linv (kc_log c) log q') as Hl by (eapply (linv_step c y Hc H ECrash); [exact I|exact Es]).
  assert (forall k, dpg c y k = (idx ← kc_index c k; page_find (decode (page_at c (ks_dev y) idx)) k)) as Ed by reflexivity.
  destruct (open_spec c (ks_dev y) log (slice (l_hist (ks_log y)) nh nt) (take nt (ks_vals y)) (ks_lost y) Hc) as (a & live & total & Eo & HK & Hlive).
  { apply HB. }
  { intros k e He. rewrite <- Ed in He. eapply (s_placed _ _ H k). left. exact He. }
  { intros k k' e e' Hne He He'. rewrite <- Ed in He, He'. eapply (s_disj _ _ H k k'); [exact Hne|left; exact He|left; exact He']. }
  set (y' := Build_kstate _ _ _ _ _ _ _ _ _ _) in Eo.
  assert (kstep c y KCrash = Some y') as E.
  { cbn [kstep]. rewrite Hload. cbn [mbind option_bind]. rewrite Es. cbn [mbind option_bind]. exact Eo. }
  assert (applied y' = nt) as Eap by (unfold applied; cbn; lia).
  assert (forall k, eff c y' k = dpg c y k) as Eeff by (intros k; rewrite eff_nil by reflexivity; reflexivity).
  assert (forall n, (n <= nt)%nat -> upto c y' n = upto c y n) as Eup.
  { intros n Hn. unfold upto. cbn [y' ks_vals]. rewrite okeyed_take, take_take. f_equal. lia. }
  assert (forall n t, hist y' !! n = Some t <-> (n < nt)%nat /\ hist y !! n = Some t) as Eh.
  { intros n t. unfold hist. cbn [y' ks_log log l_hist]. rewrite lookup_take_Some. tauto. }
  assert (BI c y') as HB'.
  { constructor.
    - exact Hl.
    - unfold hist. cbn [y' ks_log ks_vals log l_hist]. apply Forall2_take, HB.
    - rewrite Eap. cbn [y' ks_log log l_ncommit]. lia.
    - rewrite Eap. unfold hist. cbn [y' ks_unc ks_log log l_ncommit l_hist]. rewrite slice_take by lia. reflexivity.
    - split; reflexivity.
    - apply HB.
    - intros n k s o raw v Hn En Hlast Ev. cbn [y' ks_log log l_ncommit] in Hn. apply Eh in En as [Hnt En]. rewrite Eap in Hlast.
      assert (last_op y n nt k) as Hlast'. { intros j t Hj Ej. apply (Hlast j t Hj). apply Eh. split; [lia|exact Ej]. }
      cbn [y' ks_vals] in Ev. apply lookup_take_Some in Ev as [Ev _]. cbn [y' ks_dev].
      destruct (Nat.le_gt_cases (l_ncommit (ks_log y)) n) as [Hge|Hlt].
      + eapply (b_vlog _ _ HB); try eassumption. intros j t Hj Ej. apply (Hlast' j t); [unfold applied in Hj; fold nt in Hj; lia|exact Ej].
      + assert (mapfold (slice (hist y) nh (l_ncommit (ks_log y))) !! k = Some (Some (DHeap s o))) as Emf.
        { apply mapfold_Some. exists (n - nh)%nat, (TUpsert k (DHeap s o)). split; [rewrite slice_lookup by lia; exact En|]. split; [reflexivity|]. split; [reflexivity|].
          intros j t' Hj Et'. pose proof (lookup_lt_Some _ _ _ Et') as Hjl. rewrite slice_length in Hjl by lia. apply (Hlast' (nh + j)%nat t'); [lia|].
          rewrite <- (slice_lookup _ nh (l_ncommit (ks_log y))) by lia. replace (nh + j - nh)%nat with j by lia. exact Et'. }
        assert (ks_com y = Some (mapfold (slice (hist y) nh (l_ncommit (ks_log y))))) as Em.
        { pose proof (b_stage _ _ HB) as Hst. unfold stage_ok in Hst. assert (l_commit (ks_log y) <> None) as Hcm by (intros Hx; apply (i_commit _ _ _ Hq) in Hx; fold nh in Hx; lia).
          destruct (ks_commit y) as [[|hw ents|ents todo ready|]|].
          1-3: destruct Hst as (_ & m & Em & Hm & _); rewrite Em, Hm; reflexivity.
          - destruct Hst as (G & _). contradiction.
          - destruct Hst as (_ & G). contradiction. }
        destruct (si_vcom_read c y Hc H _ k s o Em Emf) as (v' & Ev' & Hd).
        destruct (mapfold_latest c y (b_tv _ _ HB) nh (l_ncommit (ks_log y)) k _ ltac:(lia) Emf) as (n2 & t2 & raw2 & v2 & Hn2' & Et2 & Ek2 & Ee2 & Ev2 & _ & El2 & Hl2).
        assert (n2 = n) as ->.
        { destruct (Nat.lt_trichotomy n2 n) as [G|[G|G]]; [|exact G|].
          - exfalso. apply (Hl2 n (TUpsert k (DHeap s o))); [lia|exact En|reflexivity].
          - exfalso. apply (Hlast' n2 t2); [lia|exact Et2|exact Ek2]. }
        rewrite Ev in Ev2. injection Ev2 as <- <-. rewrite El2 in Ev'. injection Ev' as ->. exact Hd.
    - intros k Eu _. rewrite Eap, Eeff, Eup by lia. cbn [y' ks_unc ks_dev] in *. eapply device_shows; eassumption. }
  exists y'. split; [exact E|]. split; [split; [exact HB'|intros m k s o Em; discriminate Em]|]. split; [exact Eap|]. split; [reflexivity|]. split; [reflexivity|]. split; [reflexivity|].
  intros Hnoheap NL'.
  assert (forall k e, pth c y' k e -> ext_of (dpg c y k) = Some e) as Hpth. { intros k e [He|[He|He]]; [exact He|rewrite Eeff in He; exact He|discriminate He]. }
  constructor; try assumption.
  - intros m k e s o Em. discriminate Em.
  - exists live, total. split; [exact HK|].
    assert (forall t e, ow c y' t = Some e -> exists k, t = OKey k /\ ext_of (dpg c y k) = Some e) as Hk.
    { intros [k|k|n|i] e He; cbn [ow] in He.
      - rewrite Eeff in He. eauto.
      - discriminate He.
      - exfalso. cbn [y' ks_log log l_ncommit l_hist] in He. destruct (Nat.leb_spec nh n) as [Hge|]; [|discriminate He].
        destruct (take nt (l_hist (ks_log y)) !! n) as [t|] eqn:Et; [|discriminate He]. cbn [mbind option_bind] in He. apply lookup_take_Some in Et as [Et Hlt].
        destruct t as [k [i|s o]|k]; try discriminate He. apply (Hnoheap _ _ _ Hload k s o). fold nh nt. apply elem_of_list_lookup. exists (n - nh)%nat. rewrite slice_lookup by lia. exact Et.
      - discriminate He. }
    split; [|split].
    + intros t e He. destruct (Hk t e He) as (k & -> & Hx). apply Hlive. exists k. rewrite <- Ed. exact Hx.
    + intros t t' e He He'. destruct (Hk t e He) as (k & -> & Hx). destruct (Hk t' e He') as (k' & -> & Hx'). destruct (decide (k = k')) as [->|Hne]; [reflexivity|]. exfalso.
      assert (placed c e) as (Hp & _) by (eapply (s_placed _ _ H k); left; exact Hx). destruct e as [o s]. cbn in Hp.
      apply (s_disj _ _ H k k' (o, s) (o, s) Hne ltac:(left; exact Hx) ltac:(left; exact Hx') o). split; apply ext_byte; lia.
    + intros _ e He. apply Hlive in He as [k Hk']. exists (OKey k). cbn [ow]. rewrite Eeff. exact Hk'.
  - intros k e He. eapply (s_placed _ _ H k). left. apply Hpth, He.
  - intros k k' e e' Hne He He'. eapply (s_disj _ _ H k k'); [exact Hne|left; apply Hpth, He|left; apply Hpth, He'].
  - constructor.
Qed.

(** ** Formatting. *)
Lemma zero_page c d idx : good_kconf c -> idx < kc_pages c -> bundle_read (page_at c (fun a => if a <? kc_base c then 0 else d a) idx) = Some [].
Proof.
  intros Hc Hi. pose proof (good_pages c Hc) as [_ E].
  assert (page_at c (fun a => if a <? kc_base c then 0 else d a) idx = replicate (N.to_nat (kc_psize c)) 0) as ->.
  { unfold page_at, dev_read. apply list_eq. intros i. rewrite list_lookup_fmap. destruct (decide (i < N.to_nat (kc_psize c))%nat) as [Hl|Hl].
    - rewrite lookup_seq_lt by exact Hl. rewrite lookup_replicate_2 by exact Hl. cbn. destruct (N.ltb_spec (idx * kc_psize c + N.of_nat i) (kc_base c)) as [|Hx]; [reflexivity|]. exfalso.
      assert ((idx + 1) * kc_psize c <= kc_pages c * kc_psize c) by (apply N.mul_le_mono_r; lia). rewrite N.mul_add_distr_r, N.mul_1_l in *. lia.
    - rewrite lookup_seq_ge by lia. rewrite lookup_ge_None_2 by (rewrite replicate_length; lia). reflexivity. }
  unfold bundle_read. destruct (N.to_nat (kc_psize c)) as [|n]; [reflexivity|]. cbn [replicate length]. reflexivity.
Qed.
Theorem format_si {NL : Prop} c d logd y0 : good_kconf c -> kv_format c d logd = Some y0 -> SI (NL:=NL) c y0 /\ ks_vals y0 = [] /\ applied y0 = 0%nat /\ ks_lost y0 = [] /\ l_maxflush (ks_log y0) = 0.
Proof.
  intros Hc E. unfold kv_format in E. destruct (log_format_Some (kc_log c) logd (gk_log _ Hc)) as (log & El & _ & _ & Hl). rewrite El in E. cbn [mbind option_bind] in E.
  set (d0 := fun a => if a <? kc_base c then 0 else d a) in E.
  assert (forall idx, idx < kc_pages c -> decode (page_at c d0 idx) = []) as Hdec by (intros idx Hi; unfold decode, d0; rewrite zero_page by assumption; reflexivity).
  assert (forall idx, idx < kc_pages c -> page_ok c idx (page_at c d0 idx)) as Hp.
  { intros idx Hi. constructor; [exists []; apply zero_page; assumption|rewrite Hdec by exact Hi; constructor| |]; intros k e He; rewrite Hdec in He by exact Hi; inversion He. }
  assert (forall k, (idx ← kc_index c k; page_find (decode (page_at c d0 idx)) k) = None) as Hnone.
  { intros k. destruct (kc_index c k) as [idx|] eqn:Ei; [|reflexivity]. cbn [mbind option_bind]. rewrite Hdec by (eapply index_bound; eassumption). reflexivity. }
  destruct (open_spec c d0 log [] [] [] Hc Hp) as (a & live & total & Eo & HK & Hlive).
  { intros k e He. rewrite Hnone in He. discriminate He. }
  { intros k k' e e' _ He. rewrite Hnone in He. discriminate He. }
  rewrite Eo in E. injection E as <-.
  assert (l_hist log = [] /\ l_ncommit log = 0%nat /\ l_ntail log = 0%nat /\ l_apply log = [] /\ l_commit log = None /\ l_maxflush log = 0) as (L1 & L2 & L3 & L4 & L5 & L6).
  { unfold log_format, log_open in El. destruct (log_load _ _ _) as [[[h t] ops]|]; [|discriminate El]. cbn [mbind option_bind] in El. injection El as <-. repeat split. }
  set (y0 := Build_kstate _ _ _ _ _ _ _ _ _ _).
  assert (applied y0 = 0%nat) as Ea by (unfold applied; cbn [y0 ks_log]; rewrite L3; reflexivity).
  assert (forall k, eff c y0 k = None) as Eeff by (intros k; rewrite eff_nil by reflexivity; apply Hnone).
  assert (forall k e, ~ pth c y0 k e) as Hpth. { intros k e [He|[He|He]]; [unfold dpg in He; cbn [y0 ks_dev] in He; rewrite Hnone in He; discriminate He|rewrite Eeff in He; discriminate He|discriminate He]. }
  split; [|split; [reflexivity|split; [exact Ea|split; [reflexivity|exact L6]]]].
  constructor; [constructor| | | | |].
  - exists []. exact Hl.
  - unfold hist. cbn [y0 ks_log ks_vals]. rewrite L1. constructor.
  - cbn [y0 ks_log]. rewrite L2. lia.
  - rewrite Ea. unfold hist. cbn [y0 ks_log ks_unc]. rewrite L1, L2. reflexivity.
  - split; [reflexivity|exact L5].
  - exact Hp.
  - intros n k s o raw v _ En. unfold hist in En. cbn [y0 ks_log] in En. rewrite L1 in En. discriminate En.
  - intros k _ _. rewrite Eeff, Ea. exact I.
  - intros m k e s o Em. discriminate Em.
  - exists live, total. split; [exact HK|].
    assert (forall t, ow c y0 t = None) as Hno. { intros [k|k|n|i]; cbn [ow]; [rewrite Eeff; reflexivity|reflexivity| |reflexivity]. cbn [y0 ks_log]. rewrite L1. destruct (_ <=? _)%nat; reflexivity. }
    split; [|split]; [intros t; intros; rewrite Hno in *; discriminate..|].
    intros _ e He. apply Hlive in He as [k Hk]. rewrite Hnone in Hk. discriminate Hk.
  - intros k e He. destruct (Hpth k e He).
  - intros k k' e e' _ He. destruct (Hpth k e He).
  - constructor.
Qed.

(** ** Every step. *)
Theorem kstep_si {NL : Prop} c y e y' : good_kconf c -> SI (NL:=NL) c y -> valid_kevent c e -> kstep c y e = Some y' -> ks_lost y' = [] ->
  (e = KCrash -> log_without_heap c y /\ l_maxflush (ks_log y) <= lc_bufsize (kc_log c)) -> (e = KCommitStart -> NL -> heap_last y) -> SI (NL:=NL) c y'.
Proof.
  intros Hc H Hv E Hlost Hcr Hlast. destruct e as [raw val|raw val junk|i v|i|i|raw|e| | |order junks|i v|i| |idx order junk|i|junk| | ]; cbn [valid_kevent] in Hv.
  - cbn [kstep] in E. destruct (N.ltb_spec object_size_max (N.of_nat (length val))) as [|Hs]; [discriminate E|]. cbn [orb] in E. destruct (_ <? _); [discriminate E|].
    destruct (lstep _ _ _) as [log|] eqn:El; [|discriminate E]. cbn [mbind option_bind] in E. injection E as <-.
    eapply (si_inline c y Hc H raw (Some val)); [apply Hv|reflexivity| |exact El]. intros w [= <-]. split; [exact Hs|apply Hv].
  - cbn [kstep] in E. destruct (N.ltb_spec object_size_max (N.of_nat (length val))) as [|Hs]; [discriminate E|]. cbn [orb] in E. destruct (N.leb_spec (N.of_nat (length val)) (kc_thr c)) as [|Ht]; [discriminate E|].
    destruct (kv_allocate _ _) as [[a off]| |] eqn:Ea; try discriminate E. destruct (N.eqb_spec (N.of_nat (length junk)) (N.max (kc_psize c) (ceil_pow2 (N.of_nat (length val)) (kc_spage c)))) as [Hj|]; [|discriminate E].
    cbn [negb] in E. injection E as <-. eapply si_write_heap; try eassumption; try apply Hv. split; [lia|exact Hs].
  - cbn [kstep] in E. destruct (ks_writes y !! i) as [w|] eqn:Ew; [|discriminate E]. cbn [mbind option_bind] in E. destruct (kw_done w) eqn:Ed; [discriminate E|]. injection E as <-. eapply si_write_torn; eassumption.
  - cbn [kstep] in E. destruct (ks_writes y !! i) as [w|] eqn:Ew; [|discriminate E]. cbn [mbind option_bind] in E. destruct (kw_done w) eqn:Ed; [discriminate E|].
    destruct (od_write _ _ _ _) as [d|] eqn:Eo; [|discriminate E]. cbn [mbind option_bind] in E. injection E as <-. eapply si_write_done; eassumption.
  - cbn [kstep] in E. destruct (ks_writes y !! i) as [w|] eqn:Ew; [|discriminate E]. cbn [mbind option_bind] in E. destruct (kw_done w) eqn:Ed; [|discriminate E]. cbn [negb] in E.
    destruct (lstep _ _ _) as [log|] eqn:El; [|discriminate E]. cbn [mbind option_bind] in E. injection E as <-. eapply si_write_send; eassumption.
  - cbn [kstep] in E. destruct (lstep _ _ _) as [log|] eqn:El; [|discriminate E]. cbn [mbind option_bind] in E. injection E as <-.
    eapply (si_inline c y Hc H raw None); [exact Hv|reflexivity|discriminate|exact El].
  - cbn [kstep] in E. destruct (log_internal e) eqn:Ei; [|discriminate E]. cbn [negb] in E. destruct (lstep _ _ _) as [log|] eqn:El; [|discriminate E]. cbn [mbind option_bind] in E. injection E as <-. eapply si_log; eassumption.
  - cbn [kstep] in E. destruct (head _) as [[n t]|] eqn:Eh; [|discriminate E]. cbn [mbind option_bind] in E. destruct (lstep _ _ _) as [log|] eqn:El; [|discriminate E]. cbn [mbind option_bind] in E. injection E as <-. eapply si_apply; eassumption.
  - cbn [kstep] in E. destruct (ks_commit y) eqn:Ec; [discriminate E|]. destruct (ks_com y) eqn:Em; [discriminate E|]. destruct (lstep _ _ _) as [log|] eqn:El; [|discriminate E]. cbn [mbind option_bind] in E. injection E as <-.
    eapply si_commit_start; try eassumption. exact (Hlast eq_refl).
  - cbn [kstep] in E. destruct (ks_commit y) as [[| | |]|] eqn:Ec; try discriminate E. destruct (ks_com y) as [m|] eqn:Em; [|discriminate E]. case_bool_decide as Hp; [|discriminate E]. cbn [negb] in E.
    destruct (group_moves _ _ _ _) as [[[a hw] ents]|] eqn:Eg; [|discriminate E]. cbn [mbind option_bind] in E. injection E as <-. eapply si_group; eassumption.
  - cbn [kstep] in E. destruct (ks_commit y) as [[|hw ents| |]|] eqn:Ec; try discriminate E. destruct (hw !! i) as [[off buf]|] eqn:Ei; [|discriminate E]. cbn [mbind option_bind] in E. injection E as <-.
    rewrite <- Ec. eapply si_move_torn; eassumption.
  - cbn [kstep] in E. destruct (ks_commit y) as [[|hw ents| |]|] eqn:Ec; try discriminate E. destruct (hw !! i) as [[off buf]|] eqn:Ei; [|discriminate E]. cbn [mbind option_bind] in E.
    destruct (od_write _ _ _ _) as [d|] eqn:Eo; [|discriminate E]. cbn [mbind option_bind] in E. injection E as <-. eapply si_move_done; eassumption.
  - cbn [kstep] in E. destruct (ks_commit y) as [[|hw ents| |]|] eqn:Ec; try discriminate E. destruct hw; [|discriminate E]. destruct (mapM _ _) as [idxs|] eqn:Ei; [|discriminate E]. cbn [mbind option_bind] in E. injection E as <-.
    eapply si_pages; eassumption.
  - cbn [kstep] in E. destruct (ks_commit y) as [[| |ents todo ready|]|] eqn:Ec; try discriminate E. case_bool_decide as Hin; [|discriminate E]. cbn [negb] in E.
    destruct (page_task _ _ _ _ _ _ _) as [[a [page|]]|] eqn:Ep; [| |discriminate E]; cbn [mbind option_bind] in E; injection E as <-.
    + eapply si_page_update; eassumption.
    + cbn in Hlost. apply app_eq_nil in Hlost as [_ Hx]. discriminate Hx.
  - cbn [kstep] in E. destruct (ks_commit y) as [[| |ents todo ready|]|] eqn:Ec; try discriminate E. destruct (ready !! i) as [[idx page]|] eqn:Ei; [|discriminate E]. cbn [mbind option_bind] in E.
    destruct (od_write _ _ _ _) as [d|] eqn:Eo; [|discriminate E]. cbn [mbind option_bind] in E. injection E as <-. eapply si_page_write; eassumption.
  - cbn [kstep] in E. destruct (ks_commit y) as [[| |ents todo ready|]|] eqn:Ec; try discriminate E. destruct todo; [|discriminate E]. destruct ready; [|discriminate E].
    destruct (lstep _ _ _) as [log|] eqn:El; [|discriminate E]. cbn [mbind option_bind] in E. injection E as <-. eapply si_head; eassumption.
  - cbn [kstep] in E. destruct (ks_commit y) as [[| | |]|] eqn:Ec; try discriminate E. injection E as <-. apply si_done; assumption.
  - destruct (Hcr eq_refl) as [H1 H2]. destruct (crash_spec c y Hc H H2) as (y2 & E2 & _ & _ & _ & _ & _ & Hs). rewrite E in E2. injection E2 as <-. apply Hs, H1.
Qed.

Lemma kstep_lost c y e y' : kstep c y e = Some y' -> ks_lost y' = [] -> ks_lost y = [].
Proof.
  intros E. destruct e; cbn [kstep] in E; unfold kv_open in E; repeat (match type of E with
    | context [match ?x with _ => _ end] => destruct x eqn:?; try discriminate E
    | (?x ≫= _) = Some _ => destruct x eqn:?; [|discriminate E]; cbn [mbind option_bind] in E
    end); try discriminate E; injection E as <-; cbn; try (intros ->; reflexivity); try tauto.
  all: try (intros Hx; apply app_eq_nil in Hx as [Hx _]; exact Hx).
Qed.

Theorem kreach_si c d logd y0 y : good_kconf c -> kv_format c d logd = Some y0 -> kreach c y0 y -> ks_lost y = [] -> SI (NL:=False) c y.
Proof.
  intros Hc H0 Hr. induction Hr as [|y e y' Hr IH Hv E Hcr]; intros Hl; [apply (format_si c d logd y0 Hc H0)|].
  eapply kstep_si; try eassumption; [|intros _ []]. apply IH. eapply kstep_lost; eassumption.
Qed.
