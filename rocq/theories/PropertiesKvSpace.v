(** C47: heap space of superseded values of libblobd-kv is available again. *)
From Coq Require Import ZifyBool ZifyNat ZifyN.
From stdpp Require Import base numbers list_numbers option gmap sets fin_maps list.
From Verif Require Import Util Bytes PageIOModel PageIOProofs PageIOWrite BuddyModel KvAllocModel KvAllocSpec KvAllocProofs KvAllocInv
  KvCodecModel KvCodecSpec KvCodecProofs KvReadModel PropertiesKvRead KvLogModel KvLogSpec KvLogProofs KvLogSys KvLogInv KvStoreModel KvStoreSpec KvStoreInv KvStoreFrame KvStoreSteps KvStoreCommit KvStoreGroup KvStorePages KvStoreIndex KvStoreOpen KvStoreLin PropertiesKvStore.
Open Scope N_scope.
Ltac Zify.zify_post_hook ::= idtac.

(** ** What is claimed. *)
(** Of the operations the next commit takes (those inserted into the overlay and
    not taken by an earlier commit), none is on the key of an earlier one that
    wrote a large value.  Without this C47_overwritten_value_never_freed_refuted. *)
Definition no_early_overwrite (c : kconf) (y : kstate) : Prop :=
  forall i j raw v raw' w, (l_ncommit (ks_log y) <= i < j)%nat -> (j < applied y)%nat ->
    ks_vals y !! i = Some (raw, Some v) -> kc_thr c < N.of_nat (length v) ->
    ks_vals y !! j = Some (raw', w) -> kc_key c raw' <> kc_key c raw.
(** Runs in which that holds whenever a commit starts, at least since the store
    was last opened. *)
Inductive kcalm (c : kconf) (y0 : kstate) : kstate -> Prop :=
| kc_init : kcalm c y0 y0
| kc_open y y' : kreach c y0 y -> kstep c y KCrash = Some y' -> log_without_heap c y -> l_maxflush (ks_log y) <= lc_bufsize (kc_log c) -> kcalm c y0 y'
| kc_step y e y' : kcalm c y0 y -> valid_kevent c e -> e <> KCrash -> kstep c y e = Some y' ->
    (e = KCommitStart -> no_early_overwrite c y) -> kcalm c y0 y'.
(** Nothing in progress: every operation committed, no write started. *)
Definition at_rest (y : kstate) : Prop :=
  ks_commit y = None /\ ks_writes y = [] /\ l_ncommit (ks_log y) = length (ks_vals y).
(** The space of values of these sizes, each in whole small pages. *)
Definition space_of (c : kconf) (objs : list (list N * list N)) : N :=
  foldr (fun o n => (N.of_nat (length (snd o)) + kc_psize c - 1) / kc_psize c * kc_psize c + n) 0 objs.

(** ** Operations with a heap value are those with a large value. *)
Definition big_task (c : kconf) (t : ltask) : Prop := match t with TUpsert _ (DHeap s _) => kc_thr c < s | _ => True end.
Definition HI (c : kconf) (y : kstate) : Prop :=
  Forall (big_task c) (l_hist (ks_log y)) /\ Forall (fun w => kc_thr c < N.of_nat (length (kw_val w))) (ks_writes y).
Lemma open_fields c d log ops vals lost y : kv_open c d log ops vals lost = Some y ->
  ks_log y = log /\ ks_writes y = [] /\ ks_dev y = d /\ exists a l, kv_alloc_new (kc_base c) (kc_heap c) (kc_spage c) (kc_lpage c) = Ok a /\
    index_entries c d = Some l /\ mark_entries a l = Some (ks_alloc y).
Proof.
  unfold kv_open. destruct (kv_alloc_new _ _ _ _) as [a| |]; try discriminate. destruct (index_entries c d) as [l|]; [|discriminate]. cbn [mbind option_bind].
  destruct (mark_entries a l) as [a'|] eqn:Em; [|discriminate]. cbn [mbind option_bind]. intros [= <-]. repeat split. exists a, l. auto.
Qed.
Lemma step_hi c y e y' : HI c y -> kstep c y e = Some y' -> HI c y'.
Proof.
  intros [H1 H2] E. destruct e as [raw val|raw val junk|i v|i|i|raw|e| | |order junks|i v|i| |idx order junk|i|junk| | ].
  - cbn [kstep] in E. destruct (_ || _); [discriminate E|]. destruct (lstep _ _ _) as [log|] eqn:El; [|discriminate E]. cbn [mbind option_bind] in E. injection E as <-. apply recv_same in El.
    split; [|exact H2]. cbn. rewrite (ls_hist _ _ _ El). apply Forall_app. split; [exact H1|]. repeat constructor.
  - cbn [kstep] in E. destruct (_ <? _); [discriminate E|]. cbn [orb] in E. destruct (N.leb_spec (N.of_nat (length val)) (kc_thr c)) as [|Ht]; [discriminate E|].
    destruct (kv_allocate _ _) as [[a off]| |]; try discriminate E. destruct (negb _); [discriminate E|]. injection E as <-.
    split; [exact H1|]. cbn. apply Forall_app. split; [exact H2|]. repeat constructor. exact Ht.
  - cbn [kstep] in E. destruct (ks_writes y !! i) as [w|] eqn:Ew; [|discriminate E]. cbn [mbind option_bind] in E. destruct (kw_done w); [discriminate E|]. injection E as <-. split; assumption.
  - cbn [kstep] in E. destruct (ks_writes y !! i) as [w|] eqn:Ew; [|discriminate E]. cbn [mbind option_bind] in E. destruct (kw_done w); [discriminate E|].
    destruct (od_write _ _ _ _) as [d|]; [|discriminate E]. cbn [mbind option_bind] in E. injection E as <-. split; [exact H1|]. cbn. apply Forall_insert; [exact H2|]. cbn.
    rewrite Forall_lookup in H2. exact (H2 _ _ Ew).
  - cbn [kstep] in E. destruct (ks_writes y !! i) as [w|] eqn:Ew; [|discriminate E]. cbn [mbind option_bind] in E. destruct (negb _); [discriminate E|].
    destruct (lstep _ _ _) as [log|] eqn:El; [|discriminate E]. cbn [mbind option_bind] in E. injection E as <-. apply recv_same in El.
    split; cbn; [|apply Forall_delete, H2]. rewrite (ls_hist _ _ _ El). apply Forall_app. split; [exact H1|]. repeat constructor. cbn. rewrite Forall_lookup in H2. exact (H2 _ _ Ew).
  - cbn [kstep] in E. destruct (lstep _ _ _) as [log|] eqn:El; [|discriminate E]. cbn [mbind option_bind] in E. injection E as <-. apply recv_same in El.
    split; [|exact H2]. cbn. rewrite (ls_hist _ _ _ El). apply Forall_app. split; [exact H1|]. repeat constructor.
  - cbn [kstep] in E. destruct (log_internal e) eqn:Ei; [|discriminate E]. cbn [negb] in E. destruct (lstep _ _ _) as [log|] eqn:El; [|discriminate E]. cbn [mbind option_bind] in E. injection E as <-.
    apply internal_same in El; [|exact Ei]. split; [|exact H2]. cbn. rewrite (ls_hist _ _ _ El), app_nil_r. exact H1.
  - cbn [kstep] in E. destruct (head _) as [[n t]|]; [|discriminate E]. cbn [mbind option_bind] in E. destruct (lstep _ _ _) as [log|] eqn:El; [|discriminate E]. cbn [mbind option_bind] in E. injection E as <-.
    split; [|exact H2]. cbn [ks_log]. cbn [lstep] in El. destruct (l_apply (ks_log y)) as [|[n' t'] rest]; [discriminate El|]. injection El as <-. exact H1.
  - cbn [kstep] in E. destruct (ks_commit y); [discriminate E|]. destruct (ks_com y); [discriminate E|]. destruct (lstep _ _ _) as [log|] eqn:El; [|discriminate E]. cbn [mbind option_bind] in E. injection E as <-.
    split; [|exact H2]. cbn [ks_log]. cbn [lstep] in El. destruct (l_apply (ks_log y)) as [|[n' t'] rest]; [|discriminate El]. destruct (l_commit (ks_log y)); [discriminate El|]. destruct (_ <=? _); [|discriminate El]. injection El as <-. exact H1.
  - cbn [kstep] in E. destruct (ks_commit y) as [[| | |]|]; try discriminate E. destruct (ks_com y) as [m|]; [|discriminate E]. destruct (negb _); [discriminate E|].
    destruct (group_moves _ _ _ _) as [[[a hw] ents]|]; [|discriminate E]. cbn [mbind option_bind] in E. injection E as <-. split; assumption.
  - cbn [kstep] in E. destruct (ks_commit y) as [[|hw ents| |]|]; try discriminate E. destruct (hw !! i) as [[off buf]|]; [|discriminate E]. cbn [mbind option_bind] in E. injection E as <-. split; assumption.
  - cbn [kstep] in E. destruct (ks_commit y) as [[|hw ents| |]|]; try discriminate E. destruct (hw !! i) as [[off buf]|]; [|discriminate E]. cbn [mbind option_bind] in E.
    destruct (od_write _ _ _ _) as [d|]; [|discriminate E]. cbn [mbind option_bind] in E. injection E as <-. split; assumption.
  - cbn [kstep] in E. destruct (ks_commit y) as [[|hw ents| |]|]; try discriminate E. destruct hw; [|discriminate E]. destruct (mapM _ _) as [idxs|]; [|discriminate E]. cbn [mbind option_bind] in E. injection E as <-. split; assumption.
  - cbn [kstep] in E. destruct (ks_commit y) as [[| |ents todo ready|]|]; try discriminate E. destruct (negb _); [discriminate E|].
    destruct (page_task _ _ _ _ _ _ _) as [[a [page|]]|]; [| |discriminate E]; cbn [mbind option_bind] in E; injection E as <-; split; assumption.
  - cbn [kstep] in E. destruct (ks_commit y) as [[| |ents todo ready|]|]; try discriminate E. destruct (ready !! i) as [[idx page]|]; [|discriminate E]. cbn [mbind option_bind] in E.
    destruct (od_write _ _ _ _) as [d|]; [|discriminate E]. cbn [mbind option_bind] in E. injection E as <-. split; assumption.
  - cbn [kstep] in E. destruct (ks_commit y) as [[| |ents todo ready|]|]; try discriminate E. destruct todo; [|discriminate E]. destruct ready; [|discriminate E].
    destruct (lstep _ _ _) as [log|] eqn:El; [|discriminate E]. cbn [mbind option_bind] in E. injection E as <-. split; [|exact H2]. cbn [ks_go ks_log].
    cbn [lstep] in El. destruct (l_commit (ks_log y)); [|discriminate El]. cbn [mbind option_bind] in El. destruct (state_page _ _ _); [|discriminate El]. cbn [mbind option_bind] in El. injection El as <-. exact H1.
  - cbn [kstep] in E. destruct (ks_commit y) as [[| | |]|]; try discriminate E. injection E as <-. split; assumption.
  - cbn [kstep] in E. destruct (log_load _ _ _) as [[[h t] ops]|]; [|discriminate E]. cbn [mbind option_bind] in E. destruct (lstep _ _ _) as [log|] eqn:El; [|discriminate E]. cbn [mbind option_bind] in E.
    apply open_fields in E as (E1 & E2 & _). split; [|rewrite E2; constructor]. rewrite E1. cbn [lstep] in El. unfold log_open in El.
    destruct (log_load _ _ _) as [[[h' t'] ops']|]; [|discriminate El]. cbn [mbind option_bind] in El. injection El as <-. cbn [l_hist]. apply Forall_take, H1.
Qed.
Lemma format_hi c d logd y0 : kv_format c d logd = Some y0 -> HI c y0.
Proof.
  unfold kv_format. destruct (log_format _ _) as [log|] eqn:El; [|discriminate]. cbn [mbind option_bind]. intros E. apply open_fields in E as (E1 & E2 & _).
  split; [|rewrite E2; constructor]. rewrite E1. unfold log_format, log_open in El. destruct (log_load _ _ _) as [[[h t] ops]|]; [|discriminate El]. cbn [mbind option_bind] in El. injection El as <-. constructor.
Qed.
Lemma reach_hi c y0 y : HI c y0 -> kreach c y0 y -> HI c y.
Proof. intros H0 Hr. induction Hr as [|y e y' Hr IH Hv E _]; [exact H0|]. eapply step_hi; eassumption. Qed.
Lemma calm_hi c y0 y : HI c y0 -> kcalm c y0 y -> HI c y.
Proof.
  intros H0 Hr. induction Hr as [|y y' Hr E _ _|y e y' Hr IH Hv _ E _]; [exact H0| |]; (eapply step_hi; [|exact E]); [eapply reach_hi; eassumption|exact IH].
Qed.

Lemma calm_last c y : SI (NL:=True) c y -> HI c y -> no_early_overwrite c y -> heap_last y.
Proof.
  intros H [H1 _] Hn n k s o Hr En j t Hj Ej Hk. pose proof (b_tv _ _ (s_b _ _ H)) as Htv.
  destruct (Forall2_lookup_l _ _ _ _ _ Htv En) as ([raw v] & Ev & T1 & _ & T2). destruct (Forall2_lookup_l _ _ _ _ _ Htv Ej) as ([raw' w] & Ew & T1' & _).
  cbn [fst snd task_key] in *. destruct v as [v|]; [|contradiction]. rewrite Forall_lookup in H1. pose proof (H1 _ _ En) as Hb. cbn in Hb.
  apply (Hn n j raw v raw' w); [lia|lia|exact Ev|lia|exact Ew|]. rewrite <- T1, <- T1'. exact Hk.
Qed.
Lemma calm_si c d logd y0 y : good_kconf c -> kv_format c d logd = Some y0 -> kcalm c y0 y -> ks_lost y = [] -> SI (NL:=True) c y.
Proof.
  intros Hc H0 Hr. induction Hr as [|y y' Hr E Hh Hm|y e y' Hr IH Hv Hne E Hcm]; intros Hl.
  - apply (format_si c d logd y0 Hc H0).
  - assert (ks_lost y = []) as Hl' by (eapply kstep_lost; eassumption). pose proof (kreach_si c d logd y0 y Hc H0 Hr Hl') as H.
    destruct (crash_spec c y Hc H Hm) as (y2 & E2 & _ & _ & _ & _ & _ & Hs). rewrite E in E2. injection E2 as <-. apply Hs, Hh.
  - assert (ks_lost y = []) as Hl' by (eapply kstep_lost; eassumption). specialize (IH Hl'). eapply kstep_si; try eassumption; [contradiction|].
    intros -> _. apply (calm_last c); [exact IH|eapply calm_hi; [eapply format_hi; exact H0|exact Hr]|apply Hcm; reflexivity].
Qed.

(** The operation behind the latest value of a key of the index. *)
Lemma latest_raw c ops k v : latest (okeyed c ops) k = Some v -> exists raw, kc_key c raw = k /\ latest ops raw = Some v.
Proof.
  induction ops as [|[raw w] ops IH] using rev_ind; [discriminate|]. unfold okeyed. rewrite fmap_app. cbn [fmap list_fmap fst snd]. rewrite latest_snoc. fold (okeyed c ops).
  case_bool_decide as Hk.
  - intros ->. exists raw. split; [exact Hk|]. rewrite latest_snoc, bool_decide_true by reflexivity. reflexivity.
  - intros E. destruct (IH E) as (raw' & Ek & El). exists raw'. split; [exact Ek|]. rewrite latest_snoc, bool_decide_false; [exact El|]. intros ->. contradiction.
Qed.

(** Once everything is committed, the space in use is that of current values,
    one for each of some distinct keys; and the free pages are exactly those a
    store freshly opened from the device would have. *)
Theorem C47_space_of_superseded_values_is_free_partial c d logd y0 y :
  good_kconf c -> kv_format c d logd = Some y0 -> kcalm c y0 y -> ks_lost y = [] -> at_rest y ->
  (exists objs, NoDup (fst <$> objs) /\ (forall raw v, (raw, v) ∈ objs -> latest (ks_vals y) raw = Some v) /\
     free_space (ks_alloc y) + space_of c objs = kc_heap c) /\
  (forall log ops vals lost y', kv_open c (ks_dev y) log ops vals lost = Some y' -> ka_free (ks_alloc y') = ka_free (ks_alloc y)).
Proof.
  intros Hc H0 Hr Hl (R1 & R2 & R3). pose proof (calm_si c d logd y0 y Hc H0 Hr Hl) as H. pose proof (s_b _ _ H) as HB. destruct (s_own _ _ H) as (live & total & HK & Ho).
  pose proof (lens c y H) as [Elen [Hn1 Hn2]]. assert (applied y = length (ks_vals y)) as Eap by lia.
  assert (forall e, e ∈ live <-> exists k, ext_of (dpg c y k) = Some e) as Hlive.
  { intros e. split.
    - intros He. destruct (own_cov _ _ Ho I e He) as [t Et]. destruct t as [k|k|n|i]; cbn [ow] in Et.
      + exists k. rewrite eff_nil in Et by (unfold ready_of; rewrite R1; reflexivity). exact Et.
      + unfold pcom in Et. rewrite R1 in Et. discriminate Et.
      + destruct (Nat.leb_spec (l_ncommit (ks_log y)) n) as [Hge|]; [|discriminate Et]. rewrite lookup_ge_None_2 in Et by (unfold hist in Elen; lia). discriminate Et.
      + rewrite R2 in Et. discriminate Et.
    - intros [k Ek]. apply (proj1 Ho (OKey k)). cbn [ow]. rewrite eff_nil by (unfold ready_of; rewrite R1; reflexivity). exact Ek. }
  pose proof (live_nodup c _ _ _ Hc HK) as Hnd. split.
  - assert (forall e, e ∈ live -> exists o : list N * list N, latest (ks_vals y) (fst o) = Some (snd o) /\ snd e = N.of_nat (length (snd o)) /\ ext_of (dpg c y (kc_key c (fst o))) = Some e) as Hobj.
    { intros e He. apply Hlive in He as [k Ek]. pose proof (b_vpage _ _ HB k) as Hv. rewrite (b_unc _ _ HB), R3, Eap, slice_nil in Hv.
      pose proof (b_stage _ _ HB) as Hst. unfold stage_ok in Hst. rewrite R1 in Hst. destruct Hst as [Ecm _]. rewrite Ecm in Hv. specialize (Hv eq_refl ltac:(discriminate)).
      rewrite eff_nil in Hv by (unfold ready_of; rewrite R1; reflexivity). destruct (dpg c y k) as [[i|s o]|] eqn:Ed; try discriminate Ek. cbn in Ek. injection Ek as <-.
      destruct (latest _ k) as [v|] eqn:Elt; [|contradiction]. cbn [shows] in Hv. unfold upto in Elt. rewrite take_ge in Elt by (unfold okeyed; rewrite fmap_length; lia).
      destruct (latest_raw c _ k v Elt) as (raw & <- & Er). exists (raw, v). cbn [fst snd]. split; [exact Er|]. split; [apply Hv|]. rewrite Ed. reflexivity. }
    assert (exists objs : list (list N * list N), Forall2 (fun e o => latest (ks_vals y) (fst o) = Some (snd o) /\ snd e = N.of_nat (length (snd o)) /\ ext_of (dpg c y (kc_key c (fst o))) = Some e) live objs) as [objs F].
    { clear -Hobj. induction live as [|e live IH]; [exists []; constructor|]. destruct (Hobj e ltac:(left)) as [o Hoo]. destruct IH as [objs F]; [intros e' He'; apply Hobj; right; exact He'|].
      exists (o :: objs). constructor; assumption. }
    exists objs. split; [|split].
    + apply NoDup_alt. intros i j raw Ei Ej. rewrite list_lookup_fmap in Ei, Ej. destruct (objs !! i) as [oi|] eqn:Oi; [|discriminate Ei]. destruct (objs !! j) as [oj|] eqn:Oj; [|discriminate Ej].
      cbn in Ei, Ej. injection Ei as Ei. injection Ej as Ej. destruct (Forall2_lookup_r _ _ _ _ _ F Oi) as (ei & Li & _ & _ & Xi). destruct (Forall2_lookup_r _ _ _ _ _ F Oj) as (ej & Lj & _ & _ & Xj).
      rewrite Ei in Xi. rewrite Ej in Xj. rewrite Xi in Xj. injection Xj as <-. eapply (proj1 (NoDup_alt _) Hnd); eassumption.
    + intros raw v Hin. apply elem_of_list_lookup in Hin as [i Oi]. destruct (Forall2_lookup_r _ _ _ _ _ F Oi) as (ei & _ & X & _). exact X.
    + pose proof (good_spage c Hc) as ([Hs1 _] & H63 & _). rewrite <- (ki_total _ _ _ _ Hs1 H63 _ _ _ HK). f_equal.
      clear -F. induction F as [|e o live objs (_ & Es & _) F IH]; [reflexivity|]. cbn [space_of foldr held_bytes]. fold (space_of c objs). rewrite IH, Es. reflexivity.
  - intros log ops vals lost y' Eo. destruct (open_spec c (ks_dev y) log ops vals lost Hc) as (a & live' & total' & Eo' & HK' & Hlive').
    + apply HB.
    + intros k e He. eapply (s_placed _ _ H k). left. exact He.
    + intros k k' e e' Hne He He'. eapply (s_disj _ _ H k k'); [exact Hne|left; exact He|left; exact He'].
    + rewrite Eo in Eo'. injection Eo' as ->. cbn [ks_alloc]. eapply ki_canonical; [exact HK'|exact HK|]. apply NoDup_Permutation; [eapply live_nodup; eassumption|exact Hnd|].
      intros e. rewrite Hlive', Hlive. reflexivity.
Qed.

(** ** A concrete case. *)
Definition earlyb (c : kconf) (y : kstate) (i j : nat) : bool :=
  match ks_vals y !! i, ks_vals y !! j with
  | Some (raw, Some v), Some (raw', _) => (N.of_nat (length v) <=? kc_thr c) || negb (bool_decide (kc_key c raw' = kc_key c raw))
  | _, _ => true
  end.
Definition quietb (c : kconf) (y : kstate) : bool :=
  let is := seq (l_ncommit (ks_log y)) (applied y - l_ncommit (ks_log y)) in
  forallb (fun i => forallb (fun j => negb (i <? j)%nat || earlyb c y i j) is) is.
Lemma quietb_ok c y : quietb c y = true -> no_early_overwrite c y.
Proof.
  unfold quietb, no_early_overwrite. cbv zeta. intros H i j raw v raw' w Hij Hj Ei Hb Ej.
  rewrite forallb_forall in H. assert (In i (seq (l_ncommit (ks_log y)) (applied y - l_ncommit (ks_log y)))) as Hi by (apply in_seq; lia).
  specialize (H i Hi). rewrite forallb_forall in H. assert (In j (seq (l_ncommit (ks_log y)) (applied y - l_ncommit (ks_log y)))) as Hjj by (apply in_seq; lia).
  specialize (H j Hjj). destruct (Nat.ltb_spec i j) as [_|]; [|lia]. cbn [negb orb] in H. unfold earlyb in H. rewrite Ei, Ej in H.
  destruct (N.leb_spec (N.of_nat (length v)) (kc_thr c)); [lia|]. cbn [orb] in H. apply negb_true_iff, bool_decide_eq_false in H. exact H.
Qed.
Definition is_crash (e : kevent) : bool := match e with KCrash => true | _ => false end.
Definition is_start (e : kevent) : bool := match e with KCommitStart => true | _ => false end.
Fixpoint calmrun (c : kconf) (y : kstate) (es : list kevent) : option kstate :=
  match es with
  | [] => Some y
  | e :: es => if is_crash e || (is_start e && negb (quietb c y)) then None else y' ← kstep c y e; calmrun c y' es
  end.
Lemma calmrun_ok c y0 es : Forall (valid_kevent c) es -> forall y y', kcalm c y0 y -> calmrun c y es = Some y' -> kcalm c y0 y'.
Proof.
  induction 1 as [|e es Hv F IH]; intros y y' Hc E; cbn [calmrun] in E; [injection E as <-; exact Hc|].
  destruct (is_crash e) eqn:E1; [discriminate E|]. cbn [orb] in E. destruct (is_start e && negb (quietb c y)) eqn:E2; [discriminate E|].
  destruct (kstep c y e) as [y1|] eqn:E3; [|discriminate E]. cbn [mbind option_bind] in E. eapply IH; [|exact E].
  eapply kc_step; [exact Hc|exact Hv|intros ->; discriminate E1|exact E3|]. intros ->. cbn [is_start andb] in E2. apply quietb_ok. destruct (quietb c y); [reflexivity|discriminate E2].
Qed.
(** A large value is written and committed, then superseded by another one and
    committed, then a third key is written and deleted. *)
Definition kx_space : list kevent :=
  kx_heap [1] kx_a ++ kx_take [(KLit [1], Some (DHeap 200 4096))] [] ++ kx_page [(KLit [1], DHeap 200 4096)] ++ kx_end ++
  kx_heap [1] kx_b ++ kx_take [(KLit [1], Some (DHeap 200 4608))] [] ++ kx_page [(KLit [1], DHeap 200 4608)] ++ kx_end ++
  kx_heap [3] kx_a ++ kx_take [(KLit [3], Some (DHeap 200 4096))] [] ++ kx_page [(KLit [1], DHeap 200 4608); (KLit [3], DHeap 200 4096)] ++ kx_end ++
  kx_del [3] ++ kx_take [(KLit [3], None)] [] ++ kx_page [(KLit [1], DHeap 200 4608)] ++ kx_end.
Theorem C47_example : good_kconf kx_conf /\ exists y0 y, kv_format kx_conf (fun _ => 0) (fun _ => 0) = Some y0 /\ kcalm kx_conf y0 y /\ ks_lost y = [] /\ at_rest y /\
  ks_vals y = [([1], Some kx_a); ([1], Some kx_b); ([3], Some kx_a); ([3], None)] /\
  free_space (ks_alloc y) + space_of kx_conf [([1], kx_b)] = kc_heap kx_conf /\ 0 < space_of kx_conf [([1], kx_b)] /\
  exists y', kv_open kx_conf (ks_dev y) (ks_log y) [] [] [] = Some y'.
Proof.
  split; [exact kx_good|].
  assert (match (y0 ← kv_format kx_conf (fun _ => 0) (fun _ => 0); calmrun kx_conf y0 kx_space) with Some y =>
    bool_decide (ks_lost y = []) && match ks_commit y with None => true | _ => false end && match ks_writes y with [] => true | _ => false end && (l_ncommit (ks_log y) =? length (ks_vals y))%nat &&
    bool_decide (ks_vals y = [([1], Some kx_a); ([1], Some kx_b); ([3], Some kx_a); ([3], None)]) &&
    (free_space (ks_alloc y) + space_of kx_conf [([1], kx_b)] =? kc_heap kx_conf) && match kv_open kx_conf (ks_dev y) (ks_log y) [] [] [] with Some _ => true | None => false end | None => false end = true) as H by (vm_compute; reflexivity).
  destruct (kv_format kx_conf (fun _ => 0) (fun _ => 0)) as [y0|]; [|discriminate H]. cbn [mbind option_bind] in H.
  destruct (calmrun kx_conf y0 kx_space) as [y|] eqn:E; [|discriminate H]. exists y0, y. kx_split H.
  destruct (ks_commit y) eqn:Ec; [discriminate|]. destruct (ks_writes y) eqn:Ew; [|discriminate]. destruct (kv_open kx_conf (ks_dev y) (ks_log y) [] [] []) as [y'|] eqn:Eo; [|discriminate].
  split; [reflexivity|]. split; [eapply calmrun_ok; [|apply kc_init|exact E]; kx_valid|]. kx_facts.
  repeat match goal with G : (_ =? _) = true |- _ => apply N.eqb_eq in G end.
  split; [assumption|]. split; [split; [exact Ec|split; [exact Ew|assumption]]|]. split; [assumption|]. split; [assumption|]. split; [reflexivity|]. exists y'. reflexivity.
Qed.
Print Assumptions C47_space_of_superseded_values_is_free_partial.
Print Assumptions C47_example.
