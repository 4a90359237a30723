(** Property C27: the counters of a direct partition that has just been opened. *)
From Coq Require Import ZifyBool ZifyNat ZifyN.
From stdpp Require Import base numbers list_numbers option gmap sets functions list.
From Verif Require Import Util Bytes BuddyModel BuddySpec PageIOModel TuplesModel TuplesSpec.
From Verif Require Import DirectModel DirectBase DirectSpec DirectSeqSpec DirectSpaceSpec DirectRestartSpec DirectRestart DirectRestart4 DirectMetricsSpec DirectLoadModel DirectSys DirectDrive DirectSteps DirectInv DirectTup DirectAlive DirectMetrics PropertiesDirectSpace PropertiesMetrics PropertiesRestart.
Open Scope N_scope.
Ltac Zify.zify_post_hook ::= idtac.

(** Every record kept is in a map, or was replaced by one with the same key. *)
Record ByteInv (h : shared) : Prop := {
  bi_own : exists dropped, existing h ++ dropped ≡ₚ seq 0 (length (h_objs h)) /\ (dropped = [] \/ duplicate_keys h);
  bi_com : forall k r, h_com h !! k = Some r -> exists ob, h_objs h !! r = Some ob /\ b_state ob = ds_committed /\ m_key (b_meta ob) = k;
  bi_inc0 : mt_incomplete (h_met h) = 0%Z;
  bi_com0 : mt_committed (h_met h) = 0%Z;
  bi_data : mt_data_bytes (h_met h) = zsum (fun ob => Z.of_N (m_size (b_meta ob))) (h_objs h);
  bi_meta : mt_meta_bytes (h_met h) = zsum (fun ob => Z.of_N (b_msize ob)) (h_objs h) }.

Lemma weight_all f h : zsum (weight f h) (seq 0 (length (h_objs h))) = zsum (fun ob => Z.of_N (f ob)) (h_objs h).
Proof.
  assert (G : forall l k, (forall i, h_objs h !! (k + i)%nat = l !! i) ->
    zsum (weight f h) (seq k (length l)) = zsum (fun ob => Z.of_N (f ob)) l).
  { induction l as [|ob l IH]; intros k H; [reflexivity|]. cbn [length seq zsum].
    rewrite (IH (S k)).
    - unfold weight. specialize (H 0%nat). rewrite Nat.add_0_r in H. rewrite H. reflexivity.
    - intros i. specialize (H (S i)). replace (S k + i)%nat with (k + S i)%nat by lia. exact H. }
  apply G. reflexivity.
Qed.

Lemma vals_insert {K} `{Countable K} (m : gmap K nat) k r : m !! k = None -> (map_to_list (<[k:=r]> m)).*2 ≡ₚ r :: (map_to_list m).*2.
Proof. intros H'. rewrite map_to_list_insert by exact H'. reflexivity. Qed.
Lemma vals_replace {K} `{Countable K} (m : gmap K nat) k r r' : m !! k = Some r' ->
  (map_to_list (<[k:=r]> m)).*2 ++ [r'] ≡ₚ r :: (map_to_list m).*2.
Proof.
  intros H'. rewrite <- (insert_delete m k r' H') at 2. rewrite <- insert_delete_insert.
  rewrite !vals_insert by apply lookup_delete. cbn [app]. apply Permutation_skip. rewrite Permutation_app_comm. reflexivity.
Qed.

Lemma load_keep_met c h ob h' : load_keep c h ob = Some h' ->
  h_objs h' = h_objs h /\ h_com h' = h_com h /\ h_inc h' = h_inc h /\ h_met h' = met_add (h_met h) (met_loaded (b_msize ob) (m_size (b_meta ob))).
Proof.
  unfold load_keep. destruct (data_pages c (b_meta ob)) as [dp|]; cbn [mbind option_bind]; [|discriminate].
  destruct (mark_all _ _); [|discriminate..]. intros H. injection H as <-. cbn. auto.
Qed.

Lemma dup_app h ob x : duplicate_keys h -> h_objs x = h_objs h ++ [ob] -> duplicate_keys x.
Proof.
  intros (i & j & o & o' & Hij & Hi & Hj & H) E. exists i, j, o, o'. rewrite E.
  split; [exact Hij|]. split; [now apply lookup_app_l_Some|]. split; [now apply lookup_app_l_Some|exact H].
Qed.

Lemma load1_inv c h t h' : ByteInv h -> load1 c h t = Some h' -> ByteInv h'.
Proof.
  intros [(dr & Hp & Hd) Hc Hi0 Hc0 Hda Hme] H. unfold load1 in H.
  destruct (meta_decode _) as [[m msize]|]; cbn [mbind option_bind] in H; [|discriminate].
  set (ob := {| b_id := t_id t; b_state := t_state t; b_readers := 0; b_meta := m; b_msize := msize; b_mpage := (t_off t, t_pow2 t) |}) in *.
  assert (Hseq : seq 0 (length (h_objs h ++ [ob])) = seq 0 (length (h_objs h)) ++ [length (h_objs h)]).
  { rewrite app_length. cbn [length]. rewrite Nat.add_1_r, seq_S. reflexivity. }
  assert (Hcom : forall k r, h_com h !! k = Some r -> exists o, (h_objs h ++ [ob]) !! r = Some o /\ b_state o = ds_committed /\ m_key (b_meta o) = k).
  { intros k r Hk. destruct (Hc k r Hk) as (o & Ho & Hx). exists o. split; [now apply lookup_app_l_Some|exact Hx]. }
  assert (Hnew : (h_objs h ++ [ob]) !! length (h_objs h) = Some ob) by (apply list_lookup_middle; reflexivity).
  destruct (t_state t =? ds_incomplete) eqn:Es.
  - destruct (h_inc h !! t_id t) eqn:Ei; [discriminate|]. apply load_keep_met in H as (E1 & E2 & E3 & E4).
    unfold load_add in *. cbn [h_objs h_com h_inc h_met set_inc set_objs] in *.
    constructor; rewrite ?E4; cbn [mt_incomplete mt_committed mt_data_bytes mt_meta_bytes met_add met_loaded]; try lia.
    + exists dr. split.
      * rewrite E1, Hseq. unfold existing. rewrite E2, E3, vals_insert by exact Ei.
        rewrite <- Hp. unfold existing. cbn [app]. rewrite (Permutation_app_comm _ [_]). cbn [app]. reflexivity.
      * destruct Hd as [Hd|Hd]; [now left|right]. eapply dup_app; [exact Hd|exact E1].
    + intros k r. rewrite E2, E1. apply Hcom.
    + rewrite E1, zsum_app. cbn [zsum]. subst ob. cbn [b_meta]. lia.
    + rewrite E1, zsum_app. cbn [zsum]. subst ob. cbn [b_msize]. lia.
  - destruct (t_state t =? ds_committed) eqn:Es2; [|discriminate]. apply N.eqb_eq in Es2.
    assert (Hnc : forall hh, h_com hh = <[m_key m:=length (h_objs h)]> (h_com h) -> h_objs hh = h_objs h ++ [ob] ->
      forall k r, h_com hh !! k = Some r -> exists o, h_objs hh !! r = Some o /\ b_state o = ds_committed /\ m_key (b_meta o) = k).
    { intros hh Ec Eo k r. rewrite Ec, Eo, lookup_insert_Some. intros [[<- <-]|[_ Hk]]; [|now apply Hcom].
      exists ob. split; [exact Hnew|]. subst ob. cbn. auto. }
    destruct (h_com h !! m_key m) as [r'|] eqn:Ek.
    + destruct (h_objs h !! r') as [ob'|] eqn:Er; cbn [mbind option_bind] in H; [|discriminate].
      destruct (b_id ob' =? t_id t); [discriminate|]. destruct (t_id t <? b_id ob').
      { injection H as <-. constructor; auto. exists dr. auto. }
      apply load_keep_met in H as (E1 & E2 & E3 & E4).
      unfold load_add in *. cbn [h_objs h_com h_inc h_met set_com set_objs] in *.
      constructor; rewrite ?E4; cbn [mt_incomplete mt_committed mt_data_bytes mt_meta_bytes met_add met_loaded]; try lia.
      * exists (r' :: dr). split.
        -- rewrite E1, Hseq. unfold existing. rewrite E2, E3. rewrite <- Hp. unfold existing.
           rewrite <- !app_assoc. etransitivity.
           { apply Permutation_app_head. change (r' :: dr) with ([r'] ++ dr). rewrite app_assoc. apply Permutation_app_tail, vals_replace. exact Ek. }
           cbn [app]. rewrite <- Permutation_middle. rewrite (app_assoc _ dr). rewrite (app_assoc _ _ [_]).
           rewrite (Permutation_app_comm _ [_]). reflexivity.
        -- right. destruct (Hc _ _ Ek) as (o & Ho & Hs & Hk). exists r', (length (h_objs h)), o, ob. rewrite E1.
           split; [apply lookup_lt_Some in Er; lia|]. split; [now apply lookup_app_l_Some|]. split; [exact Hnew|].
           split; [exact Hs|]. split; [subst ob; exact Es2|exact Hk].
      * apply Hnc; assumption.
      * rewrite E1, zsum_app. cbn [zsum]. subst ob. cbn [b_meta]. lia.
      * rewrite E1, zsum_app. cbn [zsum]. subst ob. cbn [b_msize]. lia.
    + apply load_keep_met in H as (E1 & E2 & E3 & E4).
      unfold load_add in *. cbn [h_objs h_com h_inc h_met set_com set_objs] in *.
      constructor; rewrite ?E4; cbn [mt_incomplete mt_committed mt_data_bytes mt_meta_bytes met_add met_loaded]; try lia.
      * exists dr. split.
        -- rewrite E1, Hseq. unfold existing. rewrite E2, E3, vals_insert by exact Ek.
           rewrite <- Hp. unfold existing. rewrite <- Permutation_middle. cbn [app]. rewrite (Permutation_app_comm _ [_]). cbn [app]. reflexivity.
        -- destruct Hd as [Hd|Hd]; [now left|right]. eapply dup_app; [exact Hd|exact E1].
      * apply Hnc; assumption.
      * rewrite E1, zsum_app. cbn [zsum]. subst ob. cbn [b_meta]. lia.
      * rewrite E1, zsum_app. cbn [zsum]. subst ob. cbn [b_msize]. lia.
Qed.
Lemma load_all_inv c l h h' : ByteInv h -> load_all c h l = Some h' -> ByteInv h'.
Proof.
  revert h. induction l as [|t l IH]; intros h Hi H; cbn [load_all] in H; [now injection H as <-|].
  destruct (load1 c h t) eqn:E; cbn [mbind option_bind] in H; [|discriminate]. eapply IH; [|exact H]. eapply load1_inv; eassumption.
Qed.

Lemma opening_inv c y y' : reopened c y y' -> exists h, ByteInv h /\ y' = {| y_sh := bump h (met_counts h); y_procs := [] |}.
Proof.
  intros (init & t & order & _ & Ho). unfold opening in Ho. destruct (allocator_new _ _ _ _ _ _) as [a| |]; [|discriminate..].
  destruct (load_all _ _ _) as [h|] eqn:E; cbn [mbind option_bind] in Ho; [|discriminate]. injection Ho as <-.
  exists h. split; [|reflexivity]. eapply load_all_inv; [|exact E].
  constructor; try reflexivity; [|intros k r; cbn; rewrite lookup_empty; discriminate].
  exists []. split; [|now left]. unfold existing. cbn. rewrite !map_to_list_empty. reflexivity.
Qed.
Lemma opening_lt c y y' : reopened c y y' -> y_procs y' = [] /\ forall r, r ∈ existing (y_sh y') -> (r < length (h_objs (y_sh y')))%nat.
Proof.
  intros Hr. destruct (opening_inv _ _ _ Hr) as (h & [(dr & Hp & _) _ _ _ _ _] & ->). split; [reflexivity|]. cbn [y_sh].
  change (existing (bump h (met_counts h))) with (existing h). change (h_objs (bump h (met_counts h))) with (h_objs h).
  intros r Hin. assert (Hin2 : r ∈ seq 0 (length (h_objs h))) by (rewrite <- Hp; apply elem_of_app; now left).
  apply elem_of_list_In, in_seq in Hin2. lia.
Qed.

(** Full property: as in PropertiesMetrics.v.  When a partition has been opened,
    the numbers of uploads and objects are right, whatever the earlier sessions
    and crashes; the bytes are never too low, and are right unless the device
    held two committed objects with one key (a crash during a replacement). *)
Theorem C27_counters_after_opening_partial : forall c y y', reopened c y y' ->
  mt_incomplete (h_met (y_sh y')) = Z.of_nat (size (h_inc (y_sh y'))) /\
  mt_committed (h_met (y_sh y')) = Z.of_nat (size (h_com (y_sh y'))) /\
  (total_of (fun ob => m_size (b_meta ob)) (y_sh y') <= mt_data_bytes (h_met (y_sh y')))%Z /\
  (total_of b_msize (y_sh y') <= mt_meta_bytes (h_met (y_sh y')))%Z /\
  (~ duplicate_keys (y_sh y') ->
    mt_data_bytes (h_met (y_sh y')) = total_of (fun ob => m_size (b_meta ob)) (y_sh y') /\
    mt_meta_bytes (h_met (y_sh y')) = total_of b_msize (y_sh y')).
Proof.
  intros c y y' Hr. destruct (opening_inv _ _ _ Hr) as (h & [(dr & Hp & Hd) _ Hi0 Hc0 Hda Hme] & ->).
  rewrite !total_weight. cbn [y_sh]. change (existing (bump h (met_counts h))) with (existing h).
  change (weight ?f (bump h (met_counts h))) with (weight f h). change (duplicate_keys (bump h (met_counts h))) with (duplicate_keys h).
  cbn [h_inc h_com h_met bump met_add met_counts mt_incomplete mt_committed mt_data_bytes mt_meta_bytes].
  rewrite Hi0, Hc0, Hda, Hme. change (zsum (fun ob => Z.of_N (m_size (b_meta ob))) (h_objs h)) with (zsum (fun ob => Z.of_N ((fun ob => m_size (b_meta ob)) ob)) (h_objs h)).
  rewrite <- !weight_all. rewrite <- !(zsum_perm _ _ _ Hp). rewrite !zsum_app.
  assert (Hn : forall f, (0 <= zsum (weight f h) dr)%Z).
  { intros f. apply zsum_nonneg. intros r. unfold weight. destruct (h_objs h !! r); lia. }
  pose proof (Hn (fun ob => m_size (b_meta ob))). pose proof (Hn b_msize).
  split; [lia|]. split; [lia|]. split; [lia|]. split; [lia|]. intros Hnd. destruct Hd as [->|Hd]; [|contradiction]. cbn [zsum]. lia.
Qed.
Print Assumptions C27_counters_after_opening_partial.

(** ** Sessions *)
Lemma existing_owners h : met_owners h [] = existing h.
Proof. unfold met_owners, existing, vals. cbn [mbind list_bind]. now rewrite app_nil_r. Qed.
Lemma opening_M c y y' : reopened c y y' -> ~ duplicate_keys (y_sh y') -> MInv (y_sh y') (y_procs y').
Proof.
  intros Hr Hd. pose proof (C27_counters_after_opening_partial c y y' Hr) as (H1 & H2 & _ & _ & H5). destruct (H5 Hd) as [H6 H7].
  pose proof (opening_lt _ _ _ Hr) as [Hp Hlt]. rewrite Hp. constructor.
  - rewrite H1, vals_size. cbn [zsum]. lia.
  - rewrite H2, vals_size. cbn [zsum]. lia.
  - rewrite existing_owners, <- total_weight. exact H7.
  - rewrite existing_owners, <- total_weight. exact H6.
  - rewrite existing_owners. exact Hlt.
Qed.
Lemma M_steps_from c y z ls y' : cfg_ok c -> good_session c ls -> Alive c y z [] -> MInv (y_sh y) (y_procs y) -> dsteps c y ls y' -> MInv (y_sh y') (y_procs y').
Proof.
  intros Hc [Hv Hb Hn] HA HM Hs. induction Hs as [y|y ls y1 l y2 Hs IH St]; [exact HM|].
  assert (Hv1 : valid_calls (dc_lpage c) ls) by (intros i op Hin; apply (Hv i), elem_of_app; now left).
  assert (Hb1 : byte_keys ls) by (intros i key size Hin; apply (Hb i key size), elem_of_app; now left).
  assert (Hn1 : no_panics ls) by (intros i Hin; apply (Hn i), elem_of_app; now left).
  destruct (alive_steps c y ls y1 _ Hc Hv1 Hb1 Hn1 HA Hs) as (_ & z1 & lk1 & _ & _ & [[(qs & sp & _ & _ & HS & _)] _ _ _] & _).
  specialize (IH Hv1 Hb1 Hn1 HA HM). rename IH into HM1.
  destruct St as [y1 op|y1 i p o h' p' v Hi Hid Hlt Htm Hst|y1 i p addr len f Hi Hin|y1 t' Ht]; cbn [y_sh y_procs].
  - eapply MInv_perm; [apply Permutation_cons_append|]. now apply MInv_new.
  - pose proof (delete_Permutation _ i _ Hi) as Hpm. apply pstep_R in Hst.
    eapply MInv_perm; [symmetry; eapply insert_perm, Hi|].
    eapply M_step; [eapply SInv_perm; eassumption|eapply MInv_perm; eassumption| |exact Hst].
    destruct v as [[[]| |]|]; try reflexivity. exfalso. apply (Hn i). apply elem_of_app. right. constructor.
  - destruct HM1 as [M1 M2 M3 M4 M5]. constructor; assumption.
  - destruct HM1 as [M1 M2 M3 M4 M5]. constructor; assumption.
Qed.
Lemma M_sessions c pages y0 hs y : cfg_ok c -> fresh_partition c pages y0 -> sessions c y0 hs y -> Forall (good_session c) hs ->
  Forall settled_history (removelast hs) -> MInv (y_sh y) (y_procs y).
Proof.
  intros Hc HF Hs. induction Hs as [y ls y' Hs|y hs y1 y2 ls y3 Hs IH Hex Hr Hd]; intros Hg Hset.
  - apply Forall_singleton in Hg as [G1 G2 G3]. now destruct (M_steps c pages y ls y' Hc HF Hs G1 G3).
  - apply Forall_app in Hg as [Hg Hg1]. rewrite Forall_singleton in Hg1. rewrite removelast_last in Hset.
    assert (Hset1 : Forall settled_history (removelast hs)).
    { clear -Hset. destruct hs as [|x hs] using rev_ind; [constructor|]. rewrite removelast_last. now apply Forall_app in Hset. }
    destruct (sessions_refine c pages y hs y1 Hc HF Hs Hg Hset1) as (hs' & z1 & lk1 & _ & _ & HA1 & _ & Hcalm).
    pose proof Hr as (init & t & order & Hld & Hop).
    assert (Hal : alloc_ok c) by (exists (h_alloc (y_sh y)); exact (fp_alloc _ _ _ HF)).
    destruct (restart_alive c y1 z1 lk1 init t order Hc HA1 Hex Hal Hld) as (y2' & S2 & lk2 & R1 & _ & _ & _ & R5 & _ & R6).
    assert (y2' = y2) as -> by congruence.
    assert (Hrm : forall id, ~ removing z1 id) by (intros id; apply calm_removing, Hcalm, Hset).
    eapply (M_steps_from c y2 _ ls y3 Hc Hg1 (R5 Hrm)); [|exact Hd]. eapply opening_M; [exact Hr|exact (R6 Hrm)].
Qed.

(** The statements of PropertiesMetrics.v hold in every session of a partition,
    whatever the crashes, if no commit or deletion was under way at a crash. *)
Theorem C27_counters_right_in_every_session_partial : forall c pages y0 hs y,
  cfg_ok c -> fresh_partition c pages y0 -> sessions c y0 hs y -> Forall (good_session c) hs -> Forall settled_history (removelast hs) ->
  quiescent y ->
  mt_incomplete (h_met (y_sh y)) = Z.of_nat (size (h_inc (y_sh y))) /\
  mt_committed (h_met (y_sh y)) = Z.of_nat (size (h_com (y_sh y))) /\
  mt_data_bytes (h_met (y_sh y)) = total_of (fun ob => m_size (b_meta ob)) (y_sh y) /\
  mt_meta_bytes (h_met (y_sh y)) = total_of b_msize (y_sh y).
Proof. intros c pages y0 hs y Hc Hf Hs Hg Hset Hq. apply MInv_idle; [eapply M_sessions; eassumption|exact Hq]. Qed.
Print Assumptions C27_counters_right_in_every_session_partial.
Theorem C27_counters_off_by_calls_under_way_in_sessions_partial : forall c pages y0 hs y,
  cfg_ok c -> fresh_partition c pages y0 -> sessions c y0 hs y -> Forall (good_session c) hs -> Forall settled_history (removelast hs) ->
  (Z.of_nat (size (h_inc (y_sh y))) <= mt_incomplete (h_met (y_sh y)) <= Z.of_nat (size (h_inc (y_sh y))) + under_way y)%Z /\
  (Z.abs (mt_committed (h_met (y_sh y)) - Z.of_nat (size (h_com (y_sh y)))) <= under_way y)%Z /\
  (total_of (fun ob => m_size (b_meta ob)) (y_sh y) <= mt_data_bytes (h_met (y_sh y)))%Z /\
  (total_of b_msize (y_sh y) <= mt_meta_bytes (h_met (y_sh y)))%Z.
Proof. intros c pages y0 hs y Hc Hf Hs Hg Hset. apply MInv_bounds. eapply M_sessions; eassumption. Qed.
Print Assumptions C27_counters_off_by_calls_under_way_in_sessions_partial.

(** A chain of sessions that ends with an opening: one upload, two objects, one of
    which replaced another. *)
Definition shown (y : dsys) : Z * Z * Z * Z :=
  let h := y_sh y in
  (mt_incomplete (h_met h), mt_committed (h_met h), mt_data_bytes (h_met h), mt_meta_bytes (h_met h)).
Definition no_dup_b (h : shared) : bool :=
  forallb (fun i => forallb (fun j => (i =? j)%nat || match h_objs h !! i, h_objs h !! j with
    | Some ob, Some ob' => negb ((b_state ob =? ds_committed) && (b_state ob' =? ds_committed) && bool_decide (m_key (b_meta ob) = m_key (b_meta ob')))
    | _, _ => true end) (seq 0 (length (h_objs h)))) (seq 0 (length (h_objs h))).
Lemma no_dup_b_ok h : no_dup_b h = true -> ~ duplicate_keys h.
Proof.
  unfold no_dup_b. rewrite forallb_forall. intros H (i & j & o & o' & Hij & Hi & Hj & Hs & Hs' & Hk).
  assert (Li : In i (seq 0 (length (h_objs h)))) by (apply in_seq; apply lookup_lt_Some in Hi; lia).
  assert (Lj : In j (seq 0 (length (h_objs h)))) by (apply in_seq; apply lookup_lt_Some in Hj; lia).
  apply H in Li. rewrite forallb_forall in Li. apply Li in Lj. rewrite Hi, Hj, Hs, Hs', Hk in Lj.
  rewrite bool_decide_eq_true_2 in Lj by reflexivity. apply Nat.eqb_neq in Hij. rewrite Hij in Lj. discriminate Lj.
Qed.
Definition c27_ok_labels : list (list label) := firstn 2 c25_ok_labels.
Theorem C27_opening_example : exists c pages y0 hs y y',
  cfg_ok c /\ fresh_partition c pages y0 /\ sessions c y0 hs y /\ Forall (good_session c) hs /\ visible <$> hs = c27_ok_labels /\
  reopened c y y' /\ ~ duplicate_keys (y_sh y') /\ shown y' = (1, 2, 2006, 35)%Z.
Proof.
  destruct (ex_sessions_show 10 16384 (hd [] c25_ok_run) (take 1 (tl c25_ok_run))
    (fun y => option_map (fun y' => (shown y', no_dup_b (y_sh y'))) (restart_b (ex_cfg 10 16384) y)) c27_ok_labels (Some ((1, 2, 2006, 35)%Z, true))
    ltac:(vm_compute; reflexivity)) as (y0 & y & hs & H1 & H2 & H3 & H4).
  destruct (restart_b (ex_cfg 10 16384) y) as [y'|] eqn:Er; [|discriminate H4]. apply restart_b_ok in Er as [_ Er].
  injection H4 as H4 H5 H6 H7 H8.
  exists (ex_cfg 10 16384), (PropertiesTuples.ex_pages 1), y0, hs, y, y'. split; [constructor; cbn; lia|]. split; [exact H1|]. split; [exact H2|].
  split; [eapply good_b_ok; [exact H3|vm_compute; reflexivity]|]. split; [exact H3|]. split; [exact Er|]. split; [now apply no_dup_b_ok|].
  unfold shown. congruence.
Qed.
Print Assumptions C27_opening_example.

(** A crash during a replacement: both objects are in the index as committed.  If
    the older entry is processed first, its bytes stay counted (objects.rs:150
    replaces the object, 176-184 only add).  The entries of a page are stored in
    the order of a hash map, so either can come first. *)
Definition c27_dup_run : list ev :=
  do_create 0 [97] 10 1 2 ++ do_commit 1 1 50 2
  ++ do_create 2 [97] 20 2 3 ++ [ECall (OCommit 2 false)] ++ steps 3 [60; 60; 60; 60; 3] ++ [EFlush] ++ steps 3 [3].
Definition reopen_rev (c : dcfg) (y : dsys) : option dsys :=
  match load_b c y with Some (init, t) => opening c y t (rev (concat init)) | None => None end.
Theorem C27_bytes_too_high_after_opening_refuted : exists c pages y0 ls y y',
  cfg_ok c /\ fresh_partition c pages y0 /\ dsteps c y0 ls y /\ good_session c ls /\ visible ls = c25_crash_labels /\
  reopened c y y' /\
  mt_committed (h_met (y_sh y')) = 1%Z /\ mt_data_bytes (h_met (y_sh y')) = 30%Z /\ total_of (fun ob => m_size (b_meta ob)) (y_sh y') = 20%Z.
Proof.
  destruct (ex_run_shows 10 16384 c27_dup_run (fun y _ => option_map (fun y' => (mt_committed (h_met (y_sh y')), mt_data_bytes (h_met (y_sh y')),
      total_of (fun ob => m_size (b_meta ob)) (y_sh y'))) (reopen_rev (ex_cfg 10 16384) y)) c25_crash_labels (Some (1, 30, 20)%Z)
    ltac:(vm_compute; reflexivity)) as (y0 & y & ls & H1 & H2 & H3 & H4).
  destruct (reopen_rev (ex_cfg 10 16384) y) as [y'|] eqn:Er; [|discriminate H4].
  exists (ex_cfg 10 16384), (PropertiesTuples.ex_pages 1), y0, ls, y, y'. split; [constructor; cbn; lia|]. split; [exact H1|]. split; [exact H2|].
  split; [apply session_visible; rewrite H3; vm_compute; reflexivity|]. split; [exact H3|]. split.
  - unfold reopen_rev in Er. destruct (load_b _ y) as [[init t]|] eqn:El; [|discriminate]. exists init, t, (rev (concat init)).
    split; [|exact Er]. split; [now apply load_b_ok|]. symmetry. apply Permutation_rev.
  - injection H4 as H4 H5 H6. auto.
Qed.
Print Assumptions C27_bytes_too_high_after_opening_refuted.
