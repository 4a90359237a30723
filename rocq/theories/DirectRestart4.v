(** Opening again, as one step of the partition's history. *)
From Coq Require Import ZifyBool ZifyNat ZifyN.
From stdpp Require Import base numbers list_numbers option gmap sets functions list.
From Verif Require Import Util Bytes BuddyModel BuddySpec BuddyProofs BuddyInv LayoutModel LayoutProofs.
From Verif Require Import PageIOModel PageIOSpec PageIOProofs TuplesModel TuplesSpec TuplesProofs TuplesSys TuplesDurable TuplesLife.
From Verif Require Import DirectModel DirectBase DirectSteps DirectInv DirectTup DirectAlloc DirectDev DirectSpec DirectRel DirectSim DirectSys.
From Verif Require Import DirectMetricsSpec DirectLoadModel DirectCodec DirectRec DirectLog DirectLoad DirectSource DirectSeqSpec DirectAlive DirectOld DirectRestart DirectRestart2 DirectRestart3 DirectRestartSpec.
Open Scope N_scope.
Ltac Zify.zify_post_hook ::= idtac.

Definition alloc_ok (c : dcfg) : Prop := exists a, allocator_new (dc_base c) (dc_heap c) (dc_spage c) (dc_lpage c) (2 ^ 32) DirRight = Ok a.

Lemma calm_removing z id : calm z -> ~ removing z id.
Proof. intros Hc [(tok & new & H)|H]; exact (Hc _ H). Qed.
Lemma calm_crash lpage had z S' : calm z -> crash lpage had z S' -> clean_crash z S'.
Proof.
  intros Hc [C1 C2 C3 C4 _ C5]. constructor; [| exact C1| |exact C5].
  - apply map_eq. intros key. destruct (ss_com (z_state z) !! key) as [co|] eqn:E.
    + destruct (C4 key co E) as [H|[(co' & _ & H & _)|(tok & u & (rep & H) & _)]]; [exact H|exfalso; exact (calm_removing _ _ Hc H)|exfalso; exact (Hc _ H)].
    + destruct (ss_com S' !! key) as [co|] eqn:E'; [|reflexivity]. destruct (C3 key co E') as [H|[H _]]; [congruence|exfalso; exact (calm_removing _ _ Hc H)].
  - intros tok u Hu Hn. destruct (C2 tok u Hu Hn) as [H Hf He|co (rep & H) _ _ _|co H _]; [auto|exfalso; exact (Hc _ H)..].
Qed.
(** Without an unfinished removal no object is being removed. *)
Lemma calm_old c y z lk zz had : Good c y z lk zz -> calm z -> OldInv c (y_sh y) (y_procs y) had.
Proof.
  intros [(qs & sp & Hp1 & Hp2 & HS & HT & HA & HR)] Hc.
  assert (Hno : forall p, p ∈ y_procs y -> vref p = [] /\ victim p = None).
  { intros p Hp. rewrite Hp1 in Hp. apply elem_of_list_fmap in Hp as ([p' s] & -> & Hin). cbn [fst]. pose proof (rl_pcs _ _ _ _ HR _ _ Hin) as Hr.
    assert (Hs : s ∈ z_procs z) by (rewrite Hp2; apply elem_of_list_fmap; exists (p', s); auto). specialize (Hc s Hs).
    destruct p'; try (split; reflexivity); exfalso; cbn [pc_rel] in Hr; try (destruct s; try contradiction; fail);
      destruct c0 as [[]|]; destruct s; contradiction. }
  constructor.
  - intros r Hr. apply elem_of_list_bind in Hr as (p & Hin & Hp). rewrite (proj1 (Hno p Hp)) in Hin. inversion Hin.
  - intros p new r Hp Hv. rewrite (proj2 (Hno p Hp)) in Hv. discriminate.
Qed.

Lemma restart_alive c y z lk init' t' order : cfg_ok c -> Alive c y z lk -> ~ inexact c y -> alloc_ok c -> loadable c y init' t' order ->
  exists y' S' lk', opening c y t' order = Some y' /\
    ((forall had : list N -> cobj -> Prop, (forall key co, ss_com (z_state z) !! key = Some co -> had key co) -> OldInv c (y_sh y) (y_procs y) had -> crash (dc_lpage c) had z S') /\
      (calm z -> clean_crash z S')) /\
    Good c y' {| z_state := S'; z_procs := [] |} lk' true /\ ~ inexact c y' /\
    ((forall id, ~ removing z id) -> Alive c y' {| z_state := S'; z_procs := [] |} []) /\ h_dev (y_sh y') = h_dev (y_sh y) /\
    ((forall id, ~ removing z id) -> ~ duplicate_keys (y_sh y')).
Proof.
  intros Hc [[(qs & sp & Hp1 & Hp2 & HS & HT & HA & HR)] (pages & t0 & init & cs & Ho & HK) HRec HTy] Hex Hal [Ho' Hord].
  destruct (reopen _ _ _ _ _ _ Ho (k_valid _ _ _ _ _ _ HK) (k_fresh _ _ _ _ _ _ HK) (k_runs _ _ _ _ _ _ HK)) as (init2 & t2 & J & Ho2 & HJ & Hack & Hpair).
  destruct (opens_det _ _ _ _ _ _ Ho2 Ho') as [-> ->]. clear Ho2.
  destruct (restart_loads c y lk sp pages t0 init cs Hc HT HA HK HRec HTy Hex Ho (index_of init') J HJ Hack Hpair init' t' Ho' eq_refl order Hord Hal)
    as (es & ss & h' & H1 & H2 & H3 & H4 & H5 & (L & f & H6)).
  set (S1 := S' c y z es h').
  exists {| y_sh := bump h' (met_counts h'); y_procs := [] |}, S1.
  assert (Hfacts : forall e, e ∈ es -> entry_ok c (h_dev (y_sh y)) e /\ ty_meta (snd e) /\ exact_meta c (msize_of (snd e)) /\
    dev_read (h_dev (y_sh y)) (t_off (fst e)) (msize_of (snd e)) = meta_encode (snd e)).
  { intros e He. eapply (es_facts c y lk cs); eassumption. }
  assert (Hes : es.*1 ≡ₚ concat init') by now rewrite H1.
  assert (Hcr : forall had : list N -> cobj -> Prop, (forall key co, ss_com (z_state z) !! key = Some co -> had key co) -> OldInv c (y_sh y) (y_procs y) had ->
    crash (dc_lpage c) had z S1) by (intros had Hcur HO; eapply (found_crash c y z qs); try eassumption; try reflexivity).
  assert (Hcc : calm z -> clean_crash z S1).
  { intros Hcalm. eapply (calm_crash (dc_lpage c) (fun _ _ => True)); [exact Hcalm|]. apply Hcr; [auto|]. apply (calm_old c y z lk false); [|exact Hcalm].
    constructor. exists qs, sp. split; [exact Hp1|]. split; [exact Hp2|]. split; [exact HS|]. split; [exact HT|]. split; [exact HA|exact HR]. }
  destruct (opened_good c (h_dev (y_sh y)) t' (h_used (y_sh y)) h' es init' (sy_disk (h_tup (y_sh y))) (h_alloc (y_sh y)) L f Hc H5 H2) with (S := S1) as (lk' & G1 & G2 & _).
  - intros e He. now apply Hfacts.
  - intros e He. now apply Hfacts.
  - intros e He. now apply Hfacts.
  - intros e He. now apply Hfacts.
  - exact H6.
  - intros e He. eapply (es_used c y t0 init cs HK (index_of init') J HJ t' init' order es Ho' eq_refl Hord H1); eassumption.
  - exact Ho'.
  - exact Hes.
  - intros tok r E. eapply (found_up c y z qs); try eassumption; try reflexivity.
  - intros tok x E. unfold S1 in E. rewrite S'_up in E. destruct (h_inc h' !! tok) as [r|]; [eauto|discriminate].
  - intros key. eapply (found_com c y z qs); try eassumption; try reflexivity.
  - intros id Hid. unfold S1 in Hid. cbn [S' ss_ids] in Hid. apply elem_of_union in Hid as [Hid|Hid].
    + apply (rl_ids _ _ _ _ HR id Hid).
    + apply elem_of_list_to_set, elem_of_list_fmap in Hid as (e & -> & He). eapply (es_used c y t0 init cs HK (index_of init') J HJ t' init' order es Ho' eq_refl Hord H1); eassumption.
  - exists lk'. split; [exact H4|]. split; [split; [exact Hcr|exact Hcc]|]. split; [exact G1|]. split; [|split; [|split]].
    + eapply (opened_exact c (h_dev (y_sh y)) t' (h_used (y_sh y)) h' es); [exact H5|]. intros e He. now apply Hfacts.
    + intros Hcalm. apply G2. eapply (found_one c y z qs); eassumption.
    + cbn [y_sh bump h_dev]. exact (li_dev _ _ _ _ _ _ H5).
    + intros Hcalm. eapply (opened_distinct c (h_dev (y_sh y)) t' (h_used (y_sh y)) h' es); [exact H5|exact H2|]. eapply (found_one c y z qs); eassumption.
Qed.

(** ** Histories *)
(** The call a process of the specification comes from. *)
Definition of_call (s : sproc) (op : dop) : Prop :=
  match s with
  | SCall op' => op = op'
  | SWriting _ _ _ _ | SWrote _ => exists tok off len st, op = OWrite tok off len st
  | SCommitting _ _ | SPublished _ _ _ | SDiscarded => exists tok ine, op = OCommit tok ine
  | SDeleted _ => exists key id, op = ODelete key id
  | SReading _ _ _ _ _ => exists key id start fin buffer, op = ORead key id start fin buffer
  | SDone => True
  end.
Definition pending_proc (s : sproc) : Prop := match s with SReading _ _ _ _ _ | SDone => False | _ => True end.

Lemma spec_procs lpage z ls z' : spec_steps lpage z ls z' -> z_procs z = [] ->
  (forall i s, z_procs z' !! i = Some s -> (exists op, LCall i op ∈ ls /\ of_call s op) /\ (pending_proc s -> forall v, LVis i v ∉ ls)) /\
  (forall i v, LVis i v ∈ ls -> (i < length (z_procs z'))%nat).
Proof.
  induction 1 as [z|z ls z1 l z2 Hs IH St]; intros Hz.
  - rewrite Hz. split; [intros i s E; rewrite lookup_nil in E; discriminate|intros i v H; inversion H].
  - destruct (IH Hz) as [IH1 IH2]. clear IH. destruct St as [z1 op|z1 i s S2 s2 v Hi Hst]; cbn [z_procs].
    + split.
      * intros i s E. apply lookup_app_Some in E as [E|[Hge E]].
        -- destruct (IH1 i s E) as [(op' & H1 & H2) H3]. split; [exists op'; split; [apply elem_of_app; now left|exact H2]|].
           intros Hp v. rewrite elem_of_app. intros [H|H]; [exact (H3 Hp v H)|]. apply elem_of_list_singleton in H. discriminate.
        -- pose proof (lookup_lt_Some _ _ _ E) as Hl. cbn in Hl. replace (i - length (z_procs z1))%nat with 0%nat in E by lia. injection E as <-.
           assert (i = length (z_procs z1)) as -> by lia. split; [exists op; split; [apply elem_of_app; right; constructor|reflexivity]|].
           intros _ v. rewrite elem_of_app. intros [H|H]; [specialize (IH2 _ _ H); lia|]. apply elem_of_list_singleton in H. discriminate.
      * intros i v. rewrite elem_of_app, app_length. intros [H|H]; [specialize (IH2 _ _ H); lia|]. apply elem_of_list_singleton in H. discriminate.
    + pose proof (lookup_lt_Some _ _ _ Hi) as Hil. split.
      * intros j s' E. destruct (decide (i = j)) as [<-|Hne].
        -- rewrite list_lookup_insert in E by exact Hil. injection E as <-. destruct (IH1 i s Hi) as [(op & H1 & H2) H3].
           assert (of_call s2 op /\ (pending_proc s2 -> v = None /\ pending_proc s)) as [Hof Hpend].
           { destruct Hst; cbn [of_call pending_proc] in *; subst; split; eauto 10; try tauto. }
           split; [exists op; split; [apply elem_of_app; now left|exact Hof]|]. intros Hp v'. destruct (Hpend Hp) as [-> Hps].
           rewrite elem_of_app. intros [H|H]; [exact (H3 Hps v' H)|]. apply elem_of_list_singleton in H. discriminate.
        -- rewrite list_lookup_insert_ne in E by exact Hne. destruct (IH1 j s' E) as [(op & H1 & H2) H3].
           split; [exists op; split; [apply elem_of_app; now left|exact H2]|]. intros Hp v'. rewrite elem_of_app. intros [H|H]; [exact (H3 Hp v' H)|].
           apply elem_of_list_singleton in H. destruct v; [|discriminate]. congruence.
      * intros j v'. rewrite insert_length, elem_of_app. intros [H|H]; [eauto|]. apply elem_of_list_singleton in H. destruct v; [|discriminate].
        injection H as -> _. exact Hil.
Qed.

Lemma visible_in ls l : l <> LTau -> l ∈ visible ls <-> l ∈ ls.
Proof.
  intros Hn. unfold visible. rewrite !elem_of_list_In, filter_In. split; [tauto|]. intros H. split; [exact H|]. destruct l; [reflexivity|reflexivity|congruence].
Qed.
Lemma settled_visible ls ls' : visible ls' = visible ls -> settled_history ls -> settled_history ls'.
Proof.
  intros Hv H i op Hi. assert (Hi' : LCall i op ∈ ls) by (apply visible_in; [discriminate|]; rewrite <- Hv; apply visible_in; [discriminate|exact Hi]).
  specialize (H i op Hi'). destruct op; auto; destruct H as [r Hr]; exists r; (apply visible_in; [discriminate|]); rewrite Hv; (apply visible_in; [discriminate|exact Hr]).
Qed.
Lemma settled_calm lpage S ls z' : spec_steps lpage {| z_state := S; z_procs := [] |} ls z' -> settled_history ls -> calm z'.
Proof.
  intros Hs Hset s Hin. destruct (spec_procs _ _ _ _ Hs eq_refl) as [H _]. apply elem_of_list_lookup_1 in Hin as [i Hi].
  destruct (H i s Hi) as [(op & H1 & H2) H3]. specialize (Hset i op H1).
  destruct s; try exact I; cbn [of_call pending_proc] in *; destruct H2 as (? & ? & ->); destruct Hset as [r Hr]; exact (H3 I _ Hr).
Qed.

(** ** Several sessions *)
Inductive sessions (c : dcfg) : dsys -> list (list label) -> dsys -> Prop :=
| sn_one y ls y' : dsteps c y ls y' -> sessions c y [ls] y'
| sn_next y hs y1 y2 ls y3 :
    sessions c y hs y1 -> ~ inexact c y1 -> reopened c y1 y2 -> dsteps c y2 ls y3 -> sessions c y (hs ++ [ls]) y3.
Record good_session (c : dcfg) (ls : list label) : Prop := {
  gs_valid : valid_calls (dc_lpage c) ls; gs_bytes : byte_keys ls; gs_panic : no_panics ls;
}.

Definition same_visible (ls' ls : list label) : Prop := visible ls' = visible ls.
Lemma same_visible_refl : Forall2 same_visible [] [].
Proof. constructor. Qed.

Lemma alive_nil c y S lk : Alive c y {| z_state := S; z_procs := [] |} lk -> y_procs y = [].
Proof. intros [[(qs & sp & Hp1 & Hp2 & _)] _ _ _]. cbn [z_procs] in Hp2. destruct qs; [exact Hp1|discriminate]. Qed.

Lemma sessions_refine_old c pages y hs y' : cfg_ok c -> fresh_partition c pages y -> sessions c y hs y' -> Forall (good_session c) hs ->
  Forall settled_history (removelast hs) -> exists hs' z' lk, spec_sessions (dc_lpage c) {| z_state := ss_empty; z_procs := [] |} hs' z' /\
    Forall2 same_visible hs' hs /\ Alive c y' z' lk /\ (lk = [] \/ inexact c y') /\
    (Forall settled_history hs -> calm z') /\
    OldInv c (y_sh y') (y_procs y') (once_committed (dc_lpage c) {| z_state := ss_empty; z_procs := [] |} hs' z') /\
    (forall key co, ss_com (z_state z') !! key = Some co -> once_committed (dc_lpage c) {| z_state := ss_empty; z_procs := [] |} hs' z' key co).
Proof.
  intros Hc HF Hs. induction Hs as [y ls y' Hs|y hs y1 y2 ls y3 Hs IH Hex Hr Hd]; intros Hg Hset.
  - apply Forall_singleton in Hg as [G1 G2 G3]. pose proof (fresh_alive c pages y ltac:(destruct Hc; lia) HF) as HA0.
    destruct (alive_steps_old c y ls y' _ Hc G1 G2 G3 HA0 (alive_nil _ _ _ _ HA0) Hs) as (ls' & z' & lk & H1 & H2 & H3 & H4 & HO).
    exists [ls'], z', lk. split; [now constructor|]. split; [constructor; [exact H2|constructor]|]. split; [exact H3|]. split; [exact H4|]. split; [|split].
    + intros H. rewrite Forall_singleton in H. eapply settled_calm; [exact H1|]. eapply settled_visible; [exact H2|exact H].
    + eapply OldInv_weaken; [|exact HO]. intros key co (ls1 & zm & ls2 & -> & A1 & A2 & A3). exists [], ls1, ls2, zm. split; [reflexivity|]. split; [now constructor|]. auto.
    + intros key co Hco. exists [], ls', [], z'. split; [now rewrite app_nil_r|]. split; [now constructor|]. split; [constructor|exact Hco].
  - apply Forall_app in Hg as [Hg Hg1]. apply Forall_singleton in Hg1 as [G1 G2 G3]. rewrite removelast_last in Hset.
    destruct (IH HF Hg) as (hs' & z1 & lk1 & H1 & H2 & H3 & H4 & H5 & _ & _).
    { clear -Hset. destruct hs as [|x hs] using rev_ind; [constructor|]. rewrite removelast_last. now apply Forall_app in Hset. }
    pose proof (H5 Hset) as Hcalm. destruct Hr as (init & t & order & Hld & Hop).
    assert (Hal : alloc_ok c) by (exists (h_alloc (y_sh y)); exact (fp_alloc _ _ _ HF)).
    destruct (restart_alive c y1 z1 lk1 init t order Hc H3 Hex Hal Hld) as (y2' & S2 & lk2 & R1 & [_ R2] & _ & _ & R5 & _).
    assert (y2' = y2) as -> by congruence. specialize (R2 Hcalm).
    pose proof (R5 (fun id => calm_removing z1 id Hcalm)) as HA2.
    destruct (alive_steps_old c y2 ls y3 _ Hc G1 G2 G3 HA2 (alive_nil _ _ _ _ HA2) Hd) as (ls' & z' & lk & K1 & K2 & K3 & K4 & HO).
    exists (hs' ++ [ls']), z', lk. split; [eapply ses_next; [exact H1|exact R2|exact K1]|].
    split; [apply Forall2_app; [exact H2|constructor; [exact K2|constructor]]|]. split; [exact K3|]. split; [exact K4|]. split; [|split].
    + intros H. apply Forall_app in H as [_ H]. rewrite Forall_singleton in H. eapply settled_calm; [exact K1|]. eapply settled_visible; [exact K2|exact H].
    + eapply OldInv_weaken; [|exact HO]. intros key co (ls1 & zm & ls2 & -> & A1 & A2 & A3). exists hs', ls1, ls2, zm. split; [reflexivity|].
      split; [eapply ses_next; [exact H1|exact R2|exact A1]|]. auto.
    + intros key co Hco. exists hs', ls', [], z'. split; [now rewrite app_nil_r|]. split; [eapply ses_next; [exact H1|exact R2|exact K1]|]. split; [constructor|exact Hco].
Qed.
Lemma sessions_refine c pages y hs y' : cfg_ok c -> fresh_partition c pages y -> sessions c y hs y' -> Forall (good_session c) hs ->
  Forall settled_history (removelast hs) -> exists hs' z' lk, spec_sessions (dc_lpage c) {| z_state := ss_empty; z_procs := [] |} hs' z' /\
    Forall2 same_visible hs' hs /\ Alive c y' z' lk /\ (lk = [] \/ inexact c y') /\
    (Forall settled_history hs -> calm z').
Proof.
  intros Hc HF Hs Hg Hset. destruct (sessions_refine_old c pages y hs y' Hc HF Hs Hg Hset) as (hs' & z' & lk & H1 & H2 & H3 & H4 & H5 & _).
  exists hs', z', lk. auto.
Qed.
