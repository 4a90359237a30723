(** Objects that are being removed: until their space is released they are what
    they were when the key had them. *)
From Coq Require Import ZifyBool ZifyNat ZifyN.
From stdpp Require Import base numbers list_numbers option gmap sets list.
From Verif Require Import Util Bytes BuddyModel BuddySpec BuddyProofs BuddyInv LayoutModel LayoutProofs.
From Verif Require Import PageIOModel PageIOSpec TuplesModel TuplesSpec TuplesProofs TuplesSys TuplesLife.
From Verif Require Import DirectModel DirectBase DirectSteps DirectInv DirectTup DirectAlloc DirectDev DirectSpec DirectRel DirectSim DirectSim3.
From Verif Require Import DirectSeqSpec DirectSys DirectRec DirectLog DirectSource DirectAlive.
Open Scope N_scope.
Ltac Zify.zify_post_hook ::= idtac.

(** Committed objects a call is removing. *)
Definition vref (p : pc) : list nat :=
  match p with
  | PCommit4 _ _ e | PCommit5 _ _ _ e => option_list e
  | PReap1 r k | PReap2 r _ _ k => match k with KCommit None _ => [] | _ => [r] end
  | _ => []
  end.
Definition victim (p : pc) : option (N * nat) :=
  match p with PCommit4 _ new (Some r) | PCommit5 _ _ new (Some r) => Some (new, r) | _ => None end.
Record OldInv (c : dcfg) (h : shared) (ps : list pc) (had : list N -> cobj -> Prop) : Prop := {
  od_had : forall r, r ∈ ps ≫= vref -> exists ob co, h_objs h !! r = Some ob /\ had (m_key (b_meta ob)) co /\ com_rel c h (Some r) (Some co);
  od_key : forall p new r, p ∈ ps -> victim p = Some (new, r) -> exists ob r2 ob2,
    h_objs h !! r = Some ob /\ h_objs h !! r2 = Some ob2 /\ b_id ob2 = new /\ m_key (b_meta ob2) = m_key (b_meta ob);
}.

Lemma OldInv_perm c h ps ps' had : ps ≡ₚ ps' -> OldInv c h ps had -> OldInv c h ps' had.
Proof.
  intros Hp [H1 H2]. constructor.
  - intros r Hr. apply H1. now rewrite Hp.
  - intros p new r Hin. apply H2. now rewrite Hp.
Qed.
Lemma OldInv_weaken c h ps (had had' : list N -> cobj -> Prop) : (forall key co, had key co -> had' key co) -> OldInv c h ps had -> OldInv c h ps had'.
Proof. intros Hw [H1 H2]. constructor; [|exact H2]. intros r Hr. destruct (H1 r Hr) as (ob & co & A & B & C). eauto 10. Qed.

Lemma vref_refs p r : r ∈ vref p -> r ∈ pc_refs p.
Proof. destruct p; cbn [vref pc_refs]; try (intros H; inversion H; fail); auto; destruct c as [[]|]; auto; intros H; inversion H. Qed.
Lemma vref_owner h ps r : r ∈ ps ≫= vref -> r ∈ owners h ps.
Proof.
  intros Hr. apply elem_of_list_bind in Hr as (p & Hin & Hp). unfold owners. rewrite !elem_of_app. right. right. apply elem_of_list_bind.
  exists p. split; [now apply vref_refs|exact Hp].
Qed.
(** Nothing is being written to such an object. *)
Lemma vref_not_written h ps r p : SInv h ps -> r ∈ ps ≫= vref -> p ∈ ps -> is_w4 r p -> False.
Proof.
  intros HS Hr Hp Hw. pose proof (s_nodup _ _ HS) as Hn. unfold owners in Hn. rewrite app_assoc in Hn. apply NoDup_app in Hn as (_ & Hd & Hn2).
  apply elem_of_list_bind in Hr as (q & Hin & Hq). apply vref_refs in Hin as Hin2.
  destruct (s_w4 _ _ HS r p Hp Hw) as [Hi|(p2 & Hp2 & H12)].
  - apply (Hd r); [apply elem_of_app; now left|]. apply elem_of_list_bind. eauto.
  - assert (Hr2 : r ∈ pc_refs p2) by (destruct p2; try contradiction; cbn in H12; subst; constructor).
    assert (p2 = q) as -> by (eapply (bind_unique pc_refs); eassumption). destruct q; try contradiction; inversion Hin.
Qed.

Lemma com_rel_flight c h ps lk p addr len d' r co : cfg_ok c -> SInv h ps -> AInv c h ps lk -> p ∈ ps -> flight_ok c h p -> in_flight c p = Some (addr, len) ->
  (forall x, d' x <> h_dev h x -> addr <= x < addr + len) -> (forall r ob, h_objs h !! r = Some ob -> opg c (b_meta ob)) ->
  r ∈ ps ≫= vref -> com_rel c h (Some r) (Some co) -> com_rel c (set_dev h d') (Some r) (Some co).
Proof.
  intros Hc HS HA Hp Hfl Hif Hd Hop Hr (ob & Eo & C1 & C2 & C3 & C4). exists ob. cbn [h_objs set_dev h_dev]. do 4 (split; [assumption|]).
  intros i Hi. rewrite <- (C4 i Hi).
  destruct (flight_bytes c h ps lk p addr len d' Hc HS HA Hp Hfl Hif Hd r ob i (vref_owner _ _ _ Hr) Eo Hi (Hop _ _ Eo)) as [H|(off & w & buf & st & -> & _)]; [exact H|].
  exfalso. eapply vref_not_written; [exact HS|exact Hr|exact Hp|reflexivity].
Qed.
Lemma com_rel_le c h h' r co : objs_le h h' -> h_dev h' = h_dev h -> com_rel c h (Some r) (Some co) -> com_rel c h' (Some r) (Some co).
Proof.
  intros Hle Hd (ob & Eo & C1 & C2 & C3 & C4). destruct (Hle _ _ Eo) as (ob' & Eo' & (Hi & Hm & _) & _). exists ob'. rewrite Hd, Hm.
  split; [exact Eo'|]. split; [congruence|]. auto.
Qed.
Lemma old_le c h h' ps had : objs_le h h' -> h_dev h' = h_dev h -> OldInv c h ps had -> OldInv c h' ps had.
Proof.
  intros Hle Hd [H1 H2]. constructor.
  - intros r Hr. destruct (H1 r Hr) as (ob & co & Eo & Hh & Hc). destruct (Hle _ _ Eo) as (ob' & Eo' & (_ & Hm & _) & _).
    exists ob', co. rewrite Hm. split; [exact Eo'|]. split; [exact Hh|]. eapply com_rel_le; eassumption.
  - intros p new r Hp Hv. destruct (H2 p new r Hp Hv) as (ob & r2 & ob2 & E1 & E2 & E3 & E4).
    destruct (Hle _ _ E1) as (ob' & E1' & (_ & Hm & _) & _). destruct (Hle _ _ E2) as (ob2' & E2' & (Hi & Hm2 & _) & _).
    exists ob', r2, ob2'. rewrite Hm, Hm2. split; [exact E1'|]. split; [exact E2'|]. split; [congruence|exact E4].
Qed.
Lemma old_flight c h ps lk p addr len d' had : cfg_ok c -> SInv h ps -> AInv c h ps lk -> p ∈ ps -> flight_ok c h p -> in_flight c p = Some (addr, len) ->
  (forall x, d' x <> h_dev h x -> addr <= x < addr + len) -> (forall r ob, h_objs h !! r = Some ob -> opg c (b_meta ob)) ->
  OldInv c h ps had -> OldInv c (set_dev h d') ps had.
Proof.
  intros Hc HS HA Hp Hfl Hif Hd Hop [H1 H2]. constructor; [|exact H2]. intros r Hr. destruct (H1 r Hr) as (ob & co & Eo & Hh & Hr2).
  exists ob, co. split; [exact Eo|]. split; [exact Hh|]. eapply com_rel_flight; eassumption.
Qed.

(** Where an object that is being removed comes from. *)
Lemma vref_step c o h p h' p' v r : pstepR c o h p h' p' v -> r ∈ vref p' -> r ∈ vref p \/ h_dev h' = h_dev h /\ exists key, h_com h !! key = Some r.
Proof.
  intros St Hr. destruct St; cbn [vref option_list] in *; try (inversion Hr; fail); auto.
  - right. split; [reflexivity|]. destruct existing as [e|]; [|inversion Hr]. cbn in Hr. apply elem_of_list_singleton in Hr as ->. eauto.
  - right. split; [reflexivity|]. apply find_committed_Some in H as (Ec & _ & _). apply elem_of_list_singleton in Hr as ->. eauto.
Qed.
Lemma step_objs_le c o h p h' p' v : pstepR c o h p h' p' v -> objs_le h h'.
Proof. intros St r ob E. exact (step_objs _ _ _ _ _ _ _ St r ob E). Qed.
Lemma victim_step c o h p h' p' v new r : pstepR c o h p h' p' v -> victim p' = Some (new, r) ->
  victim p = Some (new, r) \/ exists key r2 ob2, h_com h !! key = Some r /\ h_objs h' !! r2 = Some ob2 /\ b_id ob2 = new /\ m_key (b_meta ob2) = key.
Proof.
  intros St Hv. destruct St; cbn [victim] in *; try discriminate; auto.
  destruct existing as [e|]; [|discriminate]. injection Hv as <- <-. right. exists (m_key (b_meta ob)), (length (h_objs h)). eexists.
  split; [assumption|]. split; [apply list_lookup_middle; reflexivity|]. auto.
Qed.

Lemma old_step c o h S p s h' p' v rest lk (had had' : list N -> cobj -> Prop) : cfg_ok c -> SInv h (p :: rest.*1) -> AInv c h (p :: rest.*1) lk ->
  Rel c h S ((p, s) :: rest) -> pstepR c o h p h' p' v -> (forall key co, had key co -> had' key co) ->
  (forall key co, ss_com S !! key = Some co -> had' key co) -> OldInv c h (p :: rest.*1) had -> OldInv c h' (p' :: rest.*1) had'.
Proof.
  intros Hc HS HA HR St Hw Hcur HO. apply (OldInv_weaken _ _ _ _ _ Hw) in HO. pose proof (step_objs_le _ _ _ _ _ _ _ St) as Hle.
  assert (HO1 : OldInv c h' (p :: rest.*1) had').
  { destruct (step_dev _ _ _ _ _ _ _ _ _ _ _ HA HR St) as [Hd|(addr & len & Hif & Hd)].
    - eapply old_le; eassumption.
    - apply (old_le c (set_dev h (h_dev h'))); [exact Hle|reflexivity|].
      eapply (old_flight c h (p :: rest.*1)); [exact Hc|exact HS|exact HA|constructor| |exact Hif|exact Hd|exact (rl_obj _ _ _ _ HR)|exact HO].
      eapply rel_flight. apply (rl_pcs _ _ _ _ HR). constructor. }
  destruct HO1 as [H1 H2]. constructor.
  - intros r Hr. rewrite bind_cons in Hr. apply elem_of_app in Hr as [Hr|Hr].
    + destruct (vref_step _ _ _ _ _ _ _ _ St Hr) as [Hr'|(Hd & key & Hk)].
      { apply H1. rewrite bind_cons. apply elem_of_app. now left. }
      pose proof (rl_com _ _ _ _ HR key) as Hrc. rewrite Hk in Hrc. destruct (ss_com S !! key) as [co|] eqn:Ec; [|contradiction].
      destruct (s_com _ _ HS _ _ Hk) as (ob & Eo & Hky & _). destruct (Hle _ _ Eo) as (ob' & Eo' & (_ & Hm & _) & _).
      exists ob', co. split; [exact Eo'|]. split; [rewrite Hm, Hky; auto|]. eapply com_rel_le; eassumption.
    + apply H1. rewrite bind_cons. apply elem_of_app. now right.
  - intros q new r Hq Hv. apply elem_of_cons in Hq as [->|Hq]; [|eapply H2; [constructor; exact Hq|exact Hv]].
    destruct (victim_step _ _ _ _ _ _ _ _ _ St Hv) as [Hv'|(key & r2 & ob2 & Hk & E2 & E3 & E4)]; [eapply H2; [constructor|exact Hv']|].
    destruct (s_com _ _ HS _ _ Hk) as (ob & Eo & Hky & _). destruct (Hle _ _ Eo) as (ob' & Eo' & (_ & Hm & _) & _).
    exists ob', r2, ob2. rewrite Hm. split; [exact Eo'|]. split; [exact E2|]. split; [exact E3|congruence].
Qed.

Lemma old_dstep c y l y' z lk (had had' : list N -> cobj -> Prop) : cfg_ok c -> Alive c y z lk -> dstep c y l y' -> (forall key co, had key co -> had' key co) ->
  (forall key co, ss_com (z_state z) !! key = Some co -> had' key co) -> OldInv c (y_sh y) (y_procs y) had -> OldInv c (y_sh y') (y_procs y') had'.
Proof.
  intros Hc [[(qs & sp & Hp1 & Hp2 & HS & HT & HA & HR)] _ _ _] St Hw Hcur HO.
  destruct St as [y op|y i p o h' p' v Hi Hid Hlt Htm Hs|y i p addr len f Hi Hf|y t' Ht]; cbn [y_sh y_procs] in *.
  - eapply OldInv_perm; [apply Permutation_cons_append|]. apply (OldInv_weaken _ _ _ _ _ Hw) in HO. destruct HO as [H1 H2]. constructor.
    + intros r Hr. rewrite bind_cons in Hr. exact (H1 r Hr).
    + intros q new r Hq Hv. apply elem_of_cons in Hq as [->|Hq]; [discriminate|eauto].
  - assert (Hq : exists s, qs !! i = Some (p, s)).
    { rewrite Hp1, list_lookup_fmap in Hi. destruct (qs !! i) as [[p1 s]|]; [|discriminate]. cbn in Hi. exists s. congruence. }
    destruct Hq as [s Hq]. pose proof (delete_Permutation qs i _ Hq) as Hpm.
    assert (Hpm1 : y_procs y ≡ₚ p :: (delete i qs).*1) by (rewrite Hp1; exact (fmap_Permutation fst _ _ Hpm)).
    assert (Hpi : p' :: (delete i qs).*1 ≡ₚ <[i := p']> (y_procs y)).
    { rewrite (insert_perm _ _ _ p' Hi). constructor. rewrite (delete_Permutation _ _ _ Hi) in Hpm1. symmetry. eapply Permutation_cons_inv, Hpm1. }
    apply pstep_R in Hs. eapply OldInv_perm; [exact Hpi|].
    eapply old_step; [exact Hc|eapply SInv_perm; eassumption|eapply AInv_perm; eassumption|eapply Rel_perm; eassumption|exact Hs|exact Hw|exact Hcur|eapply OldInv_perm; eassumption].
  - assert (Hpm1 : y_procs y ≡ₚ p :: delete i (y_procs y)) by (apply delete_Permutation, Hi).
    assert (Hq : exists s, qs !! i = Some (p, s)).
    { rewrite Hp1, list_lookup_fmap in Hi. destruct (qs !! i) as [[p1 s]|]; [|discriminate]. cbn in Hi. exists s. congruence. }
    destruct Hq as [s Hq]. eapply (old_flight c (y_sh y) (y_procs y)); [exact Hc|exact HS|exact HA|eapply elem_of_list_lookup_2, Hi| |exact Hf| |exact (rl_obj _ _ _ _ HR)|].
    + eapply rel_flight. eapply (rl_pcs _ _ _ _ HR). eapply elem_of_list_lookup_2, Hq.
    + intros x Hx. cbn in Hx. destruct ((addr <=? x) && (x <? addr + len)) eqn:E; [|contradiction].
      apply andb_true_iff in E as [E1 E2]. apply N.leb_le in E1. apply N.ltb_lt in E2. auto.
    + eapply OldInv_weaken; eassumption.
  - apply (OldInv_weaken _ _ _ _ _ Hw) in HO. apply (old_le c (y_sh y)); [|reflexivity|exact HO]. apply objs_le_refl. reflexivity.
Qed.
Lemma old_nil c h had : OldInv c h [] had.
Proof. constructor; [intros r Hr|intros p ? ? Hp]; [inversion Hr|inversion Hp]. Qed.

(** The objects some moment of the history has had. *)
Definition was_committed (lpage : N) (z0 : ssys) (ls : list label) (z : ssys) (key : list N) (co : cobj) : Prop :=
  exists ls1 zm ls2, ls = ls1 ++ ls2 /\ spec_steps lpage z0 ls1 zm /\ spec_steps lpage zm ls2 z /\ ss_com (z_state zm) !! key = Some co.
Lemma was_app lpage z0 ls z ls' z' key co : spec_steps lpage z ls' z' -> was_committed lpage z0 ls z key co -> was_committed lpage z0 (ls ++ ls') z' key co.
Proof.
  intros Hs (ls1 & zm & ls2 & -> & H1 & H2 & H3). exists ls1, zm, (ls2 ++ ls'). split; [now rewrite app_assoc|]. split; [exact H1|]. split; [|exact H3].
  eapply spec_app; eassumption.
Qed.
Lemma was_now lpage z0 ls z key co : spec_steps lpage z0 ls z -> ss_com (z_state z) !! key = Some co -> was_committed lpage z0 ls z key co.
Proof. intros Hs H. exists ls, z, []. split; [now rewrite app_nil_r|]. split; [exact Hs|]. split; [constructor|exact H]. Qed.

Lemma alive_steps_old c y ls y' z : cfg_ok c -> valid_calls (dc_lpage c) ls -> byte_keys ls -> no_panics ls -> Alive c y z [] -> y_procs y = [] -> dsteps c y ls y' ->
  exists ls' z' lk', spec_steps (dc_lpage c) z ls' z' /\ visible ls' = visible ls /\ Alive c y' z' lk' /\ (lk' = [] \/ inexact c y') /\
    OldInv c (y_sh y') (y_procs y') (was_committed (dc_lpage c) z ls' z').
Proof.
  intros Hc Hv Hb Hn HG Hnil Hs. induction Hs as [y|y ls y1 l y2 Hs IH St].
  - exists [], z, []. split; [constructor|]. split; [reflexivity|]. split; [exact HG|]. split; [auto|]. rewrite Hnil. apply old_nil.
  - assert (Hin : forall x, x ∈ ls -> x ∈ ls ++ [l]) by (intros; apply elem_of_app; now left).
    assert (Hl : l ∈ ls ++ [l]) by (apply elem_of_app; right; constructor).
    destruct IH as (ls1 & z1 & lk1 & H1 & H2 & H3 & H3a & HO);
      [intros i op Hi; eapply Hv, Hin, Hi|intros i k s Hi; eapply Hb, Hin, Hi|intros i Hi; eapply Hn, Hin, Hi|exact HG|exact Hnil|].
    assert (Hp : panic_label l = false) by (eapply no_panics_label; eassumption).
    destruct (alive_step c y1 l y2 z1 lk1) as (ls2 & z2 & lk2 & H4 & H5 & H6 & H7); auto.
    { destruct l; cbn; auto. eapply Hv, Hl. }
    { destruct l as [i op| |]; cbn; auto. destruct op; auto. eapply Hb, Hl. }
    exists (ls1 ++ ls2), z2, lk2. split; [eapply spec_app; eassumption|]. split; [rewrite !visible_app; now rewrite H2, H5|]. split; [exact H6|]. split.
    + destruct H3a as [->|Hx].
      * destruct H7 as [->|Hx]; auto.
      * destruct (inexact_step _ _ _ _ Hx St) as [Hx'|Hp']; [auto|congruence].
    + eapply (old_dstep c y1 l y2 z1 lk1); [exact Hc|exact H3|exact St| | |exact HO].
      * intros key co. apply was_app, H4.
      * intros key co Hco. eapply was_app; [exact H4|]. now apply was_now.
Qed.
