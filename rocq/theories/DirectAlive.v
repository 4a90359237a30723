(** A partition on which no call has panicked: everything that has to hold for it
    to be opened again. *)
From Coq Require Import ZifyBool ZifyNat ZifyN.
From stdpp Require Import base numbers list_numbers option gmap sets list.
From Verif Require Import Util Bytes BuddyModel BuddySpec BuddyProofs BuddyInv LayoutModel LayoutProofs.
From Verif Require Import PageIOModel TuplesModel TuplesSpec TuplesProofs TuplesSys TuplesLife.
From Verif Require Import DirectModel DirectBase DirectSteps DirectInv DirectTup DirectAlloc DirectDev DirectSpec DirectRel DirectSim DirectSim3.
From Verif Require Import DirectSeqSpec DirectSys DirectRec DirectLog.
Open Scope N_scope.
Ltac Zify.zify_post_hook ::= idtac.

Record Alive (c : dcfg) (y : dsys) (z : ssys) (lk : list page) : Prop := {
  al_good : Good c y z lk false;
  al_log : exists pages t0 init cs, opens (dc_spage c) pages init t0 /\ KInv c t0 init (y_sh y) (y_procs y) cs;
  al_rec : RecInv c (y_sh y) (y_procs y);
  al_ty : TyInv (y_sh y) (y_procs y);
}.

Definition byte_call (l : label) : Prop := match l with LCall _ (OCreate key _) => Forall is_byte key | _ => True end.
(** Keys are byte strings. *)
Definition byte_keys (ls : list label) : Prop := forall i key size, LCall i (OCreate key size) ∈ ls -> Forall is_byte key.

Lemma alive_step c y l y' z lk : cfg_ok c -> start_ok c l -> byte_call l -> panic_label l = false -> Alive c y z lk -> dstep c y l y' ->
  exists ls z' lk', spec_steps (dc_lpage c) z ls z' /\ visible ls = visible [l] /\ Alive c y' z' lk' /\ (lk' = lk \/ inexact c y').
Proof.
  intros Hc Hv Hb Hp [HG (pages & t0 & init & cs & Ho & HK) HRec HTy] St.
  destruct (good_step _ _ _ _ _ _ _ Hc Hv HG St) as (ls & z' & lk' & zz' & H1 & H2 & H3 & H4 & H5).
  assert (zz' = false) as -> by (destruct H5; congruence).
  exists ls, z', lk'. split; [exact H1|]. split; [exact H2|]. split; [|destruct H4 as [|[|]]; [auto|congruence|auto]].
  destruct HG as [(qs & sp & Hp1 & Hp2 & HS & HT & HA & HR)].
  destruct St as [y op|y i p o h' p' v Hi Hid Hlt Htm Hs|y i p addr len f Hi Hf|y t' Ht]; constructor; cbn [y_sh y_procs] in *; try exact H3.
  - exists pages, t0, init, cs. split; [exact Ho|]. eapply KInv_perm; [apply Permutation_cons_append|]. now apply K_new.
  - eapply RecInv_perm; [apply Permutation_cons_append|]. destruct HRec as [R1 R2]. constructor.
    + intros r ob Hr. apply R1. unfold owners in *. rewrite bind_cons in Hr. exact Hr.
    + intros q [->|Hq]%elem_of_cons; [exact I|auto].
  - eapply TyInv_perm; [apply Permutation_cons_append|]. destruct HTy as [T1 T2]. constructor; [exact T1|].
    intros q [->|Hq]%elem_of_cons; [|auto]. cbn [ty_pc]. destruct op; cbn [byte_call] in Hb; auto.
  - assert (Hpm1 : y_procs y ≡ₚ p :: delete i (y_procs y)) by (apply delete_Permutation, Hi).
    pose proof (insert_perm _ _ _ p' Hi) as Hpi. symmetry in Hpi. apply pstep_R in Hs.
    destruct (K_step c pages t0 init Hc Ho o (y_sh y) p h' p' v (delete i (y_procs y)) cs sp lk) as [cs' HK']; eauto.
    + eapply SInv_perm; eassumption.
    + eapply TInv_perm; eassumption.
    + eapply AInv_perm; eassumption.
    + eapply KInv_perm; eassumption.
    + destruct v; [exact Hp|reflexivity].
    + exists pages, t0, init, cs'. split; [exact Ho|]. eapply KInv_perm; [exact Hpi|exact HK'].
  - assert (Hq : exists s, qs !! i = Some (p, s)).
    { rewrite Hp1, list_lookup_fmap in Hi. destruct (qs !! i) as [[p1 s]|]; [|discriminate]. cbn in Hi. exists s. congruence. }
    destruct Hq as [s Hq]. pose proof (delete_Permutation qs i _ Hq) as Hpm.
    assert (Hpm1 : y_procs y ≡ₚ p :: (delete i qs).*1) by (rewrite Hp1; exact (fmap_Permutation fst _ _ Hpm)).
    assert (Hpi : p' :: (delete i qs).*1 ≡ₚ <[i := p']> (y_procs y)).
    { rewrite (insert_perm _ _ _ p' Hi). constructor. rewrite (delete_Permutation _ _ _ Hi) in Hpm1. symmetry. eapply Permutation_cons_inv, Hpm1. }
    apply pstep_R in Hs. eapply RecInv_perm; [exact Hpi|].
    eapply rec_step; [exact Hc|eapply SInv_perm; eassumption|eapply AInv_perm; eassumption|eapply Rel_perm; eassumption|exact Hs|eapply RecInv_perm; eassumption].
  - assert (Hpm1 : y_procs y ≡ₚ p :: delete i (y_procs y)) by (apply delete_Permutation, Hi).
    pose proof (insert_perm _ _ _ p' Hi) as Hpi. symmetry in Hpi. apply pstep_R in Hs.
    eapply TyInv_perm; [exact Hpi|]. eapply ty_step; [exact Htm|exact Hs|]. eapply TyInv_perm; eassumption.
  - exists pages, t0, init, cs. split; [exact Ho|]. now apply K_dev.
  - assert (Hpm1 : y_procs y ≡ₚ p :: delete i (y_procs y)) by (apply delete_Permutation, Hi).
    assert (Hq : exists s, qs !! i = Some (p, s)).
    { rewrite Hp1, list_lookup_fmap in Hi. destruct (qs !! i) as [[p1 s]|]; [|discriminate]. cbn in Hi. exists s. congruence. }
    destruct Hq as [s Hq]. eapply RecInv_perm; [symmetry; exact Hpm1|].
    eapply rec_flight; [exact Hc|eapply SInv_perm; eassumption|eapply AInv_perm; eassumption| |exact Hf| |eapply RecInv_perm; eassumption].
    + eapply rel_flight. eapply (rl_pcs _ _ _ _ HR). eapply elem_of_list_lookup_2, Hq.
    + intros x Hx. cbn in Hx. destruct ((addr <=? x) && (x <? addr + len)) eqn:E; [|contradiction].
      apply andb_true_iff in E as [E1 E2]. apply N.leb_le in E1. apply N.ltb_lt in E2. auto.
  - destruct HTy as [T1 T2]. constructor; assumption.
  - exists pages, t0, init, cs. split; [exact Ho|]. now apply K_flush.
  - destruct HRec as [R1 R2]. constructor; assumption.
  - destruct HTy as [T1 T2]. constructor; assumption.
Qed.

Lemma no_panics_label ls l : no_panics ls -> l ∈ ls -> panic_label l = false.
Proof.
  intros Hn Hl. destruct l as [i op|i v|]; [reflexivity| |reflexivity]. destruct v as [r| |]; [|reflexivity|reflexivity].
  destruct r; try reflexivity. exfalso. exact (Hn i Hl).
Qed.
Lemma alive_steps c y ls y' z : cfg_ok c -> valid_calls (dc_lpage c) ls -> byte_keys ls -> no_panics ls -> Alive c y z [] -> dsteps c y ls y' ->
  exists ls' z' lk', spec_steps (dc_lpage c) z ls' z' /\ visible ls' = visible ls /\ Alive c y' z' lk' /\ (lk' = [] \/ inexact c y').
Proof.
  intros Hc Hv Hb Hn HG Hs. induction Hs as [y|y ls y1 l y2 Hs IH St].
  - exists [], z, []. split; [constructor|]. split; [reflexivity|]. split; [exact HG|]. auto.
  - assert (Hin : forall x, x ∈ ls -> x ∈ ls ++ [l]) by (intros; apply elem_of_app; now left).
    assert (Hl : l ∈ ls ++ [l]) by (apply elem_of_app; right; constructor).
    destruct IH as (ls1 & z1 & lk1 & H1 & H2 & H3 & H3a);
      [intros i op Hi; eapply Hv, Hin, Hi|intros i k s Hi; eapply Hb, Hin, Hi|intros i Hi; eapply Hn, Hin, Hi|exact HG|].
    assert (Hp : panic_label l = false) by (eapply no_panics_label; eassumption).
    destruct (alive_step c y1 l y2 z1 lk1) as (ls2 & z2 & lk2 & H4 & H5 & H6 & H7); auto.
    { destruct l; cbn; auto. eapply Hv, Hl. }
    { destruct l as [i op| |]; cbn; auto. destruct op; auto. eapply Hb, Hl. }
    exists (ls1 ++ ls2), z2, lk2. split; [eapply spec_app; eassumption|]. split; [rewrite !visible_app; now rewrite H2, H5|]. split; [exact H6|].
    destruct H3a as [->|Hx].
    + destruct H7 as [->|Hx]; auto.
    + destruct (inexact_step _ _ _ _ Hx St) as [Hx'|Hp']; [auto|congruence].
Qed.

Lemma fresh_alive c pages y : dc_spage c <= dc_lpage c -> fresh_partition c pages y -> Alive c y {| z_state := ss_empty; z_procs := [] |} [].
Proof.
  intros Hc F. pose proof (fresh_good _ _ _ Hc F) as HG. destruct F as [F0 F1 F2 F3 F4 F5 F6 F7 F8].
  destruct F1 as (init & Ho). pose proof (fresh_init _ _ _ _ F0 Ho) as Hi. pose proof (concat_nils _ Hi) as Hcn.
  assert (Ho' : owners (y_sh y) [] = []) by (unfold owners; rewrite F4, F5; reflexivity).
  constructor; [exact HG| | |].
  - exists pages, (h_tup (y_sh y)), init, []. split; [exact Ho|]. rewrite F8. constructor.
    + constructor.
    + constructor.
    + unfold fresh_ids. rewrite Hcn. constructor.
    + unfold known. rewrite Hcn. intros id H. inversion H.
    + intros p H. inversion H.
    + intros r ob Hr. rewrite Ho' in Hr. inversion Hr.
    + cbn. lia.
    + intros p H. inversion H.
  - rewrite F8. constructor; [rewrite Ho'; intros ? ? HH|intros ? HH]; inversion HH.
  - rewrite F8. constructor; [rewrite F3; discriminate|intros ? H; inversion H].
Qed.
