(** Every history of a direct partition is a history of its specification. *)
From Coq Require Import ZifyBool ZifyNat ZifyN.
From stdpp Require Import base numbers list_numbers option gmap sets functions list.
From Verif Require Import Util Bytes BuddyModel BuddySpec BuddyProofs BuddyInv LayoutModel LayoutProofs.
From Verif Require Import PageIOModel PageIOSpec TuplesModel TuplesSpec TuplesCodec TuplesProofs TuplesSys.
From Verif Require Import DirectModel DirectBase DirectSteps DirectInv DirectTup DirectAlloc DirectDev DirectSpec DirectRel DirectSim DirectSim2 DirectSim3 DirectSeqSpec.
Open Scope N_scope.
Ltac Zify.zify_post_hook ::= idtac.

(** ** Lists *)
Lemma insert_perm {A} (l : list A) i x y : l !! i = Some x -> <[i := y]> l ≡ₚ y :: delete i l.
Proof.
  intros H. rewrite (delete_Permutation (<[i := y]> l) i y).
  - apply Permutation_cons; [reflexivity|]. match goal with |- ?a ≡ₚ ?b => enough (a = b) as -> by reflexivity end. revert i H.
    induction l as [|a l IH]; intros [|i] H; try discriminate; [reflexivity|]. cbn. f_equal. now apply IH.
  - apply list_lookup_insert. eapply lookup_lt_Some; eassumption.
Qed.

(** ** A new call *)
Lemma S_new h ps op : SInv h ps -> SInv h (PStart op :: ps).
Proof.
  intros [S1 S2 S3 S4 S5 S6 S7 S8 S9 S10]. constructor; auto.
  - intros p [->|H]%elem_of_cons; [exact I|]. now apply S3.
  - intros r ob E Ei. destruct (S8 r ob E Ei) as [H|(p & H & Hp)]; [now left|]. right. exists p. split; [now right|exact Hp].
  - intros r p [->|H]%elem_of_cons Hw; [contradiction Hw|].
    destruct (S10 r p H Hw) as [H1|(p1 & H1 & Hp)]; [now left|]. right. exists p1. split; [now right|exact Hp].
Qed.
Lemma T_new c h ps sp z op : TInv c h ps sp z -> TInv c h (PStart op :: ps) sp z.
Proof.
  intros [T1 T2 T3 T4 T5 T6 T7 T8 T9 T10]. constructor; auto.
  - intros r Hr. destruct (T4 r Hr) as [H|(ob & tok & ex & E & H & Ht)]; [now left|]. right. exists ob, tok, ex.
    split; [exact E|]. split; [now right|exact Ht].
  - intros p [->|H]%elem_of_cons; [exact I|]. now apply T5.
Qed.
Lemma A_new c h ps lk op : AInv c h ps lk -> AInv c h (PStart op :: ps) lk.
Proof.
  intros [A1 A2 A3]. constructor; auto. intros p [->|H]%elem_of_cons; [exact I|]. now apply A3.
Qed.
Lemma Rel_new c h S qs op : valid_op (dc_lpage c) op -> Rel c h S qs -> Rel c h S ((PStart op, SCall op) :: qs).
Proof.
  intros Hv [R1 R2 R3 R4 R5 R6 R7]. constructor; auto.
  - intros tok u Hu. destruct (R1 tok u Hu) as [r [H|(p & H & E)]]; exists r; [now left|]. right. exists p. split; [now right|exact E].
  - intros tok r Hr. apply R2. destruct Hr as [H|(p & H & E)]; [now left|]. right. exists p. split; [|exact E].
    cbn in H. apply elem_of_cons in H as [->|H]; [discriminate E|exact H].
  - intros p s [H|H]%elem_of_cons; [|now apply R6]. injection H as -> ->. split; [reflexivity|exact Hv].
Qed.

(** ** The specification's steps *)
Lemma sstep_all lpage S all all' s S' s' v : (forall x, x ∈ all -> x ∈ all') -> sstep lpage S all s S' s' v -> sstep lpage S all' s S' s' v.
Proof. intros H St. destruct St; econstructor; eauto. Qed.

Definition lab (i : nat) (v : option vis) : label := match v with Some v => LVis i v | None => LTau end.
Lemma wsteps_spec lpage qs i s S S' s' v :
  qs !! i = Some s -> wsteps lpage (delete i qs) S s S' s' v ->
  exists ls, spec_steps lpage {| z_state := S; z_procs := qs |} ls {| z_state := S'; z_procs := <[i := s']> qs |} /\
    visible ls = visible [lab i v].
Proof.
  intros Hi Hw.
  assert (Hall : forall (l : list sproc) (a : sproc), l !! i = Some a -> forall x : sproc, x ∈ a :: delete i l -> x ∈ l).
  { intros l a Ha x Hx. now rewrite (delete_Permutation l i a Ha). }
  destruct Hw as [|S1 s1 v Hs|S1 s1 S2 s2 v H1 H2].
  - exists []. rewrite list_insert_id by exact Hi. split; [constructor|reflexivity].
  - exists ([] ++ [lab i v]). split; [|reflexivity]. econstructor; [constructor|].
    apply (spec_proc _ {| z_state := S; z_procs := qs |} i s S1 s1 v); [exact Hi|]. cbn. eapply sstep_all; [|exact Hs]. apply Hall, Hi.
  - exists (([] ++ [LTau]) ++ [lab i v]). split; [|reflexivity].
    assert (Hi1 : <[i := s1]> qs !! i = Some s1) by (apply list_lookup_insert; eapply lookup_lt_Some; eassumption).
    econstructor; [econstructor; [constructor|]|].
    + apply (spec_proc _ {| z_state := S; z_procs := qs |} i s S1 s1 None); [exact Hi|]. cbn. eapply sstep_all; [|exact H1]. apply Hall, Hi.
    + rewrite <- (list_insert_insert qs i s2 s1).
      apply (spec_proc _ {| z_state := S1; z_procs := <[i := s1]> qs |} i s1 S2 s2 v); [exact Hi1|]. cbn.
      eapply sstep_all; [|exact H2]. intros x Hx. rewrite (insert_perm qs i s s1 Hi). exact Hx.
Qed.
Lemma spec_app lpage z ls z1 ls' z2 : spec_steps lpage z ls z1 -> spec_steps lpage z1 ls' z2 -> spec_steps lpage z (ls ++ ls') z2.
Proof.
  intros H1 H2. induction H2 as [|z1 ls' z2 l z3 H2 IH St]; [now rewrite app_nil_r|]. rewrite app_assoc. econstructor; [now apply IH|exact St].
Qed.
Lemma visible_app a b : visible (a ++ b) = visible a ++ visible b.
Proof. unfold visible. induction a as [|l a IH]; [reflexivity|]. cbn. destruct (is_visible l); cbn; now rewrite IH. Qed.

(** ** The whole partition *)
Record Good (c : dcfg) (y : dsys) (z : ssys) (lk : list page) (zz : bool) : Prop := {
  g_ex : exists qs sp, y_procs y = qs.*1 /\ z_procs z = qs.*2 /\
    SInv (y_sh y) (y_procs y) /\ TInv c (y_sh y) (y_procs y) sp zz /\ AInv c (y_sh y) (y_procs y) lk /\
    Rel c (y_sh y) (z_state z) qs;
}.

Definition start_ok (c : dcfg) (l : label) : Prop := match l with LCall _ op => valid_op (dc_lpage c) op | _ => True end.

Definition panic_label (l : label) : bool := match l with LVis _ v => is_panic (Some v) | _ => false end.
(** Some object's metadata record was reserved with an exponent other than the
    recorded one. *)
Definition inexact (c : dcfg) (y : dsys) : Prop :=
  (exists r ob, h_objs (y_sh y) !! r = Some ob /\ ~ exact_meta c (b_msize ob)) \/
  (exists p, p ∈ y_procs y /\ match p with PCreate3 _ msize _ _ | PCreate4 _ msize _ _ _ => ~ exact_meta c msize | _ => False end).

Lemma step_objs c o h p h' p' v : pstepR c o h p h' p' v -> objs_le h h'.
Proof.
  destruct 1; first [apply objs_le_refl; reflexivity|eapply objs_le_set; [eassumption|repeat split|auto; fail]|eapply objs_le_add; reflexivity|idtac].
Qed.

Lemma good_step c y l y' z lk zz : cfg_ok c -> start_ok c l -> Good c y z lk zz -> dstep c y l y' ->
  exists ls z' lk' zz', spec_steps (dc_lpage c) z ls z' /\ visible ls = visible [l] /\ Good c y' z' lk' zz' /\
    (lk' = lk \/ panic_label l = true \/ inexact c y') /\ (zz' = zz \/ panic_label l = true).
Proof.
  intros Hc Hv [(qs & sp & Hp1 & Hp2 & HS & HT & HA & HR)] St. destruct z as [S zs]. cbn [z_state z_procs] in *. subst zs.
  destruct St as [y op|y i p o h' p' v Hi Hid Hlt Htm Hs|y i p addr len f Hi Hf|y t' Ht].
  - assert (Hl : length (y_procs y) = length qs.*2) by (rewrite Hp1, !fmap_length; reflexivity).
    exists ([] ++ [LCall (length (y_procs y)) op]), {| z_state := S; z_procs := qs.*2 ++ [SCall op] |}, lk, zz.
    split; [|split; [reflexivity|split; [|auto]]].
    + econstructor; [constructor|]. rewrite Hl. exact (spec_call (dc_lpage c) {| z_state := S; z_procs := qs.*2 |} op).
    + constructor. exists (qs ++ [(PStart op, SCall op)]), sp. cbn [y_procs y_sh z_state z_procs].
      assert (Hpm : PStart op :: y_procs y ≡ₚ y_procs y ++ [PStart op]) by apply Permutation_cons_append.
      split; [rewrite fmap_app, <- Hp1; reflexivity|]. split; [now rewrite fmap_app|].
      split; [eapply SInv_perm; [exact Hpm|now apply S_new]|].
      split; [eapply TInv_perm; [exact Hpm|now apply T_new]|].
      split; [eapply AInv_perm; [exact Hpm|now apply A_new]|].
      eapply Rel_perm; [apply Permutation_cons_append|]. now apply Rel_new.
  - assert (Hq : exists s, qs !! i = Some (p, s)).
    { rewrite Hp1, list_lookup_fmap in Hi. destruct (qs !! i) as [[p1 s]|]; [|discriminate]. cbn in Hi. exists s. congruence. }
    destruct Hq as [s Hq]. pose proof (delete_Permutation qs i _ Hq) as Hpm.
    assert (Hpm1 : y_procs y ≡ₚ p :: (delete i qs).*1) by (rewrite Hp1; exact (fmap_Permutation fst _ _ Hpm)).
    pose proof (SInv_perm _ _ _ Hpm1 HS) as HS1. pose proof (TInv_perm _ _ _ _ _ _ Hpm1 HT) as HT1.
    pose proof (AInv_perm _ _ _ _ _ Hpm1 HA) as HA1. pose proof (Rel_perm _ _ _ _ _ Hpm HR) as HR1.
    apply pstep_R in Hs.
    pose proof (S_step _ _ _ _ _ _ _ _ HS1 Hid Hs) as HS2.
    destruct (T_step _ _ _ _ _ _ _ _ _ _ HS1 HT1 Hid Hlt Hs) as (sp' & zz' & HT2 & Hzz).
    destruct (A_step _ _ _ _ _ _ _ _ _ _ _ Hc HS1 HT1 HA1 Hs) as (ex & HA2 & Hex).
    destruct (sim_step _ _ _ _ _ _ _ _ _ _ _ _ _ Hc HS1 HT1 HA1 HR1 Hid Hs) as (S' & s' & Hw & HR2).
    assert (Hqs : qs.*2 !! i = Some s) by (rewrite list_lookup_fmap, Hq; reflexivity).
    assert (Hdel : (delete i qs).*2 = delete i qs.*2).
    { clear. revert i. induction qs as [|x l IH]; intros [|i]; cbn; [reflexivity..|]. f_equal. apply IH. }
    rewrite Hdel in Hw. destruct (wsteps_spec _ _ _ _ _ _ _ _ Hqs Hw) as (ls & Hls & Hvis).
    exists ls, {| z_state := S'; z_procs := <[i := s']> qs.*2 |}, (ex ++ lk), zz'.
    split; [exact Hls|]. split; [exact Hvis|]. split; [|split].
    2:{ destruct Hex as [->|[Hpn|(m & msize & moff & id & -> & Hx)]]; [now left|right|right].
        - left. destruct v; [exact Hpn|discriminate].
        - right. inversion Hs; subst. right. exists (PCreate3 m msize moff id). cbn [y_procs]. split; [|exact Hx].
          eapply elem_of_list_lookup_2. apply list_lookup_insert. eapply lookup_lt_Some, Hi. }
    2:{ destruct Hzz as [->|Hpn]; [now left|right]. destruct v; [exact Hpn|discriminate]. }
    constructor. exists (<[i := (p', s')]> qs), sp'. cbn [y_procs y_sh z_state z_procs].
    pose proof (insert_perm qs i (p, s) (p', s') Hq) as Hpi.
    assert (Hpi1 : <[i := p']> (y_procs y) ≡ₚ p' :: (delete i qs).*1).
    { rewrite Hp1. change p' with (fst (p', s')) at 1. rewrite <- (list_fmap_insert fst qs i (p', s')). exact (fmap_Permutation fst _ _ Hpi). }
    symmetry in Hpi, Hpi1.
    split; [rewrite Hp1; symmetry; apply (list_fmap_insert fst)|]. split; [symmetry; apply (list_fmap_insert snd)|].
    split; [eapply SInv_perm; eassumption|]. split; [eapply TInv_perm; eassumption|].
    split; [eapply AInv_perm; eassumption|]. eapply Rel_perm; eassumption.
  - assert (Hq : exists s, qs !! i = Some (p, s)).
    { rewrite Hp1, list_lookup_fmap in Hi. destruct (qs !! i) as [[p1 s]|]; [|discriminate]. cbn in Hi. exists s. congruence. }
    destruct Hq as [s Hq]. pose proof (delete_Permutation qs i _ Hq) as Hpm.
    assert (Hpm1 : y_procs y ≡ₚ p :: (delete i qs).*1) by (rewrite Hp1; exact (fmap_Permutation fst _ _ Hpm)).
    exists [], {| z_state := S; z_procs := qs.*2 |}, lk, zz. split; [constructor|]. split; [reflexivity|]. split; [|auto].
    constructor. exists qs, sp. cbn [y_procs y_sh z_state z_procs]. split; [exact Hp1|]. split; [reflexivity|].
    split; [destruct HS; constructor; assumption|]. split; [destruct HT; constructor; assumption|].
    split; [now apply A_dev|].
    eapply Rel_perm; [symmetry; exact Hpm|]. eapply rel_torn; [exact Hc|eapply SInv_perm; eassumption|eapply AInv_perm; eassumption|eapply Rel_perm; eassumption|exact Hf|].
    intros x Hx. cbn in Hx. destruct ((addr <=? x) && (x <? addr + len)) eqn:E; [|contradiction].
    apply andb_true_iff in E as [E1 E2]. apply N.leb_le in E1. apply N.ltb_lt in E2. auto.
  - exists [], {| z_state := S; z_procs := qs.*2 |}, lk, zz. split; [constructor|]. split; [reflexivity|]. split; [|auto].
    constructor. exists qs, sp. cbn [y_procs y_sh z_state z_procs]. split; [exact Hp1|]. split; [reflexivity|].
    split; [destruct HS; constructor; assumption|]. split; [now apply T_flush|].
    split; [now apply A_flush|].
    destruct HR as [R1 R2 R3 R4 R5 R6 R7]. constructor; assumption.
Qed.

Lemma inexact_step c y l y' : inexact c y -> dstep c y l y' -> inexact c y' \/ panic_label l = true.
Proof.
  intros HX St. destruct St as [y op|y i p o h' p' v Hi Hid Hlt Htm Hs|y i p addr len f Hi Hf|y t' Ht].
  - left. destruct HX as [HX|(p & Hp & HX)]; [now left|]. right. exists p. split; [|exact HX]. apply elem_of_app. now left.
  - apply pstep_R in Hs. destruct HX as [(r & ob & E & HX)|(q & Hq & HX)].
    + destruct (step_objs _ _ _ _ _ _ _ Hs r ob E) as (ob' & E' & (_ & _ & Em & _) & _). left. left. exists r, ob'. split; [exact E'|]. now rewrite Em.
    + apply elem_of_list_lookup in Hq as [j Hj]. destruct (decide (i = j)) as [<-|Hne].
      * assert (q = p) as -> by congruence. destruct p; try (exact (False_ind _ HX)); inversion Hs; subst.
        -- right. reflexivity.
        -- left. right. eexists. split; [eapply elem_of_list_lookup_2; cbn [y_procs]; apply list_lookup_insert; eapply lookup_lt_Some, Hi|]. exact HX.
        -- right. reflexivity.
        -- left. left. exists (length (h_objs (y_sh y))). eexists. cbn. split; [apply list_lookup_middle; reflexivity|]. exact HX.
      * left. right. exists q. split; [|exact HX]. eapply elem_of_list_lookup_2. cbn [y_procs]. rewrite list_lookup_insert_ne by exact Hne. exact Hj.
  - left. exact HX.
  - left. exact HX.
Qed.

Definition panicked_in (ls : list label) : Prop := exists l, l ∈ ls /\ panic_label l = true.
Lemma good_steps c y ls y' z : cfg_ok c -> valid_calls (dc_lpage c) ls -> Good c y z [] false -> dsteps c y ls y' ->
  exists ls' z' lk' zz', spec_steps (dc_lpage c) z ls' z' /\ visible ls' = visible ls /\ Good c y' z' lk' zz' /\
    (lk' = [] \/ panicked_in ls \/ inexact c y') /\ (zz' = false \/ panicked_in ls).
Proof.
  intros Hc Hv HG Hs. induction Hs as [y|y ls y1 l y2 Hs IH St].
  - exists [], z, [], false. split; [constructor|]. split; [reflexivity|]. split; [exact HG|]. auto.
  - destruct IH as (ls1 & z1 & lk1 & zz1 & H1 & H2 & H3 & H3a & H3b); [intros i op Hin; apply (Hv i); apply elem_of_app; now left|exact HG|].
    assert (Hl : start_ok c l).
    { destruct l; cbn; auto. apply (Hv i). apply elem_of_app. right. constructor. }
    destruct (good_step _ _ _ _ _ _ _ Hc Hl H3 St) as (ls2 & z2 & lk2 & zz2 & H4 & H5 & H6 & H7 & H8).
    assert (Hold : panicked_in ls -> panicked_in (ls ++ [l])).
    { intros (l0 & Hin & Hp). exists l0. split; [apply elem_of_app; now left|exact Hp]. }
    assert (Hnew : panic_label l = true -> panicked_in (ls ++ [l])).
    { intros Hp. exists l. split; [apply elem_of_app; right; constructor|exact Hp]. }
    exists (ls1 ++ ls2), z2, lk2, zz2. split; [eapply spec_app; eassumption|]. split; [rewrite !visible_app; now rewrite H2, H5|].
    split; [exact H6|]. split.
    + destruct H3a as [->|[Hp|Hx]]; [|right; left; now apply Hold|].
      * destruct H7 as [->|[Hp|Hx]]; [now left|right; left; now apply Hnew|right; right; exact Hx].
      * destruct (inexact_step _ _ _ _ Hx St) as [Hx'|Hp]; [right; right; exact Hx'|right; left; now apply Hnew].
    + destruct H3b as [->|Hp]; [|right; now apply Hold]. destruct H8 as [->|Hp]; [now left|right; now apply Hnew].
Qed.

(** ** A freshly formatted partition *)
Lemma parse_zero page : Forall (fun b => b = 0) page -> parse_bundle page = Some [].
Proof.
  intros H. unfold parse_bundle. destruct page as [|b page]; [reflexivity|]. cbn [length].
  rewrite TuplesCodec.chunks_S. destruct (_ <? _)%nat; [reflexivity|]. rewrite TuplesCodec.parse_cons.
  change (N.to_nat tup_len) with 24%nat. inversion H; subst. reflexivity.
Qed.
Lemma fresh_init spage pages init y : Forall (Forall (fun b => b = 0)) pages -> opens spage pages init y -> Forall (fun l => l = []) init.
Proof.
  intros Hz (Hp & Hl & _). rewrite TuplesCodec.load_area_pages in Hl by (eapply Forall_impl; [exact Hp|intros x Hx; exact (proj1 Hx)]).
  clear Hp. apply mapM_Some in Hl. induction Hl as [|x y0 l k E Hl IH]; [constructor|]. inversion Hz; subst.
  constructor; [|now apply IH]. rewrite parse_zero in E by assumption. congruence.
Qed.
Lemma concat_nils {A} (l : list (list A)) : Forall (fun l => l = []) l -> concat l = [].
Proof. induction 1 as [|x l -> H IH]; [reflexivity|exact IH]. Qed.

Lemma fresh_good c pages y : dc_spage c <= dc_lpage c -> fresh_partition c pages y ->
  Good c y {| z_state := ss_empty; z_procs := [] |} [] false.
Proof.
  intros Hc [F0 F1 F2 F3 F4 F5 F6 F7 F8]. destruct y as [h ps]. cbn [y_sh y_procs] in *. subst ps.
  destruct F1 as (init & Ho). pose proof (fresh_init _ _ _ _ F0 Ho) as Hi. constructor. exists [], ∅. cbn [y_sh y_procs z_state z_procs].
  split; [reflexivity|]. split; [reflexivity|].
  assert (Ho' : owners h [] = []) by (unfold owners; rewrite F4, F5; reflexivity).
  split; [|split; [|split]].
  - constructor.
    + rewrite F5. intros tok r H. rewrite lookup_empty in H. discriminate.
    + rewrite F4. intros tok r H. rewrite lookup_empty in H. discriminate.
    + intros p H. inversion H.
    + rewrite Ho'. constructor.
    + rewrite F3. constructor.
    + rewrite F3. intros id H. inversion H.
    + rewrite F3. discriminate.
    + rewrite F3. discriminate.
    + rewrite F3. discriminate.
    + intros r p H. inversion H.
  - assert (HI : TuplesProofs.Inv (sy_state (h_tup h)) ∅).
    { destruct Ho as (_ & _ & Hn & _). apply new_loaded in Hn. pose proof (l_inv _ _ _ Hn) as HI.
      unfold index_of in HI. rewrite (concat_nils _ Hi) in HI. exact HI. }
    constructor.
    + exact HI.
    + intros id [t H]. rewrite lookup_empty in H. discriminate.
    + unfold irefs. rewrite F5. intros r H. inversion H.
    + unfold crefs. rewrite F4. intros r H. inversion H.
    + intros p H. inversion H.
    + constructor.
    + intros r ob H. rewrite Ho' in H. inversion H.
    + right. intros id [t H]. rewrite lookup_empty in H. discriminate.
    + constructor.
    + right. intros id H. inversion H.
  - constructor.
    + exists 0. unfold held. rewrite Ho'. cbn. apply new_inv; assumption.
    + rewrite F3. discriminate.
    + intros p H. inversion H.
  - constructor.
    + intros tok u H. cbn in H. rewrite lookup_empty in H. discriminate.
    + intros tok r [H|(p & H & _)]; [rewrite F5, lookup_empty in H; discriminate|inversion H].
    + intros tok u H. cbn in H. rewrite lookup_empty in H. discriminate.
    + intros key. rewrite F4. cbn. rewrite !lookup_empty. exact I.
    + intros id H. cbn in H. set_solver.
    + intros p s H. inversion H.
    + rewrite F3. discriminate.
Qed.
