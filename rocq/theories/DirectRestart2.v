(** The state of a partition that has just been opened. *)
From Coq Require Import ZifyBool ZifyNat ZifyN.
From stdpp Require Import base numbers list_numbers option gmap sets functions list.
From Verif Require Import Util Bytes BuddyModel BuddySpec BuddyProofs BuddyInv LayoutModel LayoutProofs.
From Verif Require Import PageIOModel PageIOSpec TuplesModel TuplesSpec TuplesProofs TuplesSys TuplesDurable TuplesLife.
From Verif Require Import DirectModel DirectBase DirectSteps DirectInv DirectTup DirectAlloc DirectDev DirectSpec DirectRel DirectSim DirectSys.
From Verif Require Import DirectMetricsSpec DirectLoadModel DirectCodec DirectRec DirectLog DirectLoad DirectSeqSpec DirectAlive.
Open Scope N_scope.
Ltac Zify.zify_post_hook ::= idtac.

Lemma vals_nodup {K} `{Countable K} (m : gmap K nat) : (forall k1 k2 r, m !! k1 = Some r -> m !! k2 = Some r -> k1 = k2) -> NoDup (vals m).
Proof.
  intros Hi. unfold vals. apply NoDup_fmap_2_strong; [|apply NoDup_map_to_list].
  intros [k1 r1] [k2 r2] H1 H2 E. cbn in E. subst r2. apply elem_of_map_to_list in H1, H2. f_equal. eauto.
Qed.

(** No two committed entries have the same key. *)
Definition one_per_key (es : list entry) : Prop :=
  forall e1 e2, e1 ∈ es -> e2 ∈ es -> is_com e1 -> is_com e2 -> ekey e1 = ekey e2 -> e1 = e2.

Section Opened.
Context (c : dcfg) (d : device) (t : tsys) (u : gset N) (h : shared) (es : list entry) (init : list (list tuple)) (pages : list (list N)) (a0 : Allocator) (L : list page) (f0 : N).
Hypothesis Hc : cfg_ok c.
Hypothesis HL : LInv c d t u h es.
Hypothesis Hids : NoDup (eid <$> es).
Hypothesis Hok : forall e, e ∈ es -> entry_ok c d e.
Hypothesis Hty : forall e, e ∈ es -> ty_meta (snd e).
Hypothesis Hx : forall e, e ∈ es -> exact_meta c (msize_of (snd e)).
Hypothesis Hrec : forall e, e ∈ es -> dev_read d (t_off (fst e)) (msize_of (snd e)) = meta_encode (snd e).
Hypothesis HI0 : dinv c a0 ((es ≫= epages c) ++ L) f0.
Hypothesis Hu : forall e, e ∈ es -> eid e ∈ u.
Hypothesis Ho : opens (dc_spage c) pages init t.
Hypothesis Hes : es.*1 ≡ₚ concat init.
Let h' := bump h (met_counts h).

Lemma eid_inj e1 e2 : e1 ∈ es -> e2 ∈ es -> eid e1 = eid e2 -> e1 = e2.
Proof.
  intros H1 H2 E. apply elem_of_list_lookup_1 in H1 as [i Hi]. apply elem_of_list_lookup_1 in H2 as [j Hj].
  assert (i = j); [|congruence]. eapply (NoDup_lookup _ i j (eid e1)); [exact Hids| |]; rewrite list_lookup_fmap; [now rewrite Hi|rewrite Hj; cbn; congruence].
Qed.
Lemma obj_entry r ob : h_objs h !! r = Some ob -> exists e, e ∈ es /\ ob = lobj e.
Proof.
  intros E. destruct (li_objs _ _ _ _ _ _ HL) as (es' & E' & Hs). rewrite E', list_lookup_fmap in E.
  destruct (es' !! r) as [e|] eqn:Er; [|discriminate]. exists e. split; [eapply elem_of_submseteq; [eapply elem_of_list_lookup_2, Er|exact Hs]|].
  cbn [fmap option_fmap option_map] in E. now apply (f_equal (from_option id ob)) in E.
Qed.
Lemma obj_ids : NoDup (b_id <$> h_objs h).
Proof.
  destruct (li_objs _ _ _ _ _ _ HL) as (es' & E' & Hs). rewrite E', <- list_fmap_compose.
  apply submseteq_Permutation in Hs as [k Hk]. rewrite Hk, fmap_app in Hids. now apply NoDup_app in Hids.
Qed.
Lemma obj_id_inj r1 r2 o1 o2 : h_objs h !! r1 = Some o1 -> h_objs h !! r2 = Some o2 -> b_id o1 = b_id o2 -> r1 = r2.
Proof. intros E1 E2 E. eapply (NoDup_lookup _ r1 r2 (b_id o1)); [exact obj_ids| |]; rewrite list_lookup_fmap; [now rewrite E1|rewrite E2; cbn; congruence]. Qed.
Lemma lobj_inj e1 e2 : lobj e1 = lobj e2 -> e1 = e2.
Proof. destruct e1 as [[s1 i1 o1 p1] m1], e2 as [[s2 i2 o2 p2] m2]. unfold lobj. cbn. intros E. injection E. intros. subst. reflexivity. Qed.
Lemma same_ref r e1 e2 : h_objs h !! r = Some (lobj e1) -> h_objs h !! r = Some (lobj e2) -> e1 = e2.
Proof. intros E1 E2. rewrite E1 in E2. apply (f_equal (from_option id (lobj e1))) in E2. now apply lobj_inj. Qed.

Lemma opened_distinct : one_per_key es -> ~ duplicate_keys h.
Proof.
  intros H1 (i & j & o & o' & Hij & Hi & Hj & Hs & Hs' & Hk). apply Hij.
  destruct (obj_entry _ _ Hi) as (e & He & ->). destruct (obj_entry _ _ Hj) as (e' & He' & ->).
  eapply obj_id_inj; [exact Hi|exact Hj|]. rewrite (H1 e e' He He' Hs Hs' Hk). reflexivity.
Qed.
Lemma opened_nodup : NoDup (vals (h_inc h) ++ vals (h_com h)).
Proof.
  apply NoDup_app. split; [|split].
  - apply vals_nodup. intros k1 k2 r H1 H2. destruct (li_inc _ _ _ _ _ _ HL _ _ H1) as (e1 & _ & E1 & _ & <-).
    destruct (li_inc _ _ _ _ _ _ HL _ _ H2) as (e2 & _ & E2 & _ & <-). f_equal. eapply same_ref; eassumption.
  - intros r H1 H2. apply elem_of_vals in H1 as [k1 H1]. apply elem_of_vals in H2 as [k2 H2].
    destruct (li_inc _ _ _ _ _ _ HL _ _ H1) as (e1 & _ & E1 & I1 & _). destruct (li_com _ _ _ _ _ _ HL _ _ H2) as (e2 & _ & E2 & I2 & _).
    assert (e1 = e2) as -> by (eapply same_ref; eassumption). unfold is_inc, is_com in *. rewrite I1 in I2. discriminate.
  - apply vals_nodup. intros k1 k2 r H1 H2. destruct (li_com _ _ _ _ _ _ HL _ _ H1) as (e1 & _ & E1 & _ & <-).
    destruct (li_com _ _ _ _ _ _ HL _ _ H2) as (e2 & _ & E2 & _ & <-). f_equal. eapply same_ref; eassumption.
Qed.

Lemma opened_S : SInv h' [].
Proof.
  unfold h'. constructor; cbn [h_inc h_com h_objs bump h_used] in *; rewrite ?bind_nil.
  - intros tok r E. destruct (li_inc _ _ _ _ _ _ HL _ _ E) as (e & _ & E1 & I1 & Hi). exists (lobj e). auto.
  - intros key r E. destruct (li_com _ _ _ _ _ _ HL _ _ E) as (e & _ & E1 & I1 & Hi). exists (lobj e). auto.
  - intros p H. inversion H.
  - unfold owners. cbn [h_inc h_com h_objs bump h_used]. rewrite bind_nil, app_nil_r. exact opened_nodup.
  - rewrite app_nil_r. exact obj_ids.
  - intros id. rewrite app_nil_r. intros H. apply elem_of_list_fmap in H as (ob & -> & H). apply elem_of_list_lookup_1 in H as [r H].
    destruct (obj_entry _ _ H) as (e & He & ->). rewrite (li_used _ _ _ _ _ _ HL). apply (Hu e He).
  - intros r ob E. destruct (obj_entry _ _ E) as (e & He & ->). now destruct (Hok e He) as (_ & _ & H).
  - intros r ob E Hs. left. destruct (obj_entry _ _ E) as (e & He & ->). destruct (li_inc2 _ _ _ _ _ _ HL e He Hs) as (r2 & H2 & E2).
    assert (r = r2) as -> by (eapply obj_id_inj; [exact E|exact E2|reflexivity]). apply elem_of_vals. eauto.
  - intros r ob E. destruct (obj_entry _ _ E) as (e & He & ->). reflexivity.
  - intros r p H. inversion H.
Qed.

Notation sp := (index_of init).
Lemma loaded : Loaded (sy_state t) (2 ^ dc_spage c / 24) init.
Proof. destruct Ho as (_ & _ & H & _). now apply new_loaded in H. Qed.
Lemma sp_entry e : e ∈ es -> sp !! eid e = Some (fst e).
Proof.
  intros He. apply index_of_lookup; [apply (l_nodup _ _ _ loaded)|]. split; [|reflexivity]. rewrite <- Hes. now apply elem_of_list_fmap_1.
Qed.
Lemma sp_entry2 id x : sp !! id = Some x -> exists e, e ∈ es /\ fst e = x /\ eid e = id.
Proof.
  intros E. apply index_of_lookup in E as [E1 E2]; [|apply (l_nodup _ _ _ loaded)]. rewrite <- Hes in E1. apply elem_of_list_fmap in E1 as (e & -> & He).
  exists e. auto.
Qed.
Lemma entry_lobj e : entry_of (lobj e) (t_state (fst e)) = fst e.
Proof. destruct e as [[s1 i1 o1 p1] m1]. reflexivity. Qed.

Lemma opened_T (zz : bool) : (zz = true \/ one_per_key es) -> TInv c h' [] sp zz.
Proof.
  intros Hz. unfold h'. constructor; cbn [h_inc h_com h_objs bump h_used h_tup]; try (rewrite !bind_nil).
  - rewrite (li_tup _ _ _ _ _ _ HL). apply (l_inv _ _ _ loaded).
  - intros id [x E]. destruct (sp_entry2 _ _ E) as (e & He & _ & <-). rewrite (li_used _ _ _ _ _ _ HL). auto.
  - intros r Hr. unfold irefs in Hr. rewrite bind_nil, app_nil_r in Hr. apply elem_of_vals in Hr as [k Hk]. cbn [h_inc bump] in Hk.
    destruct (li_inc _ _ _ _ _ _ HL _ _ Hk) as (e & He & E & I & _). exists (lobj e). split; [exact E|]. change (b_id (lobj e)) with (eid e).
    rewrite (sp_entry e He). f_equal. rewrite <- I. symmetry. apply entry_lobj.
  - intros r Hr. left. unfold crefs in Hr. rewrite bind_nil, app_nil_r in Hr. apply elem_of_vals in Hr as [k Hk]. cbn [h_com bump] in Hk.
    destruct (li_com _ _ _ _ _ _ HL _ _ Hk) as (e & He & E & I & _). exists (lobj e). split; [exact E|]. change (b_id (lobj e)) with (eid e).
    rewrite (sp_entry e He). f_equal. rewrite <- I. symmetry. apply entry_lobj.
  - intros p H. inversion H.
  - constructor.
  - intros r ob _ _ H. inversion H.
  - destruct Hz as [Hz|Hz]; [now left|right]. intros id [x E]. destruct (sp_entry2 _ _ E) as (e & He & _ & <-). left.
    destruct (Hok e He) as (_ & _ & [Hst|Hst]).
    + destruct (li_inc2 _ _ _ _ _ _ HL e He Hst) as (r & H1 & H2). exists r, (lobj e). split; [left|auto].
      unfold irefs. apply elem_of_app. left. apply elem_of_vals. eauto.
    + destruct (li_com2 _ _ _ _ _ _ HL e He Hst) as (r & e' & H1 & He' & H2 & _).
      destruct (li_com _ _ _ _ _ _ HL _ _ H1) as (e2 & He2 & E2 & I2 & Hk2). assert (e2 = e) as -> by (apply Hz; auto).
      exists r, (lobj e). split; [right|auto]. unfold crefs. apply elem_of_app. left. apply elem_of_vals. eauto.
  - constructor.
  - right. intros id H. inversion H.
Qed.

Lemma objs_seq : h_objs h ≫= obj_pages c = seq 0 (length (h_objs h)) ≫= opages c h.
Proof.
  assert (G : forall l pre, h_objs h = pre ++ l -> l ≫= obj_pages c = seq (length pre) (length l) ≫= opages c h).
  { induction l as [|x l IH]; intros pre E; [reflexivity|]. cbn [length seq]. rewrite !bind_cons. f_equal.
    - unfold opages. rewrite E, list_lookup_middle by reflexivity. reflexivity.
    - rewrite (IH (pre ++ [x])); [|rewrite E, <- app_assoc; reflexivity]. rewrite app_length. cbn [length]. do 2 f_equal. lia. }
  apply (G _ []). reflexivity.
Qed.
Lemma opened_owner r : r ∈ owners h' [] -> (r < length (h_objs h))%nat.
Proof. intros H. change (h_objs h) with (h_objs h'). eapply owner_lt; [exact opened_S|exact H]. Qed.
Lemma opened_objs r ob : h_objs h !! r = Some ob -> obj_ok c ob /\ opg c (b_meta ob) /\ ty_meta (b_meta ob).
Proof.
  intros E. destruct (obj_entry _ _ E) as (e & He & ->). destruct (Hok e He) as (_ & Hobj & _). split; [exact Hobj|]. split; [|exact (Hty e He)].
  apply elem_of_list_split in He as (l1 & l2 & Hl). eapply (held_object_pages c _ a0); [exact Hc|apply Hobj|].
  eapply inv_perm; [exact HI0|]. rewrite Hl, bind_app_l, bind_cons. unfold epages at 2, obj_pages. rewrite <- !app_assoc. apply Permutation_app_swap_app.
Qed.

Lemma opened_A : exists lk, AInv c h' [] lk /\ (one_per_key es -> lk = []) /\
  (forall p, p ∈ lk -> exists e e', e ∈ es /\ e' ∈ es /\ is_com e /\ is_com e' /\ ekey e = ekey e' /\ eid e < eid e' /\ p ∈ epages c e).
Proof.
  assert (Hsub : owners h' [] ⊆+ seq 0 (length (h_objs h))).
  { apply NoDup_submseteq; [exact (s_nodup _ _ opened_S)|]. intros r Hr. apply elem_of_seq. apply opened_owner in Hr. lia. }
  apply submseteq_Permutation in Hsub as [k Hk].
  assert (Hlose : forall r, r ∈ k -> exists e e', e ∈ es /\ e' ∈ es /\ is_com e /\ is_com e' /\ ekey e = ekey e' /\ eid e < eid e' /\ h_objs h !! r = Some (lobj e)).
  { intros r Hr. assert (Hlt : (r < length (h_objs h))%nat).
    { assert (Hin : r ∈ seq 0 (length (h_objs h))) by (rewrite Hk; apply elem_of_app; auto). apply elem_of_seq in Hin. lia. }
    assert (Hno : r ∉ owners h' []).
    { intros H. pose proof (NoDup_seq 0 (length (h_objs h))) as Hnd. rewrite Hk in Hnd. apply NoDup_app in Hnd as (_ & Hd & _). exact (Hd r H Hr). }
    apply lookup_lt_is_Some_2 in Hlt as [ob E]. destruct (obj_entry _ _ E) as (e & He & ->). destruct (Hok e He) as (_ & _ & [Hst|Hst]).
    - exfalso. apply Hno. unfold owners. apply elem_of_app. left. destruct (li_inc2 _ _ _ _ _ _ HL e He Hst) as (r2 & H2 & E2).
      assert (r = r2) as -> by (eapply obj_id_inj; [exact E|exact E2|reflexivity]). apply elem_of_vals. eauto.
    - destruct (li_owned _ _ _ _ _ _ HL r e E Hst) as [(e' & He' & H1 & H2 & H3)|Hcom].
      + exists e, e'. auto 10.
      + exfalso. apply Hno. unfold owners. rewrite !elem_of_app. right. left. apply elem_of_vals. eauto. }
  exists (k ≫= opages c h'). split; [|split].
  - constructor.
    + destruct (li_alloc _ _ _ _ _ _ HL) as [f HI]. exists f. unfold h' at 1. cbn [bump h_alloc]. eapply inv_perm; [exact HI|].
      unfold held. rewrite bind_nil, app_nil_r. rewrite objs_seq. rewrite <- bind_app_l. apply bind_perm. exact Hk.
    + intros r ob E. now apply (opened_objs r).
    + intros p H. inversion H.
  - intros Hone. destruct k as [|r k]; [reflexivity|exfalso]. destruct (Hlose r ltac:(constructor)) as (e & e' & H1 & H2 & H3 & H4 & H5 & H6 & _).
    assert (e = e') as -> by (apply Hone; auto). lia.
  - intros p Hp. apply elem_of_list_bind in Hp as (r & Hp & Hr). destruct (Hlose r Hr) as (e & e' & H1 & H2 & H3 & H4 & H5 & H6 & H7).
    exists e, e'. do 6 (split; [assumption|]). unfold opages, h' in Hp. cbn [bump h_objs] in Hp. rewrite H7 in Hp. exact Hp.
Qed.

Lemma opened_K : KInv c t init h' [] [].
Proof.
  constructor.
  - unfold h'. cbn [bump h_tup]. rewrite (li_tup _ _ _ _ _ _ HL). constructor.
  - constructor.
  - unfold fresh_ids. cbn. rewrite app_nil_r. apply (l_nodup _ _ _ loaded).
  - intros id Hid. unfold known in Hid. cbn in Hid. rewrite app_nil_r in Hid. split; [|split; apply not_elem_of_nil].
    apply elem_of_list_fmap in Hid as (x & -> & Hx'). rewrite <- Hes in Hx'. apply elem_of_list_fmap in Hx' as (e & -> & He).
    unfold h'. cbn [bump h_used]. rewrite (li_used _ _ _ _ _ _ HL). exact (Hu e He).
  - intros p H. inversion H.
  - intros r ob Hr E. left. left. destruct (obj_entry _ _ E) as (e & He & ->). apply elem_of_list_fmap. exists (fst e). split; [reflexivity|].
    rewrite <- Hes. now apply elem_of_list_fmap_1.
  - cbn. lia.
  - intros p H. inversion H.
Qed.
Lemma opened_Rec : RecInv c h' [].
Proof.
  constructor; [|intros p H; inversion H]. intros r ob _ E _. destruct (obj_entry _ _ E) as (e & He & ->).
  unfold h'. cbn [bump h_dev]. rewrite (li_dev _ _ _ _ _ _ HL). exact (Hrec e He).
Qed.
Lemma opened_Ty : TyInv h' [].
Proof. constructor; [|intros p H; inversion H]. intros r ob E. now apply (opened_objs r). Qed.
Lemma opened_exact : ~ inexact c {| y_sh := h'; y_procs := [] |}.
Proof.
  intros [(r & ob & E & Hn)|(p & Hp & _)]; [|inversion Hp]. apply Hn. destruct (obj_entry _ _ E) as (e & He & ->). exact (Hx e He).
Qed.

(** ** The specification's state *)
Variable S : sstate.
Hypothesis S_up : forall tok r, h_inc h !! tok = Some r -> exists x e, ss_up S !! tok = Some x /\ h_objs h !! r = Some (lobj e) /\ up_open x = true /\
  m_key (snd e) = up_key x /\ m_size (snd e) = up_size x /\ m_created (snd e) = up_created x /\
  forall off, part_rel c d [] tok (snd e) off (up_parts x off).
Hypothesis S_up2 : forall tok x, ss_up S !! tok = Some x -> is_Some (h_inc h !! tok).
Hypothesis S_com : forall key, com_rel c h (h_com h !! key) (ss_com S !! key).
Hypothesis S_ids : forall id, id ∈ ss_ids S -> id ∈ u.
Lemma opened_Rel : Rel c h' S [].
Proof.
  constructor; unfold h'; cbn [fmap list_fmap bump h_inc h_com h_objs h_dev h_used].
  - intros tok x E. destruct (S_up2 tok x E) as [r Hr]. exists r. left. exact Hr.
  - intros tok r [E|(p & Hp & _)]; [|inversion Hp]. destruct (S_up tok r E) as (x & e & H1 & H2 & _ & H3 & H4 & H5 & H6). exists x. split; [exact H1|].
    exists (lobj e). split; [exact H2|]. destruct (li_inc _ _ _ _ _ _ HL _ _ E) as (e' & He' & E' & _ & Hid).
    assert (e' = e) as -> by (eapply same_ref; eassumption). split; [exact Hid|]. do 3 (split; [assumption|]).
    cbn [bump h_dev]. rewrite (li_dev _ _ _ _ _ _ HL). exact H6.
  - intros tok x E. destruct (S_up2 tok x E) as [r Hr]. destruct (S_up tok r Hr) as (x' & _ & H1 & _ & H2 & _). assert (x' = x) as -> by congruence.
    split; [intros _; exists r; exact Hr|auto].
  - exact S_com.
  - intros id Hid. rewrite (li_used _ _ _ _ _ _ HL). split; [auto|]. apply not_elem_of_nil.
  - intros p s H. inversion H.
  - intros r ob E. now apply (opened_objs r).
Qed.

Lemma opened_good : exists lk, Good c {| y_sh := h'; y_procs := [] |} {| z_state := S; z_procs := [] |} lk true /\
  (one_per_key es -> Alive c {| y_sh := h'; y_procs := [] |} {| z_state := S; z_procs := [] |} []) /\
  (forall p, p ∈ lk -> exists e e', e ∈ es /\ e' ∈ es /\ is_com e /\ is_com e' /\ ekey e = ekey e' /\ eid e < eid e' /\ p ∈ epages c e).
Proof.
  destruct opened_A as (lk & HA & H1 & H2). exists lk. split; [|split; [|exact H2]].
  - constructor. exists [], (index_of init). split; [reflexivity|]. split; [reflexivity|]. split; [exact opened_S|].
    split; [apply opened_T; now left|]. split; [exact HA|exact opened_Rel].
  - intros Hone. constructor.
    + constructor. exists [], (index_of init). split; [reflexivity|]. split; [reflexivity|]. split; [exact opened_S|].
      split; [apply opened_T; now right|]. split; [|exact opened_Rel]. rewrite <- (H1 Hone). exact HA.
    + exists pages, t, init, []. split; [exact Ho|exact opened_K].
    + exact opened_Rec.
    + exact opened_Ty.
Qed.
End Opened.
