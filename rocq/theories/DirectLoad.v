(** The loader: given index entries whose records decode and whose pages are
    disjoint, loading succeeds in every order. *)
From Coq Require Import ZifyBool ZifyNat ZifyN.
From stdpp Require Import base numbers list_numbers option gmap sets list.
From Verif Require Import Util Bytes BuddyModel BuddySpec BuddyProofs BuddyInv LayoutModel LayoutProofs.
From Verif Require Import PageIOModel TuplesModel TuplesSpec TuplesProofs.
From Verif Require Import DirectModel DirectBase DirectSteps DirectInv DirectTup DirectAlloc DirectDev DirectLoadModel.
Open Scope N_scope.
Ltac Zify.zify_post_hook ::= idtac.

(** An entry together with the record it names. *)
Notation entry := (tuple * dmeta)%type.
Definition lobj (e : entry) : dobj :=
  {| b_id := t_id (fst e); b_state := t_state (fst e); b_readers := 0; b_meta := snd e; b_msize := msize_of (snd e);
     b_mpage := (t_off (fst e), t_pow2 (fst e)) |}.
Definition epages (c : dcfg) (e : entry) : list page := obj_pages c (lobj e).
Definition entry_ok (c : dcfg) (d : device) (e : entry) : Prop :=
  meta_decode (dev_read d (t_off (fst e)) (2 ^ t_pow2 (fst e))) = Some (snd e, msize_of (snd e)) /\
  obj_ok c (lobj e) /\ (t_state (fst e) = ds_incomplete \/ t_state (fst e) = ds_committed).

Definition is_com (e : entry) : Prop := t_state (fst e) = ds_committed.
Definition is_inc (e : entry) : Prop := t_state (fst e) = ds_incomplete.
Definition ekey (e : entry) : list N := m_key (snd e).
Definition eid (e : entry) : N := t_id (fst e).

Record LInv (c : dcfg) (d : device) (t : tsys) (u : gset N) (h : shared) (done : list entry) : Prop := {
  li_dev : h_dev h = d; li_tup : h_tup h = t; li_used : h_used h = u;
  li_objs : exists es, h_objs h = lobj <$> es /\ es ⊆+ done;
  li_inc : forall tok r, h_inc h !! tok = Some r -> exists e, e ∈ done /\ h_objs h !! r = Some (lobj e) /\ is_inc e /\ eid e = tok;
  li_inc2 : forall e, e ∈ done -> is_inc e -> exists r, h_inc h !! eid e = Some r /\ h_objs h !! r = Some (lobj e);
  li_com : forall key r, h_com h !! key = Some r -> exists e, e ∈ done /\ h_objs h !! r = Some (lobj e) /\ is_com e /\ ekey e = key;
  li_com2 : forall e, e ∈ done -> is_com e -> exists r e', h_com h !! ekey e = Some r /\ e' ∈ done /\ h_objs h !! r = Some (lobj e') /\ eid e <= eid e';
  li_alloc : exists f, dinv c (h_alloc h) (h_objs h ≫= obj_pages c) f;
  li_owned : forall r e, h_objs h !! r = Some (lobj e) -> is_com e -> (exists e', e' ∈ done /\ is_com e' /\ ekey e' = ekey e /\ eid e < eid e') \/ h_com h !! ekey e = Some r;
}.

Lemma bind_fmap {A B C} (f : A -> B) (g : B -> list C) l : (f <$> l) ≫= g = l ≫= (fun x => g (f x)).
Proof. induction l as [|x l IH]; [reflexivity|]. cbn [fmap list_fmap]. rewrite !bind_cons. now f_equal. Qed.

Section Load.
Context (c : dcfg) (d : device) (t : tsys) (u : gset N) (all : list entry) (a0 : Allocator) (L : list page) (f0 : N).
Hypothesis Hids : NoDup (eid <$> all).
Hypothesis Hok : forall e, e ∈ all -> entry_ok c d e.
Hypothesis HI0 : dinv c a0 ((all ≫= epages c) ++ L) f0.

Lemma data_pages_ok e : e ∈ all -> data_pages c (snd e) = Some (dpages c (snd e)).
Proof.
  intros He. destruct (Hok e He) as (_ & ([_ (t' & tails & _ & _ & _ & Hd)] & _) & _). cbn [lobj b_meta] in Hd. unfold dpages. rewrite Hd. reflexivity.
Qed.

(** The pages of an object not loaded yet can be marked. *)
Lemma keep_ok h e es : e ∈ all -> h_objs h = lobj <$> es -> es ++ [e] ⊆+ all ->
  (exists f, dinv c (h_alloc h) (h_objs h ≫= obj_pages c) f) ->
  exists a, mark_all (h_alloc h) (b_mpage (lobj e) :: dpages c (snd e)) = Ok a /\
    exists f, dinv c a ((h_objs h ++ [lobj e]) ≫= obj_pages c) f.
Proof.
  intros He Hobjs Hsub [f HI].
  apply submseteq_Permutation in Hsub as [k Hk].
  assert (HI1 : dinv c a0 ((es ≫= epages c) ++ epages c e ++ (k ≫= epages c) ++ L) f0).
  { eapply inv_perm; [exact HI0|]. pose proof (bind_perm (epages c) _ _ Hk) as Hb. rewrite !bind_app_l, bind_cons, bind_nil, app_nil_r in Hb.
    rewrite Hb. rewrite <- !app_assoc. reflexivity. }
  assert (Hpg : epages c e ≡ₚ b_mpage (lobj e) :: dpages c (snd e)).
  { unfold epages, obj_pages. cbn [lobj b_meta]. rewrite Permutation_app_comm. reflexivity. }
  assert (Hob : h_objs h ≫= obj_pages c = es ≫= epages c) by (rewrite Hobjs, bind_fmap; reflexivity).
  destruct (mark_all_ok _ _ _ _ _ _ (b_mpage (lobj e) :: dpages c (snd e)) _ _ _ HI) as (a & Ha & HIa).
  - intros p Hp. eapply live_well_placed; [exact HI1|]. rewrite !elem_of_app. right. left. now rewrite Hpg.
  - assert (HI2 : dinv c a0 ((b_mpage (lobj e) :: dpages c (snd e)) ++ (es ≫= epages c) ++ (k ≫= epages c) ++ L) f0).
    { eapply inv_perm; [exact HI1|]. rewrite Hpg. apply Permutation_app_swap_app. }
    apply live_disjoint in HI2. intros i j p q Hij Hi Hj. apply (HI2 i j p q Hij); now apply lookup_app_l_Some.
  - intros p q Hp Hq x [Hx1 Hx2]. rewrite Hob in Hq.
    eapply (app_disjoint c a0 (es ≫= epages c) (epages c e ++ (k ≫= epages c) ++ L) f0 q p x HI1); [exact Hq| |exact Hx2|exact Hx1].
    apply elem_of_app. left. now rewrite Hpg.
  - exists a. split; [exact Ha|]. exists f. eapply inv_perm; [exact HIa|]. rewrite bind_app_l, bind_cons, bind_nil, app_nil_r.
    rewrite Permutation_app_comm. apply Permutation_app_head. rewrite reverse_Permutation. symmetry. exact Hpg.
Qed.

Lemma load1_ok h done e : done ++ [e] ⊆+ all -> LInv c d t u h done -> exists h', load1 c h (fst e) = Some h' /\ LInv c d t u h' (done ++ [e]).
Proof.
  intros Hsub HL. pose proof HL as [L1 L2 L3 (es & L4 & L4s) L5 L6 L7 L8 L9 L10].
  assert (He : e ∈ all) by (eapply elem_of_submseteq; [|exact Hsub]; apply elem_of_app; right; constructor).
  assert (Hes : es ++ [e] ⊆+ all) by (etransitivity; [apply submseteq_skips_r, L4s|exact Hsub]).
  assert (Hnd : NoDup (eid <$> (done ++ [e]))).
  { apply submseteq_Permutation in Hsub as [k Hk]. rewrite Hk, fmap_app in Hids. now apply NoDup_app in Hids. }
  rewrite fmap_app in Hnd. apply NoDup_app in Hnd as (_ & Hnew & _).
  assert (Hfresh : forall e', e' ∈ done -> eid e' <> eid e).
  { intros e' He' Heq. apply (Hnew (eid e')); [apply elem_of_list_fmap; eauto|]. rewrite Heq. constructor. }
  destruct (Hok e He) as (Hdec & Hobj & Hst).
  destruct (keep_ok h e es He L4 Hes L9) as (a & Ha & Hinv).
  assert (Hlen : (h_objs h ++ [lobj e]) !! length (h_objs h) = Some (lobj e)) by (apply list_lookup_middle; reflexivity).
  assert (Hold : forall r ob, h_objs h !! r = Some ob -> (h_objs h ++ [lobj e]) !! r = Some ob) by (intros; now apply lookup_app_l_Some).
  assert (Hobjs' : exists es', h_objs h ++ [lobj e] = lobj <$> es' /\ es' ⊆+ done ++ [e]).
  { exists (es ++ [e]). rewrite fmap_app, L4. split; [reflexivity|]. now apply submseteq_skips_r. }
  assert (Hdone : forall x, x ∈ done -> x ∈ done ++ [e]) by (intros; apply elem_of_app; now left).
  assert (Hine : e ∈ done ++ [e]) by (apply elem_of_app; right; constructor).
  assert (Hobinj : forall e1 e2, lobj e1 = lobj e2 -> eid e1 = eid e2 /\ ekey e1 = ekey e2 /\ t_state (fst e1) = t_state (fst e2)).
  { intros [t1 m1] [t2 m2] E. unfold lobj in E. cbn [fst snd] in E. injection E. unfold eid, ekey. cbn. intros. subst. auto. }
  assert (Hob_done : forall r e1, h_objs h !! r = Some (lobj e1) -> exists e2, e2 ∈ done /\ lobj e2 = lobj e1).
  { intros r e1 E. rewrite L4, list_lookup_fmap in E. destruct (es !! r) as [e2|] eqn:E2; [|discriminate]. cbn [fmap option_fmap option_map] in E. apply (f_equal (from_option id (lobj e2))) in E. cbn [from_option id] in E. exists e2.
    split; [|exact E]. eapply elem_of_submseteq; [eapply elem_of_list_lookup_2, E2|exact L4s]. }
  unfold load1. rewrite L1, Hdec. cbn [mbind option_bind]. fold (eid e).
  fold (lobj e).
  assert (Hkeep : forall h1, h_alloc h1 = h_alloc h -> load_keep c h1 (lobj e) =
     Some (bump (set_alloc h1 a) (met_loaded (b_msize (lobj e)) (m_size (b_meta (lobj e)))))).
  { intros h1 E1. unfold load_keep. cbn [lobj b_meta]. rewrite (data_pages_ok e He). cbn [mbind option_bind]. rewrite E1.
    change (b_mpage _) with (b_mpage (lobj e)). rewrite Ha. reflexivity. }
  destruct Hst as [Hst|Hst].
  - (* an upload *)
    rewrite Hst, N.eqb_refl. destruct (h_inc h !! eid e) as [r|] eqn:Ei.
    { exfalso. destruct (L5 _ _ Ei) as (e' & He' & _ & _ & Hid). exact (Hfresh e' He' Hid). }
    change {| b_id := t_id _; b_state := ds_incomplete; b_readers := _; b_meta := _; b_msize := _; b_mpage := _ |} with
      {| b_id := t_id (fst e); b_state := ds_incomplete; b_readers := 0; b_meta := snd e; b_msize := msize_of (snd e); b_mpage := (t_off (fst e), t_pow2 (fst e)) |}.
    rewrite <- Hst. fold (lobj e). rewrite Hkeep by reflexivity. eexists. split; [reflexivity|].
    constructor; cbn [h_dev h_tup h_used h_objs h_inc h_com h_alloc bump set_alloc set_inc load_add set_objs]; auto.
    + intros tok r E. apply lookup_insert_Some in E as [[<- <-]|[Hne E]].
      * exists e. auto.
      * destruct (L5 _ _ E) as (e' & He' & Eo & H). exists e'. auto.
    + intros e' He' Hi. apply elem_of_app in He' as [He'| ->%elem_of_list_singleton].
      * destruct (L6 e' He' Hi) as (r & E & Eo). exists r. rewrite lookup_insert_ne by (intros HH; exact (Hfresh e' He' (eq_sym HH))). auto.
      * exists (length (h_objs h)). rewrite lookup_insert. auto.
    + intros key r E. destruct (L7 _ _ E) as (e' & He' & Eo & H). exists e'. auto.
    + intros e' He' Hi. apply elem_of_app in He' as [He'| ->%elem_of_list_singleton].
      * destruct (L8 e' He' Hi) as (r & e2 & E & H2 & Eo & Hle). exists r, e2. auto.
      * exfalso. unfold is_com in Hi. rewrite Hst in Hi. discriminate Hi.
    + intros r e1 E Hcom. apply lookup_app_Some in E as [E|[Hge E]].
      * destruct (L10 r e1 E Hcom) as [(e' & He' & H)|H]; [left; exists e'; auto|right; exact H].
      * exfalso. apply elem_of_list_lookup_2, elem_of_list_singleton in E. destruct (Hobinj _ _ E) as (_ & _ & Hs). unfold is_com in Hcom. rewrite Hs, Hst in Hcom. discriminate Hcom.
  - (* a committed object *)
    rewrite Hst. replace (ds_committed =? ds_incomplete) with false by reflexivity. rewrite N.eqb_refl.
    change {| b_id := t_id _; b_state := ds_committed; b_readers := _; b_meta := _; b_msize := _; b_mpage := _ |} with
      {| b_id := t_id (fst e); b_state := ds_committed; b_readers := 0; b_meta := snd e; b_msize := msize_of (snd e); b_mpage := (t_off (fst e), t_pow2 (fst e)) |}.
    rewrite <- Hst. fold (lobj e). fold (ekey e).
    assert (Hkept : (forall r e', h_com h !! ekey e = Some r -> h_objs h !! r = Some (lobj e') -> eid e' < eid e) ->
      LInv c d t u (bump (set_alloc (set_com (load_add h (lobj e)) (<[ekey e := length (h_objs h)]> (h_com h))) a)
        (met_loaded (b_msize (lobj e)) (m_size (b_meta (lobj e))))) (done ++ [e])).
    { intros Hmax. constructor; cbn [h_dev h_tup h_used h_objs h_inc h_com h_alloc bump set_alloc set_com load_add set_objs]; auto.
      + intros tok r E. destruct (L5 _ _ E) as (e' & He' & Eo & H). exists e'. auto.
      + intros e' He' Hi. apply elem_of_app in He' as [He'| ->%elem_of_list_singleton].
        * destruct (L6 e' He' Hi) as (r & E & Eo). exists r. auto.
        * exfalso. unfold is_inc in Hi. rewrite Hst in Hi. discriminate Hi.
      + intros key r E. apply lookup_insert_Some in E as [[<- <-]|[Hne E]].
        * exists e. auto.
        * destruct (L7 _ _ E) as (e' & He' & Eo & H). exists e'. auto.
      + intros e' He' Hi. destruct (decide (ekey e' = ekey e)) as [Hk|Hk].
        * exists (length (h_objs h)), e. rewrite Hk, lookup_insert. split; [reflexivity|]. split; [exact Hine|]. split; [exact Hlen|].
          apply elem_of_app in He' as [He'| ->%elem_of_list_singleton]; [|reflexivity].
          destruct (L8 e' He' Hi) as (r & e2 & E & H2 & Eo & Hle). rewrite Hk in E. specialize (Hmax r e2 E Eo). lia.
        * rewrite lookup_insert_ne by auto. apply elem_of_app in He' as [He'| ->%elem_of_list_singleton]; [|contradiction].
          destruct (L8 e' He' Hi) as (r & e2 & E & H2 & Eo & Hle). exists r, e2. auto.
      + intros r e1 E Hcom. destruct (decide (ekey e1 = ekey e)) as [Hk|Hk].
        * apply lookup_app_Some in E as [E|[Hge E]].
          -- left. exists e. split; [exact Hine|]. split; [exact Hst|]. split; [auto|].
             destruct (L10 r e1 E Hcom) as [(e' & He' & Hc' & Hk' & Hlt)|HH].
             ++ destruct (L8 e' He' Hc') as (r2 & e2 & E2 & H2 & Eo2 & Hle). rewrite Hk', Hk in E2. specialize (Hmax r2 e2 E2 Eo2). lia.
             ++ rewrite Hk in HH. exact (Hmax r e1 HH E).
          -- right. rewrite Hk, lookup_insert. f_equal. apply lookup_lt_Some in E. cbn [length] in E. lia.
        * rewrite lookup_insert_ne by auto. apply lookup_app_Some in E as [E|[Hge E]].
          -- destruct (L10 r e1 E Hcom) as [(e' & He' & H)|H]; [left; exists e'; auto|right; exact H].
          -- exfalso. apply elem_of_list_lookup_2, elem_of_list_singleton in E. destruct (Hobinj _ _ E) as (_ & Hs & _). contradiction. }
    destruct (h_com h !! ekey e) as [r'|] eqn:Ec.
    + destruct (L7 _ _ Ec) as (e' & He' & Eo & Hcom' & Hk'). rewrite Eo. cbn [mbind option_bind]. change (b_id (lobj e')) with (eid e').
      destruct (N.eqb_spec (eid e') (eid e)) as [Heq|Hne]; [exfalso; exact (Hfresh e' He' Heq)|].
      destruct (N.ltb_spec (eid e) (eid e')) as [Hlt|Hge].
      * exists h. split; [reflexivity|]. constructor; auto.
        -- exists es. split; [exact L4|]. etransitivity; [exact L4s|]. apply submseteq_inserts_r. reflexivity.
        -- intros tok r E. destruct (L5 _ _ E) as (e2 & He2 & Eo2 & H). exists e2. auto.
        -- intros e2 He2 Hi. apply elem_of_app in He2 as [He2| ->%elem_of_list_singleton]; [auto|]. exfalso. unfold is_inc in Hi. rewrite Hst in Hi. discriminate Hi.
        -- intros key r E. destruct (L7 _ _ E) as (e2 & He2 & Eo2 & H). exists e2. auto.
        -- intros e2 He2 Hi. apply elem_of_app in He2 as [He2| ->%elem_of_list_singleton].
           ++ destruct (L8 e2 He2 Hi) as (r & e3 & E & H2 & Eo2 & Hle). exists r, e3. auto.
           ++ exists r', e'. split; [exact Ec|]. split; [auto|]. split; [exact Eo|lia].
        -- intros r e1 E Hcom. destruct (L10 r e1 E Hcom) as [(e2 & He2 & H)|H]; [left; exists e2; auto|right; exact H].
      * rewrite Hkeep by reflexivity. eexists. split; [reflexivity|]. apply Hkept. intros r e2 E2 Eo2. assert (r = r') as -> by congruence.
        rewrite Eo in Eo2. assert (Heq : lobj e' = lobj e2) by congruence. destruct (Hobinj _ _ Heq) as (Hi & _). lia.
    + rewrite Hkeep by reflexivity. eexists. split; [reflexivity|]. apply Hkept. intros r e2 E2. congruence.
Qed.

Lemma load_all_ok l : forall h done, done ++ l ⊆+ all -> LInv c d t u h done ->
  exists h', load_all c h l.*1 = Some h' /\ LInv c d t u h' (done ++ l).
Proof.
  induction l as [|e l IH]; intros h done Hsub HL.
  - exists h. rewrite app_nil_r. auto.
  - cbn [fmap list_fmap load_all]. change (e :: l) with ([e] ++ l) in *. rewrite app_assoc in *.
    destruct (load1_ok h done e) as (h1 & E1 & HL1); [|exact HL|].
    { etransitivity; [|exact Hsub]. apply submseteq_inserts_r. reflexivity. }
    rewrite E1. cbn [mbind option_bind]. destruct (IH h1 (done ++ [e]) Hsub HL1) as (h' & E' & HL'). eauto.
Qed.
End Load.
