(** Invariants of a direct partition, part 3: the pages. *)
From Coq Require Import ZifyBool ZifyNat ZifyN.
From stdpp Require Import base numbers list_numbers option gmap sets list.
From Verif Require Import Util Bytes BuddyModel BuddySpec BuddyProofs BuddyInv LayoutModel LayoutProofs.
From Verif Require Import PageIOModel TokenModel TuplesModel TuplesProofs DirectModel DirectBase DirectSteps DirectInv DirectTup.
Open Scope N_scope.
Ltac Zify.zify_post_hook ::= idtac.

Definition obj_pages (c : dcfg) (ob : dobj) : list page := dpages c (b_meta ob) ++ [b_mpage ob].
Definition opages (c : dcfg) (h : shared) (r : nat) : list page :=
  match h_objs h !! r with Some ob => obj_pages c ob | None => [] end.
Definition bare (size : N) (lpages tails : list N) : dmeta :=
  {| m_size := size; m_created := 0; m_key := []; m_lpages := lpages; m_tails := tails |}.
(** Pages a call holds for an object it is making. *)
Definition pc_pages (c : dcfg) (p : pc) : list page :=
  match p with
  | PCreate1 _ size lpages tails => dpages c (bare size lpages tails)
  | PCreate2 m msize moff _ => dpages c m ++ [(moff, alloc_pow2 (dc_spage c) msize)]
  | PCreate3 m msize moff _ | PCreate4 m msize moff _ _ => dpages c m ++ [(moff, metadata_page_pow2 (dc_spage c) msize)]
  | _ => []
  end.
Definition held (c : dcfg) (h : shared) (ps : list pc) : list page :=
  (owners h ps ≫= opages c h) ++ (ps ≫= pc_pages c).

Definition obj_ok (c : dcfg) (ob : dobj) : Prop :=
  meta_ok c (b_meta ob) /\ b_msize ob = msize_of (b_meta ob) /\ b_msize ob <= 2 ^ dc_lpage c /\
  snd (b_mpage ob) = metadata_page_pow2 (dc_spage c) (b_msize ob).
Definition pc_mok (c : dcfg) (p : pc) : Prop :=
  match p with
  | PCreate1 _ size lpages tails => meta_ok c (bare size lpages tails)
  | PCreate2 m msize _ _ | PCreate3 m msize _ _ | PCreate4 m msize _ _ _ =>
      meta_ok c m /\ msize = msize_of m /\ msize <= 2 ^ dc_lpage c
  | _ => True
  end.

Record AInv (c : dcfg) (h : shared) (ps : list pc) (lk : list page) : Prop := {
  a_alloc : exists f, BuddyInv.Inv (dc_base c) (dc_heap c) (dc_spage c) (dc_lpage c) (2 ^ 32) DirRight
                        (h_alloc h) (held c h ps ++ lk) f;
  a_objs : forall r ob, h_objs h !! r = Some ob -> obj_ok c ob;
  a_pcs : forall p, p ∈ ps -> pc_mok c p;
}.

Lemma held_perm c h ps ps' : ps ≡ₚ ps' -> held c h ps ≡ₚ held c h ps'.
Proof.
  intros Hp. unfold held. apply Permutation_app; [apply bind_perm, owners_perm, Hp|apply bind_perm, Hp].
Qed.
Lemma AInv_perm c h ps ps' lk : ps ≡ₚ ps' -> AInv c h ps lk -> AInv c h ps' lk.
Proof.
  intros Hp [[f HI] A2 A3]. constructor; [|exact A2|].
  - exists f. eapply inv_perm; [exact HI|]. apply Permutation_app_tail, held_perm, Hp.
  - intros p H. apply A3. now rewrite Hp.
Qed.
Lemma AInv_lk c h ps lk lk' : lk ≡ₚ lk' -> AInv c h ps lk -> AInv c h ps lk'.
Proof.
  intros Hp [[f HI] A2 A3]. constructor; [|exact A2|exact A3].
  exists f. eapply inv_perm; [exact HI|]. now apply Permutation_app_head.
Qed.

Lemma dpages_bare c m : dpages c m = dpages c (bare (m_size m) (m_lpages m) (m_tails m)).
Proof. reflexivity. Qed.
Lemma meta_ok_bare c m : meta_ok c m <-> meta_ok c (bare (m_size m) (m_lpages m) (m_tails m)).
Proof. split; intros [H1 H2]; constructor; assumption. Qed.
Lemma msize_pos m : 0 < msize_of m.
Proof. unfold msize_of, meta_encode. rewrite !app_length. change (mp_array 5) with [149]. cbn [length]. lia. Qed.

Lemma bind_ext {A B} (f g : A -> list B) l : (forall x, x ∈ l -> f x = g x) -> l ≫= f = l ≫= g.
Proof.
  induction l as [|x l IH]; intros H; [reflexivity|]. rewrite !bind_cons. rewrite H by constructor. f_equal.
  apply IH. intros y Hy. apply H. now constructor.
Qed.
Lemma bind_app_l {A B} (f : A -> list B) l k : (l ++ k) ≫= f = (l ≫= f) ++ (k ≫= f).
Proof. induction l as [|x l IH]; [reflexivity|]. cbn [app]. rewrite !bind_cons, IH. apply app_assoc. Qed.
Lemma bind_nil {A B} (f : A -> list B) : [] ≫= f = [].
Proof. reflexivity. Qed.

Lemma opages_le c h h' r : objs_le h h' -> is_Some (h_objs h !! r) -> opages c h' r = opages c h r.
Proof.
  intros Hle [ob E]. destruct (Hle _ _ E) as (ob' & E' & (_ & H2 & _ & H4) & _). unfold opages. rewrite E, E'.
  unfold obj_pages. now rewrite H2, H4.
Qed.
Lemma owner_some h ps r : SInv h ps -> r ∈ owners h ps -> is_Some (h_objs h !! r).
Proof. intros HS H. apply lookup_lt_is_Some_2. eapply owner_lt; eassumption. Qed.

Definition objs_back (h h' : shared) : Prop :=
  forall r ob', h_objs h' !! r = Some ob' -> exists ob, h_objs h !! r = Some ob /\ same_obj ob ob'.
Lemma objs_back_refl h h' : h_objs h' = h_objs h -> objs_back h h'.
Proof. intros E r ob' H. exists ob'. rewrite <- E. split; [exact H|apply same_obj_refl]. Qed.
Lemma objs_back_set h r ob ob' : h_objs h !! r = Some ob -> same_obj ob ob' -> objs_back h (set_obj h r ob').
Proof.
  intros E Hs r2 ob2. cbn. destruct (decide (r = r2)) as [<-|Hne].
  - rewrite list_lookup_insert by (eapply lookup_lt_Some, E). intros H. injection H as <-. eauto.
  - rewrite list_lookup_insert_ne by exact Hne. intros H. exists ob2. split; [exact H|apply same_obj_refl].
Qed.
Lemma obj_ok_same c ob ob' : same_obj ob ob' -> obj_ok c ob -> obj_ok c ob'.
Proof. intros (H1 & H2 & H3 & H4) (G1 & G2 & G3 & G4). unfold obj_ok. rewrite H2, H3, H4. auto. Qed.

Lemma A_frame c h h' p p' rest lk L L2 :
  SInv h (p :: rest) -> AInv c h (p :: rest) lk ->
  h_alloc h' = h_alloc h -> objs_le h h' -> objs_back h h' ->
  owners h (p :: rest) ≡ₚ owners h' (p' :: rest) ++ L -> pc_pages c p ≡ₚ pc_pages c p' ++ L2 -> pc_mok c p' ->
  AInv c h' (p' :: rest) ((L ≫= opages c h) ++ L2 ++ lk).
Proof.
  intros HS [[f HI] A2 A3] Ea Hle Hb Ho Hp Hm. constructor.
  - exists f. rewrite Ea. eapply inv_perm; [exact HI|]. unfold held. rewrite !bind_cons.
    assert (E : owners h' (p' :: rest) ≫= opages c h' = owners h' (p' :: rest) ≫= opages c h).
    { apply bind_ext. intros r Hr. apply opages_le; [exact Hle|]. apply (owner_some _ _ _ HS). rewrite Ho. apply elem_of_app. auto. }
    rewrite E. pose proof (bind_perm (opages c h) _ _ Ho) as Hq. rewrite bind_app_l in Hq.
    rewrite Hq, Hp. clear. perm_solve.
  - intros r ob' E. destruct (Hb _ _ E) as (ob & Eo & Hs). eapply obj_ok_same; [exact Hs|]. eapply A2, Eo.
  - intros q Hq. apply elem_of_cons in Hq as [->|Hq]; [exact Hm|]. apply A3. now constructor.
Qed.

Lemma held_alloc c h a ps : held c (set_alloc h a) ps = held c h ps.
Proof. reflexivity. Qed.

(** Reserving space. *)
Lemma A_alloc c h h' p p' rest lk f got ex :
  AInv c h (p :: rest) lk ->
  h_objs h' = h_objs h -> h_inc h' = h_inc h -> h_com h' = h_com h ->
  pc_refs p = [] -> pc_refs p' = [] ->
  BuddyInv.Inv (dc_base c) (dc_heap c) (dc_spage c) (dc_lpage c) (2 ^ 32) DirRight (h_alloc h') (got ++ held c h (p :: rest) ++ lk) f ->
  got ++ pc_pages c p ≡ₚ pc_pages c p' ++ ex -> pc_mok c p' ->
  AInv c h' (p' :: rest) (ex ++ lk).
Proof.
  intros [_ A2 A3] Eo Ei Ec Hr Hr' HI Hg Hm. constructor.
  - exists f. eapply inv_perm; [exact HI|]. unfold held, owners. rewrite !bind_cons, Hr, Hr', Ei, Ec. cbn [app].
    assert (E : forall l, l ≫= opages c h' = l ≫= opages c h).
    { intros l. apply bind_ext. intros r _. unfold opages. now rewrite Eo. }
    rewrite !E. apply perm_mult. intros x. apply (mult_perm x) in Hg. clear -Hg.
    rewrite !mult_app in *. lia.
  - rewrite Eo. exact A2.
  - intros q Hq. apply elem_of_cons in Hq as [->|Hq]; [exact Hm|]. apply A3. now constructor.
Qed.

(** A new object takes the place of what held its pages. *)
Lemma A_add c h h' p p' rest lk ob X :
  SInv h (p :: rest) -> AInv c h (p :: rest) lk ->
  h_alloc h' = h_alloc h -> h_objs h' = h_objs h ++ [ob] -> obj_ok c ob ->
  owners h' (p' :: rest) ≡ₚ length (h_objs h) :: X ->
  (forall r, r ∈ X -> r ∈ owners h (p :: rest)) ->
  (owners h (p :: rest) ≫= opages c h) ++ pc_pages c p ≡ₚ obj_pages c ob ++ (X ≫= opages c h) ++ pc_pages c p' -> pc_mok c p' ->
  AInv c h' (p' :: rest) lk.
Proof.
  intros HS [[f HI] A2 A3] Ea Eo Hob Ho HX Hp Hm. constructor.
  - exists f. rewrite Ea. eapply inv_perm; [exact HI|]. unfold held. rewrite !bind_cons.
    pose proof (bind_perm (opages c h') _ _ Ho) as Hq. rewrite bind_cons in Hq.
    assert (E1 : opages c h' (length (h_objs h)) = obj_pages c ob).
    { unfold opages. rewrite Eo, lookup_app_r by lia. now rewrite Nat.sub_diag. }
    assert (E2 : X ≫= opages c h' = X ≫= opages c h).
    { apply bind_ext. intros r Hr. apply opages_le; [now apply (objs_le_add _ _ ob)|]. apply (owner_some _ _ _ HS), HX, Hr. }
    rewrite E1, E2 in Hq. apply perm_mult. intros x. apply (mult_perm x) in Hq, Hp. clear -Hq Hp. rewrite !mult_app in *. lia.
  - intros r ob' E. rewrite Eo in E. apply objs_snoc in E as [E|[_ ->]]; [eapply A2, E|exact Hob].
  - intros q Hq. apply elem_of_cons in Hq as [->|Hq]; [exact Hm|]. apply A3. now constructor.
Qed.

Ltac aframe HS HA :=
  eapply (A_frame _ _ _ _ _ _ _ _ _ HS HA);
    [reflexivity|try (apply objs_le_refl; reflexivity)|try (apply objs_back_refl; reflexivity)
    |try (rewrite app_nil_r; reflexivity)|try (rewrite app_nil_r; reflexivity)|try exact I].

(** The exponent recorded in the index is the one that was reserved. *)
Definition exact_meta (c : dcfg) (msize : N) : Prop :=
  metadata_page_pow2 (dc_spage c) msize = alloc_pow2 (dc_spage c) msize.
(** What a step leaks. *)
Definition leaks (c : dcfg) (p : pc) (v : option vis) : Prop :=
  is_panic v = true \/ exists m msize moff id, p = PCreate2 m msize moff id /\ ~ exact_meta c msize.

Lemma A_step c o h p h' p' v rest sp z lk :
  cfg_ok c -> SInv h (p :: rest) -> TInv c h (p :: rest) sp z -> AInv c h (p :: rest) lk ->
  pstepR c o h p h' p' v ->
  exists ex, AInv c h' (p' :: rest) (ex ++ lk) /\ (ex = [] \/ leaks c p v).
Proof.
  intros Hc HS HT HA St.
  assert (Hok : pc_ok h p) by (apply (s_pcs _ _ HS); constructor).
  assert (Hpe : pc_entry c h sp p) by (apply (t_pc _ _ _ _ _ HT); constructor).
  assert (Hpm : pc_mok c p) by (apply (a_pcs _ _ _ _ HA); constructor).
  destruct St; cbn [pc_ok pc_entry pc_mok] in Hok, Hpe, Hpm.
  all: try (exists []; split; [apply (A_frame c h _ _ _ _ lk [] [] HS HA);
    [reflexivity|apply objs_le_refl; reflexivity|apply objs_back_refl; reflexivity|rewrite app_nil_r; reflexivity|rewrite app_nil_r; reflexivity
    |first [exact I|exact Hpm]]|left; reflexivity]; fail).
  all: try (exists []; split; [apply (A_frame c h _ _ _ _ lk [] [] HS HA);
    [reflexivity|eapply objs_le_set; [eassumption|repeat split|auto]|eapply objs_back_set; [eassumption|repeat split]|rewrite app_nil_r; reflexivity|rewrite app_nil_r; reflexivity
    |first [exact I|exact Hpm]]|left; reflexivity]; fail).
  - destruct (a_alloc _ _ _ _ HA) as [f HI]. destruct (alloc_list_inv _ _ _ _ _ _ HI H1) as (f' & got & HI' & _).
    exists got. split; [|right; left; reflexivity].
    eapply A_alloc; [exact HA|reflexivity|reflexivity|reflexivity|reflexivity|reflexivity|exact HI'| |exact I]. cbn [pc_pages app]. now rewrite app_nil_r.
  - destruct (a_alloc _ _ _ _ HA) as [f HI].
    destruct (create_layout c size lc t l _ _ _ _ _ Hc HI H H0 H1 0 []) as [Hmo [f' HI']].
    exists []. split; [|left; reflexivity].
    eapply A_alloc; [exact HA|reflexivity|reflexivity|reflexivity|reflexivity|reflexivity|exact HI'| |exact Hmo].
    cbn [pc_pages]. rewrite !app_nil_r. reflexivity.
  - eexists. split; [|right; left; reflexivity].
    rewrite <- (app_nil_l (_ ++ lk)). apply (A_frame c h _ _ _ _ lk [] _ HS HA);
      [reflexivity|apply objs_le_refl; reflexivity|apply objs_back_refl; reflexivity|rewrite app_nil_r; reflexivity|cbn [pc_pages app]; reflexivity|exact I].
  - destruct (a_alloc _ _ _ _ HA) as [f HI].
    assert (Hal : alloc_list (h_alloc h) [msize_of (new_meta o key size lpages tails)] = (a, None)).
    { cbn [alloc_list]. rewrite H0. destruct r; [|reflexivity..]. exfalso. eapply H1; reflexivity. }
    destruct (alloc_list_inv _ _ _ _ _ _ HI Hal) as (f' & got & HI' & _).
    eexists. split; [|right; left; reflexivity].
    eapply A_alloc; [exact HA|reflexivity|reflexivity|reflexivity|reflexivity|reflexivity|exact HI'|cbn [pc_pages app]; reflexivity|exact I].
  - destruct (a_alloc _ _ _ _ HA) as [f HI]. pose proof H0 as HI'. eapply allocate_inv in HI'; [|exact HI].
    exists []. split; [|left; reflexivity].
    eapply (A_alloc c h _ _ _ _ _ _ [(off, alloc_pow2 (dc_spage c) (msize_of (new_meta o key size lpages tails)))]);
      [exact HA|reflexivity|reflexivity|reflexivity|reflexivity|reflexivity|exact HI'| |].
    + cbn [pc_pages]. rewrite app_nil_r. apply Permutation_app_comm.
    + split; [apply meta_ok_bare, Hpm|]. split; [reflexivity|exact H].
  - destruct Hpm as (Hmo & -> & Hle). destruct (metadata_exponent (dc_spage c) (msize_of m) (msize_pos m)) as (E1 & [E2|E2] & _).
    + exists []. split; [|left; reflexivity].
      apply (A_frame c h _ _ _ _ lk [] [] HS HA);
        [reflexivity|apply objs_le_refl; reflexivity|apply objs_back_refl; reflexivity|rewrite app_nil_r; reflexivity| |cbn [pc_mok]; auto].
      cbn [pc_pages]. rewrite app_nil_r, E2. reflexivity.
    + set (pw := metadata_page_pow2 (dc_spage c) (msize_of m)) in *.
      exists [(moff + 2 ^ pw, pw)]. split.
      2:{ right. right. exists m, (msize_of m), moff, id. split; [reflexivity|]. unfold exact_meta. fold pw. rewrite <- E2. clear. lia. }
      destruct HA as [[f HI] A2 A3]. constructor; [|exact A2|].
      * exists f. assert (HI2 : BuddyInv.Inv (dc_base c) (dc_heap c) (dc_spage c) (dc_lpage c) (2 ^ 32) DirRight (h_alloc h)
          ((moff, pw + 1) :: (owners h rest ≫= opages c h) ++ dpages c m ++ (rest ≫= pc_pages c) ++ lk) f).
        { eapply inv_perm; [exact HI|]. unfold held, owners. rewrite !bind_cons. cbn [pc_refs pc_pages app]. rewrite <- E2. clear. perm_solve. }
        eapply inv_split in HI2; [|exact E1]. eapply inv_perm; [exact HI2|].
        unfold held, owners. rewrite !bind_cons. cbn [pc_refs pc_pages app set_dev h_inc h_com].
        change (opages c (set_dev h (meta_write c o (h_dev h) m (msize_of m) moff))) with (opages c h). fold pw. clearbody pw. clear. perm_solve.
      * intros q Hq. apply elem_of_cons in Hq as [->|Hq]; [cbn; auto|]. apply A3. now constructor.
  - eexists. split; [|right; left; reflexivity].
    rewrite <- (app_nil_l (_ ++ lk)). apply (A_frame c h _ _ _ _ lk [] _ HS HA);
      [reflexivity|apply objs_le_refl; reflexivity|apply objs_back_refl; reflexivity|rewrite app_nil_r; reflexivity|cbn [pc_pages app]; reflexivity|exact I].
  - eexists. split; [|right; left; reflexivity].
    rewrite <- (app_nil_l (_ ++ lk)). apply (A_frame c h _ _ _ _ lk [] _ HS HA);
      [reflexivity|apply objs_le_refl; reflexivity|apply objs_back_refl; reflexivity|rewrite app_nil_r; reflexivity|cbn [pc_pages app]; reflexivity|exact I].
  - exists []. split; [|left; reflexivity].
    destruct Hpm as (Hmo & Hms & Hle).
    apply (A_add c h _ (PCreate4 m msize moff id k) _ _ _ (created_obj c m msize moff id) (owners h (PCreate4 m msize moff id k :: rest)) HS HA);
      [reflexivity|reflexivity| | |auto| |exact I].
    + split; [exact Hmo|]. split; [exact Hms|]. split; [exact Hle|reflexivity].
    + unfold owners. cbn [bump set_inc add_obj set_objs h_inc h_com]. rewrite !bind_cons. cbn [pc_refs app].
      rewrite (vals_insert _ _ _ H0). reflexivity.
    + cbn [pc_pages]. rewrite app_nil_r. unfold obj_pages. cbn [created_obj b_meta b_mpage]. apply Permutation_app_comm.
  - exists []. split; [|left; reflexivity].
    pose proof (vals_delete _ _ _ H) as Hv.
    apply (A_frame c h _ _ _ _ lk [] [] HS HA);
      [reflexivity|apply objs_le_refl; reflexivity|apply objs_back_refl; reflexivity| |reflexivity|exact I].
    unfold owners. cbn [set_inc h_inc h_com]. rewrite !bind_cons. cbn [pc_refs app]. rewrite Hv. clear. perm_solve.
  - subst existing. exists []. split; [|left; reflexivity].
    assert (Hv : option_list (h_com h !! m_key (b_meta ob)) ++ vals (<[m_key (b_meta ob) := length (h_objs h)]> (h_com h))
               ≡ₚ length (h_objs h) :: vals (h_com h)).
    { destruct (h_com h !! m_key (b_meta ob)) as [e|] eqn:Ee; cbn [option_list app]; [now apply vals_replace|now apply vals_insert]. }
    apply (A_add c h _ (PCommit3 r tok ine) _ _ _ (published_obj ob (or_id o)) (vals (h_inc h) ++ vals (h_com h) ++ (rest ≫= pc_refs)) HS HA);
      [reflexivity|reflexivity| | | | |exact I].
    + exact (a_objs _ _ _ _ HA _ _ H).
    + unfold owners. cbn [use_id set_com add_obj set_objs h_inc h_com]. rewrite !bind_cons. cbn [pc_refs]. clear -Hv. perm_solve.
    + unfold owners. rewrite bind_cons. cbn [pc_refs]. intros x. rewrite !elem_of_app. tauto.
    + unfold owners. rewrite !bind_cons. cbn [pc_refs pc_pages]. rewrite !bind_app_l, !bind_cons, bind_nil.
      assert (E : opages c h r = obj_pages c ob) by (unfold opages; now rewrite H). rewrite E.
      change (obj_pages c (published_obj ob (or_id o))) with (obj_pages c ob). clear. perm_solve.
  - exfalso. eapply T_c4_total; eassumption.
  - exists []. split; [|left; reflexivity].
    apply find_committed_Some in H as (E & Eo & _). pose proof (vals_delete _ _ _ E) as Hv.
    apply (A_frame c h _ _ _ _ lk [] [] HS HA);
      [reflexivity|apply objs_le_refl; reflexivity|apply objs_back_refl; reflexivity| |reflexivity|exact I].
    unfold owners. cbn [set_com h_inc h_com]. rewrite !bind_cons. cbn [pc_refs app]. rewrite Hv. clear. perm_solve.
  - exists ([r] ≫= opages c h). split; [|right; left; reflexivity].
    apply (A_frame c h _ _ _ _ lk [r] [] HS HA);
      [reflexivity|apply objs_le_refl; reflexivity|apply objs_back_refl; reflexivity| |reflexivity|exact I].
    unfold owners. rewrite !bind_cons. cbn [pc_refs]. clear. perm_solve.
  - exists ([r] ≫= opages c h). split; [|right; left; reflexivity].
    apply (A_frame c h _ _ _ _ lk [r] [] HS HA);
      [reflexivity|apply objs_le_refl; reflexivity|apply objs_back_refl; reflexivity| |reflexivity|exact I].
    unfold owners. rewrite !bind_cons. cbn [pc_refs]. clear. perm_solve.
  - exists []. split; [|left; reflexivity].
    destruct Hpe as (ob2 & E2 & Hmp). assert (ob2 = ob) as -> by congruence.
    destruct HA as [[f HI] A2 A3]. constructor; [|exact A2|].
    + exists f. rewrite Hmp in H2.
      assert (HI2 : BuddyInv.Inv (dc_base c) (dc_heap c) (dc_spage c) (dc_lpage c) (2 ^ 32) DirRight (h_alloc h)
         ((l ++ [b_mpage ob]) ++ held c h rest ++ lk) f).
      { eapply inv_perm; [exact HI|]. unfold held, owners. rewrite !bind_cons. cbn [pc_refs pc_pages]. rewrite !bind_app_l, !bind_cons, bind_nil.
        assert (E : opages c h r = l ++ [b_mpage ob]) by (unfold opages, obj_pages, dpages; now rewrite H0, H1).
        rewrite E. clear. perm_solve. }
      destruct (release_all_inv _ _ _ _ HI2) as (a' & Ha & HI3). assert (a' = a) as -> by congruence. exact HI3.
    + intros q Hq. apply elem_of_cons in Hq as [->|Hq]; [exact I|]. apply A3. now constructor.
Qed.

(** Releasing an object's pages never panics. *)
Lemma A_reap2_total c h r t n k ob rest sp z lk :
  TInv c h (PReap2 r t n k :: rest) sp z -> AInv c h (PReap2 r t n k :: rest) lk -> h_objs h !! r = Some ob ->
  exists l a, data_pages c (b_meta ob) = Some l /\ release_all (h_alloc h) (l ++ [(t_off t, t_pow2 t)]) = Ok a.
Proof.
  intros HT HA E. destruct (t_pc _ _ _ _ _ HT (PReap2 r t n k) ltac:(constructor)) as (ob2 & E2 & Hmp).
  assert (ob2 = ob) as -> by congruence. rewrite Hmp.
  destruct (a_objs _ _ _ _ HA _ _ E) as ([_ (t' & tails & _ & _ & _ & Hd)] & _). destruct HA as [[f HI] A2 A3].
  eexists _. rewrite Hd.
  assert (HI2 : BuddyInv.Inv (dc_base c) (dc_heap c) (dc_spage c) (dc_lpage c) (2 ^ 32) DirRight (h_alloc h)
     ((dpages c (b_meta ob) ++ [b_mpage ob]) ++ held c h rest ++ lk) f).
  { eapply inv_perm; [exact HI|]. unfold held, owners. rewrite !bind_cons. cbn [pc_refs pc_pages]. rewrite !bind_app_l, !bind_cons, bind_nil.
    assert (E1 : opages c h r = dpages c (b_meta ob) ++ [b_mpage ob]) by (unfold opages, obj_pages; now rewrite E).
    rewrite E1. clear. perm_solve. }
  destruct (release_all_inv _ _ _ _ HI2) as (a & Ha & _). unfold dpages in Ha. rewrite Hd in Ha. eexists. split; [reflexivity|exact Ha].
Qed.

Lemma A_flush c h ps lk t' : AInv c h ps lk -> AInv c (set_tup h t') ps lk.
Proof. intros [A1 A2 A3]. constructor; assumption. Qed.
Lemma A_dev c h ps lk d : AInv c h ps lk -> AInv c (set_dev h d) ps lk.
Proof. intros [A1 A2 A3]. constructor; assumption. Qed.
