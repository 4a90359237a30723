(** Invariants of a direct partition, part 2: the index entries. *)
From Coq Require Import ZifyBool ZifyNat ZifyN.
From stdpp Require Import base numbers list_numbers option gmap sets list.
From Verif Require Import Util Bytes BuddyModel LayoutModel PageIOModel TuplesModel TuplesSpec TuplesProofs TuplesSys.
From Verif Require Import DirectModel DirectBase DirectSteps DirectInv.
Open Scope N_scope.
Ltac Zify.zify_post_hook ::= idtac.

(** Objects whose entry is the one made at creation, and objects whose entry is
    (or is about to become) the one made by commit. *)
Definition pc_irefs (p : pc) : list nat :=
  match p with PCommit1 r _ _ | PCommit2 r _ _ | PCommit3 r _ _ | PReap1 r (KCommit None _) => [r] | _ => [] end.
Definition pc_crefs (p : pc) : list nat :=
  match p with
  | PCommit4 _ _ e | PCommit5 _ _ _ e => option_list e
  | PReap1 r (KCommit (Some _) _) | PReap1 r KDelete => [r]
  | _ => [] end.
Definition irefs (h : shared) (ps : list pc) : list nat := vals (h_inc h) ++ (ps ≫= pc_irefs).
Definition crefs (h : shared) (ps : list pc) : list nat := vals (h_com h) ++ (ps ≫= pc_crefs).
Definition pc_tok4 (p : pc) : list N := match p with PCommit4 tok _ _ => [tok] | _ => [] end.
Definition pc_new4 (p : pc) : list N := match p with PCommit4 _ new _ => [new] | _ => [] end.
Definition pc_id4 (p : pc) : list N := match p with PCreate4 _ _ _ id _ => [id] | _ => [] end.

Definition entry_of (ob : dobj) (st : N) : tuple :=
  {| t_state := st; t_id := b_id ob; t_off := fst (b_mpage ob); t_pow2 := snd (b_mpage ob) |}.
Definition has_entry (h : shared) (sp : index) (r : nat) (st : N) : Prop :=
  exists ob, h_objs h !! r = Some ob /\ sp !! b_id ob = Some (entry_of ob st).
(** The commit that published [r] has not changed the index yet. *)
Definition pending (h : shared) (ps : list pc) (sp : index) (r : nat) : Prop :=
  exists ob tok ex, h_objs h !! r = Some ob /\ PCommit4 tok (b_id ob) ex ∈ ps /\
    sp !! tok = Some {| t_state := ds_incomplete; t_id := tok; t_off := fst (b_mpage ob); t_pow2 := snd (b_mpage ob) |}.

Definition pc_entry (c : dcfg) (h : shared) (sp : index) (p : pc) : Prop :=
  match p with
  | PCreate2 _ _ _ id | PCreate3 _ _ _ id => sp !! id = None /\ id < 2 ^ 128
  | PCreate4 _ msize moff id _ => sp !! id = Some (new_tuple c msize moff id)
  | PCommit4 tok new _ => sp !! new = None /\ new <> tok /\ new < 2 ^ 128 /\
      (exists r ob, h_objs h !! r = Some ob /\ b_id ob = new) /\
      (exists r ob, h_objs h !! r = Some ob /\ b_id ob = tok) /\
      exists t, sp !! tok = Some t /\ t_state t = ds_incomplete
  | PReap2 r t _ _ => exists ob, h_objs h !! r = Some ob /\ (t_off t, t_pow2 t) = b_mpage ob
  | _ => True
  end.

Definition claimed (h : shared) (ps : list pc) (id : N) : Prop :=
  (exists r ob, (r ∈ irefs h ps \/ r ∈ crefs h ps) /\ h_objs h !! r = Some ob /\ b_id ob = id) \/
  id ∈ ps ≫= pc_tok4 \/ id ∈ ps ≫= pc_id4.

Definition committed_id (h : shared) (ps : list pc) (id : N) : Prop :=
  exists r ob, r ∈ crefs h ps /\ h_objs h !! r = Some ob /\ b_id ob = id.

Record TInv (c : dcfg) (h : shared) (ps : list pc) (sp : index) (z : bool) : Prop := {
  t_inv : TuplesProofs.Inv (sy_state (h_tup h)) sp;
  t_used : forall id, is_Some (sp !! id) -> id ∈ h_used h;
  t_i : forall r, r ∈ irefs h ps -> has_entry h sp r ds_incomplete;
  t_c : forall r, r ∈ crefs h ps -> has_entry h sp r ds_committed \/ pending h ps sp r;
  t_pc : forall p, p ∈ ps -> pc_entry c h sp p;
  t_toks : NoDup (ps ≫= pc_tok4);
  t_own : forall r ob, r ∈ owners h ps -> h_objs h !! r = Some ob -> b_id ob ∉ ps ≫= pc_tok4;
  t_dom : z = true \/ forall id, is_Some (sp !! id) -> claimed h ps id;
  t_news : NoDup (ps ≫= pc_new4);
  t_new : z = true \/ forall id, id ∈ ps ≫= pc_new4 -> committed_id h ps id;
}.

Lemma tok4_new4 p : pc_tok4 p = [] -> pc_new4 p = [].
Proof. destruct p; (reflexivity || discriminate). Qed.

Lemma refs_perm (f : pc -> list nat) ps ps' : ps ≡ₚ ps' -> ps ≫= f ≡ₚ ps' ≫= f.
Proof. intros H. now rewrite H. Qed.

Lemma pending_perm h ps ps' sp r : ps ≡ₚ ps' -> pending h ps sp r -> pending h ps' sp r.
Proof. intros Hp (ob & tok & ex & E & H & Hs). exists ob, tok, ex. rewrite <- Hp. auto. Qed.
Lemma claimed_perm h ps ps' id : ps ≡ₚ ps' -> claimed h ps id -> claimed h ps' id.
Proof.
  intros Hp [(r & ob & Hr & H)|H]; [left|right].
  - exists r, ob. unfold irefs, crefs in *. rewrite <- Hp. auto.
  - rewrite <- Hp. exact H.
Qed.

Lemma TInv_perm c h ps ps' sp z : ps ≡ₚ ps' -> TInv c h ps sp z -> TInv c h ps' sp z.
Proof.
  intros Hp [T1 T2 T3 T4 T5 T6 T7 T8 T9 T10]. constructor; auto.
  - intros r Hr. apply T3. unfold irefs in *. now rewrite Hp.
  - intros r Hr. destruct (T4 r) as [|H]; [unfold crefs in *; now rewrite Hp|auto|]. right. now apply (pending_perm h ps).
  - intros p H. apply T5. now rewrite Hp.
  - now rewrite <- Hp.
  - intros r ob Hr E. rewrite <- Hp. apply (T7 r); [|exact E]. now rewrite (owners_perm _ _ _ Hp).
  - destruct T8 as [|T8]; [auto|]. right. intros id Hid. apply (claimed_perm h ps); auto.
  - now rewrite <- Hp.
  - destruct T10 as [|T10]; [auto|]. right. intros id Hid. rewrite <- Hp in Hid. destruct (T10 id Hid) as (r & ob & Hr & H).
    exists r, ob. split; [|exact H]. unfold crefs in *. now rewrite <- Hp.
Qed.

Lemma irefs_owner h ps r : r ∈ irefs h ps -> r ∈ owners h ps.
Proof.
  unfold irefs, owners. rewrite !elem_of_app, !elem_of_list_bind. intros [H|(p & Hr & Hp)]; [auto|]. right. right.
  exists p. split; [|exact Hp]. destruct p; try (inversion Hr; fail); try exact Hr.
  destruct c as [[]|]; [inversion Hr|exact Hr|inversion Hr].
Qed.
Lemma crefs_owner h ps r : r ∈ crefs h ps -> r ∈ owners h ps.
Proof.
  unfold crefs, owners. rewrite !elem_of_app, !elem_of_list_bind. intros [H|(p & Hr & Hp)]; [auto|]. right. right.
  exists p. split; [|exact Hp]. destruct p; try (inversion Hr; fail); try exact Hr.
  destruct c as [[]|]; [exact Hr|inversion Hr|exact Hr].
Qed.

(** Ids identify objects. *)
Lemma id_unique h ps r r' ob ob' : SInv h ps -> h_objs h !! r = Some ob -> h_objs h !! r' = Some ob' ->
  b_id ob = b_id ob' -> r = r'.
Proof.
  intros HS E E' Hid. pose proof (s_ids _ _ HS) as Hnd. apply NoDup_app in Hnd as (Hnd & _ & _).
  eapply (NoDup_lookup _ r r' (b_id ob)); [exact Hnd| |]; rewrite list_lookup_fmap; [rewrite E; reflexivity|rewrite E'; cbn; now rewrite Hid].
Qed.
Lemma new_id_not_obj h ps r ob p : SInv h ps -> h_objs h !! r = Some ob -> p ∈ ps -> b_id ob ∉ pc_new_ids p.
Proof.
  intros HS E Hp Hin. pose proof (s_ids _ _ HS) as Hnd. apply NoDup_app in Hnd as (_ & Hd & _).
  apply (Hd (b_id ob)); [apply elem_of_list_fmap_1_alt with ob; [eapply elem_of_list_lookup_2, E|reflexivity]|].
  apply elem_of_list_bind. eauto.
Qed.

Lemma has_entry_le h h' sp r st : objs_le h h' -> has_entry h sp r st -> has_entry h' sp r st.
Proof.
  intros Hle (ob & E & Hs). destruct (Hle _ _ E) as (ob' & E' & (H1 & _ & _ & H4) & _). exists ob'. split; [exact E'|].
  unfold entry_of. rewrite H1, H4. exact Hs.
Qed.
Lemma pc_entry_le c h h' sp p : objs_le h h' -> pc_entry c h sp p -> pc_entry c h' sp p.
Proof.
  intros Hle. destruct p; cbn [pc_entry]; auto.
  - intros (H1 & H2 & H3 & (r1 & ob1 & E1 & I1) & (r2 & ob2 & E2 & I2) & H4).
    destruct (Hle _ _ E1) as (ob1' & E1' & (G1 & _) & _). destruct (Hle _ _ E2) as (ob2' & E2' & (G2 & _) & _).
    repeat split; auto; [exists r1, ob1'|exists r2, ob2']; (split; [assumption|congruence]).
  - intros (ob & E & H). destruct (Hle _ _ E) as (ob' & E' & (_ & _ & _ & H4) & _). exists ob'. rewrite H4. auto.
Qed.

(** Steps that do not touch the index. *)
Lemma T_frame c h h' p p' rest sp z z' :
  TInv c h (p :: rest) sp z ->
  h_tup h' = h_tup h -> objs_le h h' -> (forall r ob', h_objs h' !! r = Some ob' -> is_Some (h_objs h !! r)) ->
  h_used h ⊆ h_used h' ->
  irefs h' (p' :: rest) ⊆ irefs h (p :: rest) -> crefs h' (p' :: rest) ⊆ crefs h (p :: rest) ->
  owners h' (p' :: rest) ⊆ owners h (p :: rest) ->
  pc_tok4 p = [] -> pc_tok4 p' = [] -> pc_entry c h' sp p' ->
  z' = true \/ (z' = z /\ irefs h (p :: rest) ⊆ irefs h' (p' :: rest) /\ crefs h (p :: rest) ⊆ crefs h' (p' :: rest) /\
    pc_id4 p = pc_id4 p') ->
  TInv c h' (p' :: rest) sp z'.
Proof.
  intros [T1 T2 T3 T4 T5 T6 T7 T8 T9 T10] Et Hle Hback Hu Hi Hc Ho H4 H4' Hp Hz.
  assert (Hpend : forall r, pending h (p :: rest) sp r -> pending h' (p' :: rest) sp r).
  { intros r (ob & tok & ex & E & H & Hs). destruct (Hle _ _ E) as (ob' & E' & (G1 & _ & _ & G4) & _).
    exists ob', tok, ex. rewrite G1, G4. split; [exact E'|]. split; [|exact Hs].
    apply elem_of_cons in H as [<-|H]; [discriminate H4|]. now constructor. }
  constructor.
  - rewrite Et. exact T1.
  - intros id H. apply Hu, T2, H.
  - intros r Hr. eapply has_entry_le; [exact Hle|]. apply T3, Hi, Hr.
  - intros r Hr. destruct (T4 r (Hc r Hr)) as [H|H]; [left; eapply has_entry_le; eassumption|right; auto].
  - intros q Hq. apply elem_of_cons in Hq as [->|Hq]; [exact Hp|]. eapply pc_entry_le; [exact Hle|]. apply T5. now constructor.
  - rewrite bind_cons in *. rewrite H4'. rewrite H4 in T6. exact T6.
  - intros r ob Hr E. destruct (Hback _ _ E) as [ob0 E0]. destruct (Hle _ _ E0) as (ob1 & E1 & (G1 & _) & _).
    assert (ob1 = ob) as -> by congruence. rewrite G1. rewrite bind_cons, H4'.
    specialize (T7 r ob0 (Ho r Hr) E0). rewrite bind_cons, H4 in T7. exact T7.
  - destruct Hz as [->|(-> & Hi2 & Hc2 & H5)]; [auto|]. destruct T8 as [|T8]; [auto|]. right.
    intros id Hid. destruct (T8 id Hid) as [(r & ob & Hr & E & Hb)|H].
    + left. destruct (Hle _ _ E) as (ob' & E' & (G1 & _) & _). exists r, ob'. split; [|split; [exact E'|congruence]].
      destruct Hr as [Hr|Hr]; [left; apply Hi2, Hr|right; apply Hc2, Hr].
    + right. rewrite !bind_cons in *. rewrite H4', <- H5. rewrite H4 in H. exact H.
  - rewrite bind_cons in *. rewrite (tok4_new4 _ H4'). rewrite (tok4_new4 _ H4) in T9. exact T9.
  - destruct Hz as [->|(-> & Hi2 & Hc2 & H5)]; [auto|]. destruct T10 as [|T10]; [auto|]. right.
    intros id Hid. rewrite bind_cons in *. rewrite (tok4_new4 _ H4') in Hid. rewrite (tok4_new4 _ H4) in T10.
    destruct (T10 id Hid) as (r & ob & Hr & E & Hb). destruct (Hle _ _ E) as (ob' & E' & (G1 & _) & _).
    exists r, ob'. split; [apply Hc2, Hr|]. split; [exact E'|congruence].
Qed.

(** ** The index operations succeed when the entry is there *)
Lemma update_total s sp k cur new st t : TuplesProofs.Inv s sp -> sp !! cur = Some t -> sp !! new = None ->
  exists s', update_object s k cur new st = Some s'.
Proof.
  intros HI Hc Hn. apply (i_sp _ _ HI) in Hc as (b & Hm). pose proof Hm as (m & Em & Et).
  assert (E : ts_id2b s !! cur = Some b) by (apply (i_id2b _ _ HI); eauto).
  unfold update_object. rewrite E. cbn [mbind option_bind]. rewrite Em. cbn [mbind option_bind]. rewrite Et. cbn [mbind option_bind].
  assert (H1 : delete cur m !! new = None).
  { destruct (decide (new = cur)) as [->|Hne]; [apply lookup_delete|]. rewrite lookup_delete_ne by auto.
    destruct (m !! new) as [t2|] eqn:E2; [|reflexivity]. exfalso.
    assert (sp !! new = Some t2) by (apply (i_sp _ _ HI); exists b, m; auto). congruence. }
  assert (H2 : delete cur (ts_id2b s) !! new = None).
  { destruct (decide (new = cur)) as [->|Hne]; [apply lookup_delete|]. rewrite lookup_delete_ne by auto.
    destruct (ts_id2b s !! new) as [b2|] eqn:E2; [|reflexivity]. exfalso.
    apply (i_id2b _ _ HI) in E2 as [t2 H2]. assert (sp !! new = Some t2) by (apply (i_sp _ _ HI); eauto). congruence. }
  rewrite H1, H2. eauto.
Qed.

Lemma delete_None s sp k id : TuplesProofs.Inv s sp -> delete_object s k id = None -> sp !! id = None.
Proof.
  intros HI Hd. destruct (sp !! id) as [t|] eqn:E; [exfalso|reflexivity].
  apply (i_sp _ _ HI) in E as (b & m & Em & Et).
  assert (E : ts_id2b s !! id = Some b) by (apply (i_id2b _ _ HI); exists t, m; auto).
  unfold delete_object in Hd. rewrite E in Hd. cbn [mbind option_bind] in Hd. rewrite Em in Hd. cbn [mbind option_bind] in Hd.
  rewrite Et in Hd. discriminate.
Qed.

Lemma delete_Some s sp k id s' t : TuplesProofs.Inv s sp -> delete_object s k id = Some (s', t) ->
  TuplesProofs.Inv s' (delete id sp) /\ sp !! id = Some t.
Proof.
  intros HI Hd. destruct (delete_inv _ _ _ _ _ _ HI Hd) as (HI' & b & m & Em & Et & _). split; [exact HI'|].
  apply (i_sp _ _ HI). exists b, m. auto.
Qed.

Lemma tup_call_Some y c y' sp : TuplesProofs.Inv (sy_state y) sp -> tup_call y c = Some y' ->
  TuplesProofs.Inv (sy_state y') (apply_call sp c).
Proof.
  intros HI. unfold tup_call. destruct (call_exec _ _ _) as [s|] eqn:E; [|discriminate]. cbn. intros H. injection H as <-. cbn.
  eapply call_inv; eassumption.
Qed.

(** ** The steps that change the index or add objects *)
Lemma T_create3 c h m msize moff id y rest sp z :
  SInv h (PCreate3 m msize moff id :: rest) ->
  TInv c h (PCreate3 m msize moff id :: rest) sp z ->
  tup_call (h_tup h) (CInsert (new_tuple c msize moff id)) = Some y ->
  TInv c (set_tup h y) (PCreate4 m msize moff id (sy_calls (h_tup h)) :: rest) (<[id := new_tuple c msize moff id]> sp) z.
Proof.
  intros HS [T1 T2 T3 T4 T5 T6 T7 T8 T9 T10] Hy.
  destruct (T5 (PCreate3 m msize moff id) ltac:(constructor)) as [Hn Hlt]. cbn in Hn.
  assert (Hkeep : forall i t, sp !! i = Some t -> <[id := new_tuple c msize moff id]> sp !! i = Some t).
  { intros i t Hi. rewrite lookup_insert_ne; [exact Hi|]. congruence. }
  pose proof (s_ids _ _ HS) as Hids. rewrite bind_cons in Hids. cbn [pc_new_ids] in Hids.
  assert (Hobj : forall r ob, h_objs h !! r = Some ob -> b_id ob <> id).
  { intros r ob E Hb. apply (new_id_not_obj _ _ _ _ (PCreate3 m msize moff id) HS E); [constructor|]. rewrite Hb. constructor. }
  assert (Hrest : forall q, q ∈ rest -> id ∉ pc_new_ids q).
  { intros q Hq Hin. rewrite nodup_mult in Hids. specialize (Hids id). rewrite !mult_app, mult_cons, decide_True in Hids by reflexivity.
    assert (id ∈ rest ≫= pc_new_ids) as Hx by (apply elem_of_list_bind; eauto). apply mult_elem in Hx. lia. }
  constructor; cbn [set_tup h_tup h_inc h_com h_objs h_used].
  - apply (tup_call_Some _ _ _ _ T1 Hy).
  - intros i [t Hi]. apply lookup_insert_Some in Hi as [[<- _]|[_ Hi]]; [|apply T2; eauto].
    apply (s_used _ _ HS). rewrite bind_cons, !elem_of_app. right. left. constructor.
  - intros r Hr. destruct (T3 r Hr) as (ob & E & Hs). exists ob. split; [exact E|]. now apply Hkeep.
  - intros r Hr. destruct (T4 r Hr) as [(ob & E & Hs)|(ob & tok & ex & E & H & Hs)].
    + left. exists ob. split; [exact E|]. now apply Hkeep.
    + right. exists ob, tok, ex. split; [exact E|]. split; [|now apply Hkeep].
      apply elem_of_cons in H as [H|H]; [discriminate|]. now constructor.
  - intros q Hq. apply elem_of_cons in Hq as [->|Hq].
    + cbn. apply lookup_insert.
    + pose proof (T5 q ltac:(now constructor)) as Hq5. specialize (Hrest q Hq). destruct q; cbn [pc_entry pc_new_ids] in *; auto.
      * rewrite lookup_insert_ne by set_solver. exact Hq5.
      * rewrite lookup_insert_ne by set_solver. exact Hq5.
      * destruct Hq5 as (H1 & H2 & H3 & (r1 & ob1 & E1 & I1) & H5 & t & Ht & Hst).
        split; [rewrite lookup_insert_ne; [exact H1|]; intros <-; eapply Hobj; eassumption|].
        split; [exact H2|]. split; [exact H3|]. split; [eauto|]. split; [exact H5|]. exists t. split; [now apply Hkeep|exact Hst].
  - exact T6.
  - exact T7.
  - destruct T8 as [|T8]; [auto|right]. intros i [t Hi]. apply lookup_insert_Some in Hi as [[<- _]|[_ Hi]].
    + right. right. rewrite bind_cons, elem_of_app. left. constructor.
    + destruct (T8 i ltac:(eauto)) as [H|[H|H]]; [left; exact H|right; left; exact H|].
      right. right. rewrite bind_cons in *. cbn [pc_id4 app] in *. now constructor.
  - exact T9.
  - exact T10.
Qed.

Lemma T_create4 c h m msize moff id k rest sp z :
  SInv h (PCreate4 m msize moff id k :: rest) ->
  TInv c h (PCreate4 m msize moff id k :: rest) sp z -> h_inc h !! id = None ->
  TInv c (bump (set_inc (add_obj h (created_obj c m msize moff id)) (<[id := length (h_objs h)]> (h_inc h)))
            (met_create_done msize (m_size m))) (PDone :: rest) sp z.
Proof.
  intros HS [T1 T2 T3 T4 T5 T6 T7 T8 T9 T10] E.
  set (ob := created_obj c m msize moff id). set (h' := bump _ _).
  assert (Hle : objs_le h h') by now apply (objs_le_add _ _ ob).
  pose proof (vals_insert _ _ (length (h_objs h)) E) as Hv.
  pose proof (T5 (PCreate4 m msize moff id k) ltac:(constructor)) as Hn. cbn in Hn.
  assert (Hlk : h_objs h' !! length (h_objs h) = Some ob).
  { cbn. rewrite lookup_app_r by lia. now rewrite Nat.sub_diag. }
  assert (Htok : id ∉ rest ≫= pc_tok4).
  { intros H. apply elem_of_list_bind in H as (q & Hq & Hin). destruct q; try (inversion Hq; fail).
    cbn in Hq. apply elem_of_list_singleton in Hq as <-.
    destruct (T5 _ ltac:(right; exact Hin)) as (_ & _ & _ & _ & (r & ob2 & E2 & Hid) & _).
    apply (new_id_not_obj _ _ _ _ (PCreate4 m msize moff id k) HS E2); [constructor|]. rewrite Hid. constructor. }
  constructor.
  - exact T1.
  - exact T2.
  - intros r Hr. unfold irefs in *. change (h_inc h') with (<[id := length (h_objs h)]> (h_inc h)) in Hr.
    rewrite Hv, bind_cons in Hr. cbn [pc_irefs app] in Hr. rewrite bind_cons in T3. cbn [pc_irefs app] in T3. apply elem_of_cons in Hr as [->|Hr].
    + exists ob. split; [exact Hlk|exact Hn].
    + eapply has_entry_le; [exact Hle|]. apply T3, Hr.
  - intros r Hr. destruct (T4 r Hr) as [H|(ob2 & tok & ex & E2 & H & Hs)].
    + left. eapply has_entry_le; [exact Hle|exact H].
    + right. exists ob2, tok, ex. split; [cbn; now apply lookup_app_l_Some|]. split; [|exact Hs].
      apply elem_of_cons in H as [H|H]; [discriminate|]. now constructor.
  - intros q Hq. apply elem_of_cons in Hq as [->|Hq]; [exact I|]. eapply pc_entry_le; [exact Hle|]. apply T5. now constructor.
  - exact T6.
  - intros r ob2 Hr E2. rewrite bind_cons. cbn [pc_tok4 app]. cbn in E2. apply objs_snoc in E2 as [E2|[-> ->]]; [|exact Htok].
    apply (T7 r ob2); [|exact E2]. unfold owners in *. change (h_inc h') with (<[id := length (h_objs h)]> (h_inc h)) in Hr.
    rewrite Hv in Hr. cbn [app] in Hr. apply elem_of_cons in Hr as [->|Hr]; [|exact Hr].
    apply lookup_lt_Some in E2. lia.
  - destruct T8 as [|T8]; [auto|right]. intros i Hi. destruct (T8 i Hi) as [(r & ob2 & Hr & E2 & Hb)|[H|H]].
    + left. exists r, ob2. split; [|split; [cbn; now apply lookup_app_l_Some|exact Hb]].
      destruct Hr as [Hr|Hr]; [left|right; exact Hr]. unfold irefs in *.
      change (h_inc h') with (<[id := length (h_objs h)]> (h_inc h)). rewrite Hv. cbn [app]. now constructor.
    + right. left. exact H.
    + rewrite bind_cons in H. cbn [pc_id4 app] in H. apply elem_of_cons in H as [->|H].
      * left. exists (length (h_objs h)), ob. split; [left|split; [exact Hlk|reflexivity]].
        unfold irefs. change (h_inc h') with (<[id := length (h_objs h)]> (h_inc h)). rewrite Hv. constructor.
      * right. right. exact H.
  - exact T9.
  - destruct T10 as [|T10]; [auto|right]. intros i Hi. destruct (T10 i Hi) as (r & ob2 & Hr & E2 & Hb).
    exists r, ob2. split; [exact Hr|]. split; [cbn; now apply lookup_app_l_Some|exact Hb].
Qed.

Lemma T_c3 c h tok ine r ob id rest sp z :
  SInv h (PCommit3 r tok ine :: rest) -> id ∉ h_used h -> id < 2 ^ 128 -> h_objs h !! r = Some ob ->
  TInv c h (PCommit3 r tok ine :: rest) sp z ->
  TInv c (use_id (set_com (add_obj h (published_obj ob id)) (<[m_key (b_meta ob) := length (h_objs h)]> (h_com h))) id)
    (PCommit4 tok id (h_com h !! m_key (b_meta ob)) :: rest) sp z.
Proof.
  intros HS Hid Hlt E [T1 T2 T3 T4 T5 T6 T7 T8 T9 T10].
  set (nob := published_obj ob id). set (h' := use_id _ _).
  assert (Hle : objs_le h h') by now apply (objs_le_add _ _ nob).
  assert (Htok : b_id ob = tok).
  { destruct (s_pcs _ _ HS (PCommit3 r tok ine) ltac:(constructor)) as (ob2 & E2 & Hb & _). congruence. }
  assert (Hre : r ∈ irefs h (PCommit3 r tok ine :: rest)).
  { unfold irefs. rewrite bind_cons. cbn [pc_irefs]. apply elem_of_app. right. constructor. }
  destruct (T3 r Hre) as (ob2 & E2 & Hs). assert (ob2 = ob) as -> by congruence. clear E2.
  assert (Hne : id <> tok). { intros ->. apply Hid, T2. rewrite <- Htok. eauto. }
  assert (Hlk : h_objs h' !! length (h_objs h) = Some nob).
  { cbn. rewrite lookup_app_r by lia. now rewrite Nat.sub_diag. }
  assert (Hrown : r ∈ owners h (PCommit3 r tok ine :: rest)) by now apply irefs_owner.
  assert (Hpend : forall x, pending h (PCommit3 r tok ine :: rest) sp x -> pending h' (PCommit4 tok id (h_com h !! m_key (b_meta ob)) :: rest) sp x).
  { intros x (ob2 & tok2 & ex & E2 & H & Hs2). exists ob2, tok2, ex. split; [cbn; now apply lookup_app_l_Some|]. split; [|exact Hs2].
    apply elem_of_cons in H as [H|H]; [discriminate|]. now constructor. }
  assert (Hcom : forall x, x ∈ vals (h_com h') -> x = length (h_objs h) \/ x ∈ vals (h_com h)).
  { intros x Hx. apply elem_of_vals in Hx as [k Ek]. cbn in Ek. apply lookup_insert_Some in Ek as [[_ <-]|[_ Ek]]; [auto|].
    right. apply elem_of_vals. eauto. }
  assert (Hcr : forall x, x ∈ crefs h' (PCommit4 tok id (h_com h !! m_key (b_meta ob)) :: rest) ->
     x = length (h_objs h) \/ x ∈ crefs h (PCommit3 r tok ine :: rest)).
  { intros x. unfold crefs. rewrite !elem_of_app, !bind_cons, !elem_of_app. cbn [pc_crefs]. intros [H|[H|H]].
    - destruct (Hcom x H); auto.
    - destruct (h_com h !! m_key (b_meta ob)) as [e|] eqn:Ee; [|inversion H]. cbn in H. apply elem_of_list_singleton in H as ->.
      right. left. apply elem_of_vals. eauto.
    - auto. }
  assert (Hown : forall x, x ∈ owners h' (PCommit4 tok id (h_com h !! m_key (b_meta ob)) :: rest) ->
     x = length (h_objs h) \/ x ∈ owners h (PCommit3 r tok ine :: rest) /\ x <> r).
  { assert (Hrx : r ∉ vals (h_inc h) ++ vals (h_com h) ++ (rest ≫= pc_refs)).
    { intros Hx. pose proof (s_nodup _ _ HS) as Hnd. unfold owners in Hnd. rewrite bind_cons in Hnd. cbn [pc_refs] in Hnd.
      rewrite nodup_mult in Hnd. specialize (Hnd r). apply mult_elem in Hx. rewrite !mult_app, mult_cons, decide_True in * by reflexivity. lia. }
    intros x. unfold owners. rewrite !elem_of_app, !bind_cons, !elem_of_app. cbn [pc_refs].
    rewrite !elem_of_app in Hrx. intros [H|[H|[H|H]]].
    - right. split; [left; exact H|]. intros ->. auto.
    - destruct (Hcom x H) as [|H']; [auto|]. right. split; [right; left; exact H'|]. intros ->. auto.
    - destruct (h_com h !! m_key (b_meta ob)) as [e|] eqn:Ee; [|inversion H]. cbn in H. apply elem_of_list_singleton in H as ->.
      assert (e ∈ vals (h_com h)) by (apply elem_of_vals; eauto). right. split; [auto|]. intros ->. auto.
    - right. split; [auto|]. intros ->. auto. }
  constructor.
  - exact T1.
  - intros i Hi. cbn. apply elem_of_union_r, T2, Hi.
  - intros x Hx. eapply has_entry_le; [exact Hle|]. apply T3. unfold irefs in *. rewrite bind_cons in *. cbn [pc_irefs app] in *.
    change (h_inc h') with (h_inc h) in Hx. apply elem_of_app in Hx as [Hx|Hx]; apply elem_of_app; [left; exact Hx|right].
    now apply elem_of_list_further.
  - intros x Hx. destruct (Hcr x Hx) as [->|Hx'].
    + right. exists nob, tok, (h_com h !! m_key (b_meta ob)). split; [exact Hlk|]. split; [constructor|].
      cbn [nob published_obj b_mpage]. rewrite <- Htok. exact Hs.
    + destruct (T4 x Hx') as [H|H]; [left; eapply has_entry_le; eassumption|right; auto].
  - intros q Hq. apply elem_of_cons in Hq as [->|Hq].
    + cbn [pc_entry]. split; [|split; [exact Hne|split; [exact Hlt|split; [exists (length (h_objs h)), nob; auto|split]]]].
      * destruct (sp !! id) eqn:Es; [|reflexivity]. exfalso. apply Hid, T2. eauto.
      * exists r, ob. split; [cbn; now apply lookup_app_l_Some|exact Htok].
      * exists (entry_of ob ds_incomplete). split; [rewrite <- Htok; exact Hs|reflexivity].
    + eapply pc_entry_le; [exact Hle|]. apply T5. now constructor.
  - specialize (T7 r ob Hrown E). rewrite bind_cons, Htok in T7. cbn [pc_tok4 app] in T7.
    rewrite bind_cons in *. cbn [pc_tok4 app] in *. constructor; [exact T7|exact T6].
  - intros x ob2 Hx E2. rewrite bind_cons. cbn [pc_tok4 app]. destruct (Hown x Hx) as [->|[Hx' Hxr]].
    + assert (ob2 = nob) as -> by congruence. cbn [nob published_obj b_id]. rewrite not_elem_of_cons. split; [exact Hne|].
      intros H. apply elem_of_list_bind in H as (q & Hq & Hin). destruct q; try (inversion Hq; fail).
      cbn in Hq. apply elem_of_list_singleton in Hq as <-.
      destruct (T5 _ ltac:(right; exact Hin)) as (_ & _ & _ & _ & _ & t & Ht & _). apply Hid, T2. eauto.
    + cbn in E2. apply objs_snoc in E2 as [E2|[-> ->]].
      * rewrite not_elem_of_cons. split.
        -- intros Hb. apply Hxr. eapply id_unique; [exact HS|exact E2|exact E|congruence].
        -- specialize (T7 x ob2 Hx' E2). rewrite bind_cons in T7. exact T7.
      * exfalso. apply (owner_lt _ _ _ HS) in Hx'. lia.
  - destruct T8 as [|T8]; [auto|right]. intros i Hi. destruct (T8 i Hi) as [(x & ob2 & Hr & E2 & Hb)|H].
    + destruct (decide (x = r)) as [->|Hxr].
      * right. left. rewrite bind_cons. cbn [pc_tok4 app]. assert (i = tok) as -> by congruence. constructor.
      * left. exists x, ob2. split; [|split; [cbn; now apply lookup_app_l_Some|exact Hb]].
        unfold irefs, crefs in *. rewrite !bind_cons in *. cbn [pc_irefs pc_crefs app] in *.
        change (h_inc h') with (h_inc h). rewrite !elem_of_app in *. destruct Hr as [[Hr|Hr]|[Hr|Hr]].
        -- left. left. exact Hr.
        -- apply elem_of_cons in Hr as [Hr|Hr]; [contradiction|]. left. right. exact Hr.
        -- apply elem_of_vals in Hr as [k Ek]. destruct (decide (k = m_key (b_meta ob))) as [->|Hk].
           ++ right. right. left. rewrite Ek. constructor.
           ++ right. left. apply elem_of_vals. exists k. cbn. rewrite lookup_insert_ne by auto. exact Ek.
        -- right. right. right. exact Hr.
    + right. rewrite !bind_cons in *. cbn [pc_tok4 pc_id4 app] in *. destruct H as [H|H]; [left; now constructor|right; exact H].
  - rewrite bind_cons in *. cbn [pc_new4 app] in *. constructor; [|exact T9].
    intros H. apply elem_of_list_bind in H as (q & Hq & Hin). destruct q; try (inversion Hq; fail).
    cbn in Hq. apply elem_of_list_singleton in Hq as <-.
    destruct (T5 _ ltac:(right; exact Hin)) as (_ & _ & _ & (x & ob2 & E2 & Hb) & _). apply Hid, (s_used _ _ HS).
    apply elem_of_app. left. rewrite <- Hb. apply elem_of_list_fmap_1_alt with ob2; [eapply elem_of_list_lookup_2, E2|reflexivity].
  - destruct T10 as [|T10]; [auto|right]. intros i Hi. rewrite bind_cons in *. cbn [pc_new4 app] in *.
    apply elem_of_cons in Hi as [->|Hi].
    + exists (length (h_objs h)), nob. split; [|split; [exact Hlk|reflexivity]]. unfold crefs. apply elem_of_app. left.
      apply elem_of_vals. exists (m_key (b_meta ob)). cbn. apply lookup_insert.
    + destruct (T10 i Hi) as (x & ob2 & Hr & E2 & Hb). exists x, ob2. split; [|split; [cbn; now apply lookup_app_l_Some|exact Hb]].
      unfold crefs in *. rewrite !bind_cons in *. cbn [pc_crefs app] in *. rewrite !elem_of_app in *. destruct Hr as [Hr|Hr].
      * apply elem_of_vals in Hr as [k Ek]. destruct (decide (k = m_key (b_meta ob))) as [->|Hk].
        -- right. left. rewrite Ek. constructor.
        -- left. apply elem_of_vals. exists k. cbn. rewrite lookup_insert_ne by auto. exact Ek.
      * right. right. exact Hr.
Qed.

Lemma T_c4 c h tok new ex y rest sp z :
  SInv h (PCommit4 tok new ex :: rest) -> TInv c h (PCommit4 tok new ex :: rest) sp z ->
  tup_call (h_tup h) (CUpdate tok new ds_committed) = Some y ->
  TInv c (set_tup h y) (PCommit5 tok (sy_calls (h_tup h)) new ex :: rest) (apply_call sp (CUpdate tok new ds_committed)) z.
Proof.
  intros HS [T1 T2 T3 T4 T5 T6 T7 T8 T9 T10] Hy.
  destruct (T5 (PCommit4 tok new ex) ltac:(constructor)) as (Hn & Hne & Hlt & (rn & obn & En & Hbn) & (rt & obt & Et & Hbt) & t & Hs & Hst).
  pose proof (tup_call_Some _ _ _ _ T1 Hy) as T1'.
  cbn [apply_call] in *. rewrite Hs in *. set (nt := {| t_state := ds_committed; t_id := new; t_off := t_off t; t_pow2 := t_pow2 t |}) in *.
  assert (Hkeep : forall i u, sp !! i = Some u -> i <> tok -> <[new := nt]> (delete tok sp) !! i = Some u).
  { intros i u Hi Hit. rewrite lookup_insert_ne by congruence. rewrite lookup_delete_ne by auto. exact Hi. }
  assert (Hnone : forall i, sp !! i = None -> i <> new -> <[new := nt]> (delete tok sp) !! i = None).
  { intros i Hi Hin. rewrite lookup_insert_ne by auto. apply lookup_delete_None. auto. }
  rewrite bind_cons in T6, T9. cbn [pc_tok4 pc_new4 app] in T6, T9. apply NoDup_cons in T6 as [T6a T6b]. apply NoDup_cons in T9 as [T9a T9b].
  assert (Hown : forall r ob, r ∈ owners h (PCommit4 tok new ex :: rest) -> h_objs h !! r = Some ob -> b_id ob <> tok).
  { intros r ob Hr E Hb. apply (T7 r ob Hr E). rewrite bind_cons, Hb. constructor. }
  constructor; cbn [set_tup h_tup h_inc h_com h_objs h_used].
  - exact T1'.
  - intros i [u Hi]. apply lookup_insert_Some in Hi as [[<- _]|[_ Hi]].
    + apply (s_used _ _ HS). apply elem_of_app. left. rewrite <- Hbn.
      apply elem_of_list_fmap_1_alt with obn; [eapply elem_of_list_lookup_2, En|reflexivity].
    + apply lookup_delete_Some in Hi as [_ Hi]. apply T2. eauto.
  - intros r Hr. destruct (T3 r Hr) as (ob & E & He). exists ob. split; [exact E|]. apply Hkeep; [exact He|].
    apply (Hown r); [now apply irefs_owner|exact E].
  - intros r Hr. destruct (T4 r Hr) as [(ob & E & He)|(ob & tok2 & ex2 & E & H & He)].
    + left. exists ob. split; [exact E|]. apply Hkeep; [exact He|]. apply (Hown r); [now apply crefs_owner|exact E].
    + apply elem_of_cons in H as [H|H].
      * injection H as -> <- ->. left. exists ob. split; [exact E|]. rewrite lookup_insert. rewrite He in Hs. injection Hs as <-. reflexivity.
      * right. exists ob, tok2, ex2. split; [exact E|]. split; [now constructor|]. apply Hkeep; [exact He|].
        intros ->. apply T6a. apply elem_of_list_bind. eexists. split; [|exact H]. constructor.
  - intros q Hq. apply elem_of_cons in Hq as [->|Hq]; [exact I|].
    pose proof (T5 q ltac:(now constructor)) as Hq5.
    assert (Hnew : forall r ob i, h_objs h !! r = Some ob -> i ∈ pc_new_ids q -> i <> b_id ob).
    { intros r ob i E Hi ->. apply (new_id_not_obj _ _ _ _ q HS E); [now constructor|exact Hi]. }
    destruct q; cbn [pc_entry pc_new_ids] in *; auto.
    + split; [|apply Hq5]. apply Hnone; [apply Hq5|]. rewrite <- Hbn. apply (Hnew rn); [exact En|constructor].
    + split; [|apply Hq5]. apply Hnone; [apply Hq5|]. rewrite <- Hbn. apply (Hnew rn); [exact En|constructor].
    + apply Hkeep; [exact Hq5|]. rewrite <- Hbt. apply (Hnew rt); [exact Et|constructor].
    + destruct Hq5 as (H1 & H2 & H3 & H4 & H5 & u & Hu & Hus). split.
      { apply Hnone; [exact H1|]. intros ->. apply T9a. apply elem_of_list_bind. eexists. split; [|exact Hq]. constructor. }
      split; [exact H2|]. split; [exact H3|]. split; [exact H4|]. split; [exact H5|]. exists u. split; [|exact Hus].
      apply Hkeep; [exact Hu|]. intros ->. apply T6a. apply elem_of_list_bind. eexists. split; [|exact Hq]. constructor.
  - exact T6b.
  - intros r ob Hr E. specialize (T7 r ob Hr E). rewrite bind_cons in *. cbn [pc_tok4 app] in *.
    apply not_elem_of_cons in T7. apply T7.
  - destruct T8 as [|T8]; [auto|]. destruct T10 as [|T10]; [auto|]. right. intros i [u Hi].
    apply lookup_insert_Some in Hi as [[<- _]|[_ Hi]].
    + destruct (T10 new) as (r & ob & Hr & H); [rewrite bind_cons; constructor|]. left. exists r, ob. split; [right; exact Hr|exact H].
    + apply lookup_delete_Some in Hi as [Hit Hi]. destruct (T8 i ltac:(eauto)) as [H|[H|H]].
      * left. exact H.
      * right. left. rewrite bind_cons in *. cbn [pc_tok4 app] in *. apply elem_of_cons in H as [H|H]; [congruence|exact H].
      * right. right. exact H.
  - exact T9b.
  - destruct T10 as [|T10]; [auto|right]. intros i Hi. apply T10. rewrite bind_cons. cbn [pc_new4 app]. now constructor.
Qed.

Lemma T_reap1 c h r k ob t y rest sp z :
  SInv h (PReap1 r k :: rest) -> TInv c h (PReap1 r k :: rest) sp z -> h_objs h !! r = Some ob ->
  TuplesProofs.Inv (sy_state y) (delete (b_id ob) sp) -> sp !! b_id ob = Some t ->
  TInv c (set_tup h y) (PReap2 r t (sy_calls (h_tup h)) k :: rest) (delete (b_id ob) sp) z.
Proof.
  intros HS [T1 T2 T3 T4 T5 T6 T7 T8 T9 T10] E HI Ht.
  assert (Hrown : r ∈ owners h (PReap1 r k :: rest)).
  { unfold owners. rewrite bind_cons, !elem_of_app. right. right. left. constructor. }
  assert (Htok : b_id ob ∉ rest ≫= pc_tok4) by (apply (T7 r ob Hrown E)).
  assert (Hrx : forall x, x ∈ vals (h_inc h) ++ vals (h_com h) ++ (rest ≫= pc_refs) -> x <> r).
  { intros x Hx ->. pose proof (s_nodup _ _ HS) as Hnd. unfold owners in Hnd. rewrite bind_cons in Hnd. cbn [pc_refs] in Hnd.
    rewrite nodup_mult in Hnd. specialize (Hnd r). apply mult_elem in Hx. rewrite !mult_app, mult_cons, decide_True in * by reflexivity. lia. }
  assert (Hneq : forall x obx, x <> r -> h_objs h !! x = Some obx -> b_id obx <> b_id ob).
  { intros x obx Hx Ex Hb. apply Hx. eapply id_unique; [exact HS|exact Ex|exact E|exact Hb]. }
  assert (Ht' : (t_off t, t_pow2 t) = b_mpage ob).
  { assert (Hent : forall st, has_entry h sp r st -> (t_off t, t_pow2 t) = b_mpage ob).
    { intros st (ob2 & E2 & H2). assert (ob2 = ob) as -> by congruence. rewrite Ht in H2. injection H2 as ->. cbn.
      now destruct (b_mpage ob). }
    assert (r ∈ irefs h (PReap1 r k :: rest) \/ r ∈ crefs h (PReap1 r k :: rest)) as [Hr|Hr].
    { unfold irefs, crefs. rewrite !bind_cons, !elem_of_app. destruct k as [[]|]; cbn [pc_irefs pc_crefs]; rewrite !elem_of_list_singleton; auto. }
    - eapply Hent, T3, Hr.
    - destruct (T4 r Hr) as [H|(ob2 & tok2 & ex2 & E2 & H & _)]; [eapply Hent, H|].
      assert (ob2 = ob) as -> by congruence. destruct (T5 _ H) as [Hn _]. congruence. }
  assert (Hiref : forall x, x ∈ irefs (set_tup h y) (PReap2 r t (sy_calls (h_tup h)) k :: rest) -> x ∈ irefs h (PReap1 r k :: rest) /\ x <> r).
  { intros x Hx. unfold irefs in *. rewrite bind_cons in *. cbn [pc_irefs app set_tup h_inc] in Hx. split.
    - rewrite !elem_of_app in *. tauto.
    - apply Hrx. apply elem_of_app in Hx as [Hx|Hx]; rewrite !elem_of_app; [auto|]. right. right.
      apply elem_of_list_bind in Hx as (q & H1 & H2). apply elem_of_list_bind. exists q. split; [|exact H2].
      destruct q; try (inversion H1; fail); try exact H1. destruct c0 as [[]|]; try exact H1; inversion H1. }
  assert (Hcref : forall x, x ∈ crefs (set_tup h y) (PReap2 r t (sy_calls (h_tup h)) k :: rest) -> x ∈ crefs h (PReap1 r k :: rest) /\ x <> r).
  { intros x Hx. unfold crefs in *. rewrite bind_cons in *. cbn [pc_crefs app set_tup h_com] in Hx. split.
    - rewrite !elem_of_app in *. tauto.
    - apply Hrx. apply elem_of_app in Hx as [Hx|Hx]; rewrite !elem_of_app; [auto|]. right. right.
      apply elem_of_list_bind in Hx as (q & H1 & H2). apply elem_of_list_bind. exists q. split; [|exact H2].
      destruct q; try (inversion H1; fail); try exact H1. destruct c0 as [[]|]; try exact H1; inversion H1. }
  assert (Hiback : forall x, x ∈ irefs h (PReap1 r k :: rest) -> x <> r -> x ∈ irefs (set_tup h y) (PReap2 r t (sy_calls (h_tup h)) k :: rest)).
  { intros x Hx Hxr. unfold irefs in *. rewrite bind_cons in *. cbn [pc_irefs app set_tup h_inc]. rewrite !elem_of_app in *.
    destruct Hx as [Hx|[Hx|Hx]]; auto. exfalso. destruct k as [[]|]; try (inversion Hx; fail); apply elem_of_list_singleton in Hx; contradiction. }
  assert (Hcback : forall x, x ∈ crefs h (PReap1 r k :: rest) -> x <> r -> x ∈ crefs (set_tup h y) (PReap2 r t (sy_calls (h_tup h)) k :: rest)).
  { intros x Hx Hxr. unfold crefs in *. rewrite bind_cons in *. cbn [pc_crefs app set_tup h_com]. rewrite !elem_of_app in *.
    destruct Hx as [Hx|[Hx|Hx]]; auto. exfalso. destruct k as [[]|]; try (inversion Hx; fail); apply elem_of_list_singleton in Hx; contradiction. }
  constructor.
  - exact HI.
  - intros i [u Hi]. apply lookup_delete_Some in Hi as [_ Hi]. apply T2. eauto.
  - intros x Hx. destruct (Hiref x Hx) as [Hx' Hxr]. destruct (T3 x Hx') as (obx & Ex & Hs). exists obx. split; [exact Ex|].
    rewrite lookup_delete_ne; [exact Hs|]. intros Hb. apply (Hneq x obx Hxr Ex). auto.
  - intros x Hx. destruct (Hcref x Hx) as [Hx' Hxr]. destruct (T4 x Hx') as [(obx & Ex & Hs)|(obx & tok2 & ex2 & Ex & H & Hs)].
    + left. exists obx. split; [exact Ex|]. rewrite lookup_delete_ne; [exact Hs|]. intros Hb. apply (Hneq x obx Hxr Ex). auto.
    + right. exists obx, tok2, ex2. split; [exact Ex|]. apply elem_of_cons in H as [H|H]; [discriminate|]. split; [now constructor|].
      rewrite lookup_delete_ne; [exact Hs|]. intros Hb. apply Htok. rewrite Hb. apply elem_of_list_bind. eexists. split; [|exact H]. constructor.
  - intros q Hq. apply elem_of_cons in Hq as [->|Hq]; [exists ob; auto|].
    pose proof (T5 q ltac:(now constructor)) as Hq5.
    assert (Hnew : b_id ob ∉ pc_new_ids q) by (apply (new_id_not_obj _ _ _ _ q HS E); now constructor).
    destruct q; cbn [pc_entry pc_new_ids] in *; auto.
    + split; [apply lookup_delete_None; right; apply Hq5|apply Hq5].
    + split; [apply lookup_delete_None; right; apply Hq5|apply Hq5].
    + rewrite lookup_delete_ne; [exact Hq5|]. intros Hb. apply Hnew. rewrite Hb. constructor.
    + destruct Hq5 as (H1 & H2 & H3 & H4 & H5 & u & Hu & Hus).
      split; [apply lookup_delete_None; right; exact H1|].
      split; [exact H2|]. split; [exact H3|]. split; [exact H4|]. split; [exact H5|]. exists u. split; [|exact Hus].
      rewrite lookup_delete_ne; [exact Hu|]. intros Hb. apply Htok. rewrite Hb. apply elem_of_list_bind. eexists. split; [|exact Hq]. constructor.
  - exact T6.
  - exact T7.
  - destruct T8 as [|T8]; [auto|right]. intros i [u Hi]. apply lookup_delete_Some in Hi as [Hib Hi].
    destruct (T8 i ltac:(eauto)) as [(x & obx & Hx & Ex & Hb)|H]; [left|right; exact H].
    assert (x <> r) by (intros ->; congruence).
    exists x, obx. split; [|auto]. destruct Hx as [Hx|Hx]; [left; now apply Hiback|right; now apply Hcback].
  - exact T9.
  - destruct T10 as [|T10]; [auto|right]. intros i Hi. destruct (T10 i Hi) as (x & obx & Hx & Ex & Hb).
    exists x, obx. split; [|auto]. apply Hcback; [exact Hx|]. intros ->. assert (obx = ob) as -> by congruence.
    apply elem_of_list_bind in Hi as (q & H1 & H2). destruct q; try (inversion H1; fail). cbn in H1.
    apply elem_of_list_singleton in H1 as ->. apply elem_of_cons in H2 as [H2|H2]; [discriminate|].
    destruct (T5 _ ltac:(right; exact H2)) as [Hn _]. congruence.
Qed.

Lemma lookup_set_some h r ob ob2 : h_objs h !! r = Some ob ->
  forall r' ob', h_objs (set_obj h r ob2) !! r' = Some ob' -> is_Some (h_objs h !! r').
Proof.
  intros E r' ob' E'. apply lookup_lt_is_Some_2. apply lookup_lt_Some in E'. cbn in E'. now rewrite insert_length in E'.
Qed.

(** Ltac for steps that leave the index alone. *)
Ltac tframe HT :=
  eapply (T_frame _ _ _ _ _ _ _ _ _ HT);
    [reflexivity|try (apply objs_le_refl; reflexivity)|try (intros ? ? HX; exact (mk_is_Some _ _ HX))
    |try reflexivity|try reflexivity|try reflexivity|try reflexivity|reflexivity|reflexivity|try exact I|].

Definition is_panic (v : option vis) : bool :=
  match v with Some (VRet RPanicked) => true | _ => false end.

Lemma T_step c o h p h' p' v rest sp z :
  SInv h (p :: rest) -> TInv c h (p :: rest) sp z -> or_id o ∉ h_used h -> or_id o < 2 ^ 128 ->
  pstepR c o h p h' p' v ->
  exists sp' z', TInv c h' (p' :: rest) sp' z' /\ (z' = z \/ is_panic v = true).
Proof.
  intros HS HT Hid Hlt St.
  assert (Hok : pc_ok h p) by (apply (s_pcs _ _ HS); constructor).
  assert (Hpe : pc_entry c h sp p) by (apply (t_pc _ _ _ _ _ HT); constructor).
  destruct St; cbn [pc_ok pc_entry] in Hok, Hpe.
  all: try (exists sp, true; split; [tframe HT; [left; reflexivity]|right; reflexivity]; fail).
  all: try (exists sp, z; split; [tframe HT; [right; split; [reflexivity|split; [reflexivity|split; reflexivity]]]|left; reflexivity]; fail).
  - exists sp, z. split; [|left; reflexivity].
    tframe HT; [cbn; set_solver| |right; split; [reflexivity|split; [reflexivity|split; reflexivity]]].
    cbn [pc_entry]. split; [|exact Hlt]. destruct (sp !! or_id o) eqn:E; [|reflexivity].
    exfalso. apply Hid, (t_used _ _ _ _ _ HT). eauto.
  - exists sp, z. split; [|left; reflexivity]. tframe HT; [exact Hpe|right; split; [reflexivity|split; [reflexivity|split; reflexivity]]].
  - eexists _, z. split; [|left; reflexivity]. eapply T_create3; eassumption.
  - exists sp, z. split; [|left; reflexivity]. eapply T_create4; eassumption.
  - exists sp, z. split; [|left; reflexivity].
    tframe HT; [eapply objs_le_set; [exact H|repeat split|auto]|eapply lookup_set_some, H|].
    right; split; [reflexivity|split; [reflexivity|split; reflexivity]].
  - exists sp, z. split; [|left; reflexivity].
    tframe HT; [eapply objs_le_set; [exact H|repeat split|auto]|eapply lookup_set_some, H|].
    right; split; [reflexivity|split; [reflexivity|split; reflexivity]].
  - exists sp, z. split; [|left; reflexivity].
    tframe HT; [eapply objs_le_set; [exact H|repeat split|auto]|eapply lookup_set_some, H|].
    right; split; [reflexivity|split; [reflexivity|split; reflexivity]].
  - exists sp, z. split; [|left; reflexivity].
    pose proof (vals_delete _ _ _ H) as Hv.
    tframe HT.
    + unfold irefs. cbn [set_inc h_inc]. rewrite !bind_cons. cbn [pc_irefs app]. rewrite Hv. clear. set_solver.
    + unfold owners. cbn [set_inc h_inc h_com]. rewrite !bind_cons. cbn [pc_refs app]. rewrite Hv. clear. set_solver.
    + right. split; [reflexivity|]. split; [|split; reflexivity].
      unfold irefs. cbn [set_inc h_inc]. rewrite !bind_cons. cbn [pc_irefs app]. rewrite Hv. clear. set_solver.
  - exists sp, z. split; [|left; reflexivity].
    tframe HT; [eapply objs_le_set; [exact H|repeat split|reflexivity]|eapply lookup_set_some, H|].
    right; split; [reflexivity|split; [reflexivity|split; reflexivity]].
  - subst existing. exists sp, z. split; [|left; reflexivity]. eapply T_c3; eassumption.
  - exfalso. destruct Hpe as (Hn & Hne & _ & _ & _ & t & Ht & _).
    destruct (update_total _ _ (sy_calls (h_tup h)) tok new_id ds_committed t (t_inv _ _ _ _ _ HT) Ht Hn) as [s' Es].
    unfold tup_call in H. cbn [call_exec] in H. rewrite Es in H. discriminate.
  - eexists _, z. split; [|left; reflexivity]. eapply T_c4; eassumption.
  - apply find_committed_Some in H as (E & Eo & _). exists sp, z. split; [|left; reflexivity].
    pose proof (vals_delete _ _ _ E) as Hv.
    tframe HT.
    + unfold crefs. cbn [set_com h_com]. rewrite !bind_cons. cbn [pc_crefs app]. rewrite Hv. clear. set_solver.
    + unfold owners. cbn [set_com h_inc h_com]. rewrite !bind_cons. cbn [pc_refs app]. rewrite Hv. clear. set_solver.
    + right. split; [reflexivity|]. split; [reflexivity|]. split; [|reflexivity].
      unfold crefs. cbn [set_com h_com]. rewrite !bind_cons. cbn [pc_crefs app]. rewrite Hv. clear. set_solver.
  - exists sp, true. split; [|right; reflexivity]. tframe HT; [..|left; reflexivity].
    + unfold irefs. rewrite !bind_cons. cbn [pc_irefs app]. destruct k as [[]|]; clear; set_solver.
    + unfold crefs. rewrite !bind_cons. cbn [pc_crefs app]. destruct k as [[]|]; clear; set_solver.
    + unfold owners. rewrite !bind_cons. cbn [pc_refs app]. clear; set_solver.
  - eexists _, z. split; [|left; reflexivity].
    destruct (delete_Some _ _ _ _ _ _ (t_inv _ _ _ _ _ HT) H0) as [HI Ht].
    eapply T_reap1; eassumption.
  - exists sp, true. split; [|right; reflexivity]. tframe HT; [..|left; reflexivity].
    unfold owners. rewrite !bind_cons. cbn [pc_refs app]. clear; set_solver.
  - exists sp, z. split; [|left; reflexivity]. tframe HT; [..|right; split; [reflexivity|split; [reflexivity|split; reflexivity]]].
    unfold owners. cbn [set_alloc h_inc h_com]. rewrite !bind_cons. cbn [pc_refs app]. clear; set_solver.
Qed.

(** The flusher. *)
Lemma T_flush c h ps sp z t' : TInv c h ps sp z -> tstep (h_tup h) None t' -> TInv c (set_tup h t') ps sp z.
Proof.
  intros [T1 T2 T3 T4 T5 T6 T7 T8 T9 T10] Ht. constructor; auto. cbn. eapply flush_inv; eassumption.
Qed.

(** When reclaiming panics, the call that published the object has not reached
    the index yet. *)
Lemma T_reap1_panic c h r k ob rest sp z :
  SInv h (PReap1 r k :: rest) -> TInv c h (PReap1 r k :: rest) sp z -> h_objs h !! r = Some ob ->
  delete_object (sy_state (h_tup h)) (sy_calls (h_tup h)) (b_id ob) = None ->
  exists tok ex, PCommit4 tok (b_id ob) ex ∈ rest.
Proof.
  intros HS HT E Hd. apply (delete_None _ _ _ _ (t_inv _ _ _ _ _ HT)) in Hd.
  assert (r ∈ irefs h (PReap1 r k :: rest) \/ r ∈ crefs h (PReap1 r k :: rest)) as [Hr|Hr].
  { unfold irefs, crefs. rewrite !bind_cons, !elem_of_app. destruct k as [[]|]; cbn [pc_irefs pc_crefs]; rewrite !elem_of_list_singleton; auto. }
  - destruct (t_i _ _ _ _ _ HT r Hr) as (ob2 & E2 & H). congruence.
  - destruct (t_c _ _ _ _ _ HT r Hr) as [(ob2 & E2 & H)|(ob2 & tok & ex & E2 & H & _)]; [congruence|].
    assert (ob2 = ob) as -> by congruence. apply elem_of_cons in H as [H|H]; [discriminate|]. eauto.
Qed.
(** Discarding a new object after a commit that found the key taken never panics. *)
Lemma T_reap1_discard c h r b ob rest sp z :
  TInv c h (PReap1 r (KCommit None b) :: rest) sp z -> h_objs h !! r = Some ob ->
  delete_object (sy_state (h_tup h)) (sy_calls (h_tup h)) (b_id ob) <> None.
Proof.
  intros HT E Hd. apply (delete_None _ _ _ _ (t_inv _ _ _ _ _ HT)) in Hd.
  destruct (t_i _ _ _ _ _ HT r) as (ob2 & E2 & H); [|congruence].
  unfold irefs. rewrite bind_cons, !elem_of_app. right. left. constructor.
Qed.
Lemma T_c4_total c h tok new ex rest sp z : TInv c h (PCommit4 tok new ex :: rest) sp z ->
  tup_call (h_tup h) (CUpdate tok new ds_committed) <> None.
Proof.
  intros HT H. destruct (t_pc _ _ _ _ _ HT (PCommit4 tok new ex) ltac:(constructor)) as (Hn & Hne & _ & _ & _ & t & Ht & _).
  destruct (update_total _ _ (sy_calls (h_tup h)) tok new ds_committed t (t_inv _ _ _ _ _ HT) Ht Hn) as [s' Es].
  unfold tup_call in H. cbn [call_exec] in H. rewrite Es in H. discriminate.
Qed.
