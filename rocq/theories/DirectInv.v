(** Invariants of a direct partition, part 1: the maps, the objects and the
    calls that refer to them. *)
From Coq Require Import ZifyBool ZifyNat ZifyN.
From stdpp Require Import base numbers list_numbers option gmap sets list.
From Verif Require Import Util Bytes BuddyModel LayoutModel PageIOModel TuplesModel DirectModel DirectBase DirectSteps.
Open Scope N_scope.
Ltac Zify.zify_post_hook ::= idtac.

Global Instance item_eq : EqDecision item.
Proof. solve_decision. Defined.

(** Objects a call is responsible for reclaiming. *)
Definition pc_refs (p : pc) : list nat :=
  match p with
  | PCommit1 r _ _ | PCommit2 r _ _ | PCommit3 r _ _ | PReap1 r _ | PReap2 r _ _ _ => [r]
  | PCommit4 _ _ e | PCommit5 _ _ _ e => option_list e
  | _ => []
  end.
Definition owners (h : shared) (ps : list pc) : list nat := vals (h_inc h) ++ vals (h_com h) ++ (ps ≫= pc_refs).

(** Ids drawn for objects that are not in the list of objects yet. *)
Definition pc_new_ids (p : pc) : list N :=
  match p with PCreate2 _ _ _ id | PCreate3 _ _ _ id | PCreate4 _ _ _ id _ => [id] | _ => [] end.

(** Read grds of object [r]'s lock. *)
Definition grd (r : nat) (p : pc) : nat :=
  match p with
  | PWrite3 r' _ _ _ _ | PWrite4 r' _ _ _ _ | PWrite5 r' _ _ => if decide (r = r') then 1%nat else 0%nat
  | _ => 0%nat
  end.
Fixpoint grds (r : nat) (ps : list pc) : nat :=
  match ps with [] => 0 | p :: ps => grd r p + grds r ps end.

Definition is_c1 (r : nat) (p : pc) : Prop := match p with PCommit1 r' _ _ => r' = r | _ => False end.
Definition is_c12 (r : nat) (p : pc) : Prop :=
  match p with PCommit1 r' _ _ | PCommit2 r' _ _ => r' = r | _ => False end.
Global Instance is_c12_dec r p : Decision (is_c12 r p).
Proof. destruct p; cbn [is_c12]; apply _. Defined.
Definition is_w4 (r : nat) (p : pc) : Prop := match p with PWrite4 r' _ _ _ _ => r' = r | _ => False end.

Definition committed_ref (h : shared) (r : nat) : Prop :=
  exists ob, h_objs h !! r = Some ob /\ b_state ob = ds_committed.

Definition pc_ok (h : shared) (p : pc) : Prop :=
  match p with
  | PWrite1 r _ _ | PWrite2 r _ _ _ _ | PWrite3 r _ _ _ _ | PWrite4 r _ _ _ _ | PWrite5 r _ _ => is_Some (h_objs h !! r)
  | PCommit1 r tok _ => exists ob, h_objs h !! r = Some ob /\ b_id ob = tok
  | PCommit2 r tok _ | PCommit3 r tok _ => exists ob, h_objs h !! r = Some ob /\ b_id ob = tok /\ b_state ob = ds_committed
  | PCommit4 _ _ e | PCommit5 _ _ _ e => match e with Some r => committed_ref h r | None => True end
  | PReap1 r _ | PReap2 r _ _ _ | PReap3 r _ | PRead r _ _ => committed_ref h r
  | _ => True
  end.

Record SInv (h : shared) (ps : list pc) : Prop := {
  s_inc : forall tok r, h_inc h !! tok = Some r ->
    exists ob, h_objs h !! r = Some ob /\ b_id ob = tok /\ b_state ob = ds_incomplete;
  s_com : forall key r, h_com h !! key = Some r ->
    exists ob, h_objs h !! r = Some ob /\ m_key (b_meta ob) = key /\ b_state ob = ds_committed;
  s_pcs : forall p, p ∈ ps -> pc_ok h p;
  s_nodup : NoDup (owners h ps);
  s_ids : NoDup ((b_id <$> h_objs h) ++ (ps ≫= pc_new_ids));
  s_used : forall id, id ∈ (b_id <$> h_objs h) ++ (ps ≫= pc_new_ids) -> id ∈ h_used h;
  s_state : forall r ob, h_objs h !! r = Some ob -> b_state ob = ds_incomplete \/ b_state ob = ds_committed;
  s_open : forall r ob, h_objs h !! r = Some ob -> b_state ob = ds_incomplete ->
    r ∈ vals (h_inc h) \/ exists p, p ∈ ps /\ is_c1 r p;
  s_readers : forall r ob, h_objs h !! r = Some ob -> b_readers ob = grds r ps;
  s_w4 : forall r p, p ∈ ps -> is_w4 r p -> r ∈ vals (h_inc h) \/ exists p, p ∈ ps /\ is_c12 r p;
}.

Lemma grds_perm r ps ps' : ps ≡ₚ ps' -> grds r ps = grds r ps'.
Proof. induction 1; cbn [grds]; lia. Qed.

Lemma grds_elem r ps p : p ∈ ps -> (grd r p <= grds r ps)%nat.
Proof. induction 1 as [? ?|? ? ? H IH]; cbn [grds]; lia. Qed.

Lemma owners_perm h ps ps' : ps ≡ₚ ps' -> owners h ps ≡ₚ owners h ps'.
Proof. intros H. unfold owners. now rewrite H. Qed.

Lemma SInv_perm h ps ps' : ps ≡ₚ ps' -> SInv h ps -> SInv h ps'.
Proof.
  intros Hp [S1 S2 S3 S4 S5 S6 S7 S8 S9 S10].
  assert (Hin : forall p, p ∈ ps <-> p ∈ ps') by (intros p; now rewrite Hp).
  constructor; auto.
  - intros p H. apply S3, Hin, H.
  - now rewrite <- (owners_perm _ _ _ Hp).
  - now rewrite <- Hp.
  - intros id. rewrite <- Hp. apply S6.
  - intros r ob E Hs. destruct (S8 r ob E Hs) as [|(p & Hq & Hc)]; [auto|]. right. exists p. split; [apply Hin|]; auto.
  - intros r ob E. rewrite (S9 r ob E). now apply grds_perm.
  - intros r p H Hw. destruct (S10 r p (proj2 (Hin p) H) Hw) as [|(q & Hq & Hc)]; [auto|]. right. exists q. split; [apply Hin|]; auto.
Qed.

(** The parts of an object that never change. *)
Definition same_obj (ob ob' : dobj) : Prop :=
  b_id ob' = b_id ob /\ b_meta ob' = b_meta ob /\ b_msize ob' = b_msize ob /\ b_mpage ob' = b_mpage ob.
Definition objs_le (h h' : shared) : Prop :=
  forall r ob, h_objs h !! r = Some ob -> exists ob', h_objs h' !! r = Some ob' /\ same_obj ob ob' /\
    (b_state ob = ds_committed -> b_state ob' = ds_committed).

Lemma same_obj_refl ob : same_obj ob ob.
Proof. repeat split. Qed.
Lemma objs_le_refl h h' : h_objs h' = h_objs h -> objs_le h h'.
Proof. intros E r ob H. exists ob. rewrite E. split; [exact H|]. split; [apply same_obj_refl|auto]. Qed.
Lemma objs_le_set h r ob ob' : h_objs h !! r = Some ob -> same_obj ob ob' ->
  (b_state ob = ds_committed -> b_state ob' = ds_committed) -> objs_le h (set_obj h r ob').
Proof.
  intros E Hs Hc r2 ob2 E2. cbn. destruct (decide (r = r2)) as [<-|Hne].
  - exists ob'. rewrite list_lookup_insert by (eapply lookup_lt_Some, E). assert (ob2 = ob) as -> by congruence. auto.
  - exists ob2. rewrite list_lookup_insert_ne by exact Hne. split; [exact E2|]. split; [apply same_obj_refl|auto].
Qed.
Lemma objs_le_add h h' ob : h_objs h' = h_objs h ++ [ob] -> objs_le h h'.
Proof.
  intros E r ob2 H. exists ob2. rewrite E. split; [now apply lookup_app_l_Some|]. split; [apply same_obj_refl|auto].
Qed.

Lemma pc_ok_le h h' p : objs_le h h' -> pc_ok h p -> pc_ok h' p.
Proof.
  intros Hle.
  assert (Hc : forall r, committed_ref h r -> committed_ref h' r).
  { intros r (ob & E & Hs). destruct (Hle _ _ E) as (ob' & E' & _ & Hs'). exists ob'. auto. }
  assert (Hsome : forall r, is_Some (h_objs h !! r) -> is_Some (h_objs h' !! r)).
  { intros r [ob E]. destruct (Hle _ _ E) as (ob' & E' & _). eauto. }
  destruct p; cbn [pc_ok]; auto.
  - intros (ob & E & Hid). destruct (Hle _ _ E) as (ob' & E' & (Hi & _) & _). exists ob'. split; [exact E'|congruence].
  - intros (ob & E & Hid & Hs). destruct (Hle _ _ E) as (ob' & E' & (Hi & _) & Hs'). exists ob'. split; [exact E'|]. split; [congruence|auto].
  - intros (ob & E & Hid & Hs). destruct (Hle _ _ E) as (ob' & E' & (Hi & _) & Hs'). exists ob'. split; [exact E'|]. split; [congruence|auto].
  - destruct existing; auto.
  - destruct existing; auto.
Qed.

Lemma bind_cons {A B} (f : A -> list B) x l : (x :: l) ≫= f = f x ++ (l ≫= f).
Proof. reflexivity. Qed.

(** Steps that change neither the maps nor the objects. *)
Lemma S_frame h h' p p' rest :
  SInv h (p :: rest) -> h_objs h' = h_objs h -> h_inc h' = h_inc h -> h_com h' = h_com h -> h_used h ⊆ h_used h' ->
  pc_ok h' p' -> (exists l, pc_refs p ≡ₚ pc_refs p' ++ l) ->
  (pc_new_ids p' = [] \/ pc_new_ids p' = pc_new_ids p \/
     exists id, pc_new_ids p' = [id] /\ id ∉ h_used h /\ id ∈ h_used h') ->
  (forall r, grd r p' = grd r p) ->
  (forall r, ~ is_c1 r p) ->
  (forall r, is_c12 r p -> ~ is_c12 r p' -> grds r rest = 0%nat) ->
  (forall r, is_w4 r p' -> r ∈ vals (h_inc h) \/ exists q, q ∈ rest /\ is_c12 r q) ->
  SInv h' (p' :: rest).
Proof.
  intros [S1 S2 S3 S4 S5 S6 S7 S8 S9 S10] Eo Ei Ec Hu Hok [l Hr] Hid Hg Hc1 Hc12 Hw4.
  constructor; rewrite ?Eo, ?Ei, ?Ec.
  - exact S1.
  - exact S2.
  - intros q Hq. apply elem_of_cons in Hq as [->|Hq]; [exact Hok|].
    eapply pc_ok_le; [|apply S3; now constructor]. apply objs_le_refl, Eo.
  - unfold owners in *. rewrite Ei, Ec. rewrite !bind_cons in *.
    apply nodup_mult. intros x. rewrite nodup_mult in S4. specialize (S4 x). apply (mult_perm x) in Hr.
    rewrite !mult_app in *. lia.
  - rewrite !bind_cons in *. apply nodup_mult. intros x. rewrite nodup_mult in S5. pose proof (S5 x) as S5x.
    rewrite !mult_app in *. destruct Hid as [->|[->|(id & -> & Hf & _)]]; [rewrite mult_nil; lia|lia|].
    rewrite mult_cons, mult_nil. destruct (decide (x = id)) as [->|]; [|lia].
    assert (mult id (b_id <$> h_objs h) + mult id (rest ≫= pc_new_ids) = 0)%nat; [|lia].
    destruct (mult id (b_id <$> h_objs h) + mult id (rest ≫= pc_new_ids))%nat eqn:E; [reflexivity|].
    exfalso. apply Hf, S6. rewrite !elem_of_app.
    assert (0 < mult id (b_id <$> h_objs h) \/ 0 < mult id (rest ≫= pc_new_ids))%nat as [H|H] by lia; apply mult_elem in H; auto.
  - intros id. rewrite bind_cons. intros Hin. destruct Hid as [E|[E|(i & E & Hf & Hn)]]; rewrite E in Hin.
    + apply Hu, S6. rewrite bind_cons, !elem_of_app in *. cbn [app] in Hin. destruct Hin as [|[Hin|]]; auto. inversion Hin.
    + apply Hu, S6. rewrite bind_cons. exact Hin.
    + rewrite !elem_of_app, elem_of_list_singleton in Hin. destruct Hin as [Hin|[->|Hin]]; [|exact Hn|];
        apply Hu, S6; rewrite bind_cons, !elem_of_app; auto.
  - exact S7.
  - intros r ob E Hs. destruct (S8 r ob E Hs) as [|(q & Hq & Hc)]; [auto|]. right.
    apply elem_of_cons in Hq as [->|Hq]; [exfalso; eapply Hc1, Hc|]. exists q. split; [now constructor|exact Hc].
  - intros r ob E. rewrite (S9 r ob E). cbn [grds]. now rewrite Hg.
  - intros r q Hq Hw. apply elem_of_cons in Hq as [->|Hq].
    + destruct (Hw4 r Hw) as [|(q & Hq & Hc)]; [auto|]. right. exists q. split; [now constructor|exact Hc].
    + destruct (S10 r q ltac:(now constructor) Hw) as [|(q2 & Hq2 & Hc)]; [auto|].
      apply elem_of_cons in Hq2 as [->|Hq2]; [|right; exists q2; split; [now constructor|exact Hc]].
      right. exists p'. split; [constructor|]. destruct (decide (is_c12 r p')) as [|Hn]; [assumption|exfalso].
      pose proof (Hc12 _ Hc Hn). pose proof (grds_elem r rest q Hq) as Hge. destruct q; try contradiction.
      cbn in Hw, Hge. subst. rewrite decide_True in Hge by reflexivity. lia.
Qed.

(** Replacing an object, keeping its identity and state. *)
Lemma S_readers h r ob n p p' rest :
  SInv h (p :: rest) -> h_objs h !! r = Some ob ->
  pc_refs p = [] -> pc_refs p' = [] -> pc_new_ids p = [] -> pc_new_ids p' = [] ->
  (forall r', ~ is_c12 r' p) -> (forall r', ~ is_w4 r' p') ->
  pc_ok h p' -> (forall r', r' <> r -> grd r' p' = grd r' p) -> (n + grd r p)%nat = (b_readers ob + grd r p')%nat ->
  SInv (set_obj h r (set_b_readers ob n)) (p' :: rest).
Proof.
  intros [S1 S2 S3 S4 S5 S6 S7 S8 S9 S10] E Hr Hr' Hi Hi' Hc Hw Hok Hg Hn.
  assert (Hle : objs_le h (set_obj h r (set_b_readers ob n))) by (apply objs_le_set with ob; [exact E|repeat split|auto]).
  assert (Hlk : forall r2 ob2, h_objs (set_obj h r (set_b_readers ob n)) !! r2 = Some ob2 ->
    exists ob1, h_objs h !! r2 = Some ob1 /\ b_state ob2 = b_state ob1 /\ b_id ob2 = b_id ob1 /\ b_meta ob2 = b_meta ob1 /\
      b_readers ob2 = if decide (r2 = r) then n else b_readers ob1).
  { intros r2 ob2. cbn. destruct (decide (r2 = r)) as [->|Hne].
    - rewrite list_lookup_insert by (eapply lookup_lt_Some, E). intros H. injection H as <-. exists ob. auto.
    - rewrite list_lookup_insert_ne by auto. intros H. exists ob2. auto. }
  assert (Hids : b_id <$> h_objs (set_obj h r (set_b_readers ob n)) = b_id <$> h_objs h).
  { cbn. rewrite list_fmap_insert. cbn. apply list_insert_id. rewrite list_lookup_fmap, E. reflexivity. }
  constructor.
  - intros tok r2 E2. destruct (S1 tok r2 E2) as (ob2 & E3 & Hid & Hs).
    destruct (decide (r2 = r)) as [->|Hne].
    + exists (set_b_readers ob n). cbn. rewrite list_lookup_insert by (eapply lookup_lt_Some, E).
      assert (ob2 = ob) as -> by congruence. auto.
    + exists ob2. cbn. rewrite list_lookup_insert_ne by auto. auto.
  - intros key r2 E2. destruct (S2 key r2 E2) as (ob2 & E3 & Hid & Hs).
    destruct (Hle _ _ E3) as (ob3 & E4 & (_ & Hm & _) & Hs'). exists ob3. rewrite Hm. auto.
  - intros q Hq. apply elem_of_cons in Hq as [->|Hq]; (eapply pc_ok_le; [exact Hle|]); [exact Hok|apply S3; now constructor].
  - unfold owners in *. rewrite bind_cons in *. rewrite Hr in S4. rewrite Hr'. exact S4.
  - rewrite Hids. rewrite bind_cons in *. rewrite Hi in S5. rewrite Hi'. exact S5.
  - rewrite Hids. rewrite bind_cons in *. rewrite Hi in S6. rewrite Hi'. exact S6.
  - intros r2 ob2 E2. destruct (Hlk _ _ E2) as (ob1 & E1 & -> & _). eauto.
  - intros r2 ob2 E2 Hs. destruct (Hlk _ _ E2) as (ob1 & E1 & Hs1 & _). rewrite Hs1 in Hs.
    destruct (S8 _ _ E1 Hs) as [|(q & Hq & Hc1)]; [auto|]. right. apply elem_of_cons in Hq as [->|Hq].
    + exfalso. apply (Hc r2). destruct p; try contradiction; exact Hc1.
    + exists q. split; [now constructor|exact Hc1].
  - intros r2 ob2 E2. destruct (Hlk _ _ E2) as (ob1 & E1 & _ & _ & _ & ->). cbn [grds].
    destruct (decide (r2 = r)) as [->|Hne].
    + assert (ob1 = ob) as -> by congruence. rewrite (S9 _ _ E) in Hn. cbn [grds] in Hn. lia.
    + rewrite (S9 _ _ E1). cbn [grds]. now rewrite Hg.
  - intros r2 q Hq Hw2. apply elem_of_cons in Hq as [->|Hq]; [exfalso; eapply Hw, Hw2|].
    destruct (S10 r2 q ltac:(now constructor) Hw2) as [|(q2 & Hq2 & Hc2)]; [auto|]. right.
    apply elem_of_cons in Hq2 as [->|Hq2]; [exfalso; eapply Hc, Hc2|]. exists q2. split; [now constructor|exact Hc2].
Qed.

Lemma find_committed_Some h key id r ob : find_committed h key id = Some (r, ob) ->
  h_com h !! key = Some r /\ h_objs h !! r = Some ob /\ id_matches id ob = true.
Proof.
  unfold find_committed. destruct (h_com h !! key) as [r'|] eqn:E; [|discriminate]. cbn.
  destruct (h_objs h !! r') as [ob'|] eqn:E2; [|discriminate]. cbn.
  destruct (id_matches id ob') eqn:E3; [|discriminate]. intros H. injection H as <- <-. auto.
Qed.
Lemma find_committed_None h ps key id : SInv h ps -> find_committed h key id = None ->
  match h_com h !! key with None => True | Some r => exists ob, h_objs h !! r = Some ob /\ id_matches id ob = false end.
Proof.
  intros HS. unfold find_committed. destruct (h_com h !! key) as [r|] eqn:E; [|auto]. cbn.
  destruct (s_com _ _ HS _ _ E) as (ob & Eo & _). rewrite Eo. cbn.
  destruct (id_matches id ob) eqn:E3; [discriminate|]. eauto.
Qed.

Lemma S_commit h tok ine r rest : SInv h (PStart (OCommit tok ine) :: rest) -> h_inc h !! tok = Some r ->
  SInv (set_inc h (delete tok (h_inc h))) (PCommit1 r tok ine :: rest).
Proof.
  intros [S1 S2 S3 S4 S5 S6 S7 S8 S9 S10] E. pose proof (vals_delete _ _ _ E) as Hv.
  assert (Hin : forall r2, r2 ∈ vals (h_inc h) -> r2 = r \/ r2 ∈ vals (delete tok (h_inc h))).
  { intros r2 H. rewrite Hv in H. now apply elem_of_cons in H. }
  constructor; cbn [set_inc h_inc h_com h_objs h_used].
  - intros t2 r2 E2. apply lookup_delete_Some in E2 as [_ E2]. eauto.
  - exact S2.
  - intros q Hq. apply elem_of_cons in Hq as [->|Hq]; [|apply (pc_ok_le h); [now apply objs_le_refl|apply S3; now constructor]].
    destruct (S1 _ _ E) as (ob & Eo & Hid & _). exists ob. auto.
  - unfold owners in *. cbn [set_inc h_inc h_com]. rewrite bind_cons in *. cbn [pc_refs] in *.
    apply nodup_mult. intros x. rewrite nodup_mult in S4. specialize (S4 x). apply (mult_perm x) in Hv.
    rewrite !mult_app, ?mult_cons, ?mult_nil in *. lia.
  - exact S5.
  - exact S6.
  - exact S7.
  - intros r2 ob E2 Hs. destruct (S8 _ _ E2 Hs) as [H|(q & Hq & Hc)].
    + destruct (Hin _ H) as [->|]; [|auto]. right. exists (PCommit1 r tok ine). split; [constructor|reflexivity].
    + right. exists q. apply elem_of_cons in Hq as [->|Hq]; [contradiction|]. split; [now constructor|exact Hc].
  - exact S9.
  - intros r2 q Hq Hw. apply elem_of_cons in Hq as [->|Hq]; [contradiction|].
    destruct (S10 r2 q ltac:(now constructor) Hw) as [H|(q2 & Hq2 & Hc)].
    + destruct (Hin _ H) as [->|]; [|auto]. right. exists (PCommit1 r tok ine). split; [constructor|reflexivity].
    + right. exists q2. apply elem_of_cons in Hq2 as [->|Hq2]; [contradiction|]. split; [now constructor|exact Hc].
Qed.

Lemma S_c1 h tok ine r ob rest : SInv h (PCommit1 r tok ine :: rest) -> h_objs h !! r = Some ob ->
  SInv (set_obj h r (set_b_state ob ds_committed)) (PCommit2 r tok ine :: rest).
Proof.
  intros [S1 S2 S3 S4 S5 S6 S7 S8 S9 S10] E.
  assert (Hle : objs_le h (set_obj h r (set_b_state ob ds_committed))) by (apply objs_le_set with ob; [exact E|repeat split|auto]).
  assert (Hni : r ∉ vals (h_inc h)).
  { intros H. apply mult_elem in H. unfold owners in S4. rewrite nodup_mult in S4. specialize (S4 r). rewrite bind_cons in S4.
    cbn [pc_refs] in S4. rewrite !mult_app, mult_cons, decide_True in S4 by reflexivity. lia. }
  assert (Hlen : (r < length (h_objs h))%nat) by (eapply lookup_lt_Some, E).
  assert (Hlk : forall r2 ob2, h_objs (set_obj h r (set_b_state ob ds_committed)) !! r2 = Some ob2 ->
    r2 = r /\ ob2 = set_b_state ob ds_committed \/ r2 <> r /\ h_objs h !! r2 = Some ob2).
  { intros r2 ob2. cbn. destruct (decide (r2 = r)) as [->|Hne].
    - rewrite list_lookup_insert by exact Hlen. intros H. injection H as <-. auto.
    - rewrite list_lookup_insert_ne by auto. auto. }
  assert (Hids : b_id <$> h_objs (set_obj h r (set_b_state ob ds_committed)) = b_id <$> h_objs h).
  { cbn. rewrite list_fmap_insert. cbn. apply list_insert_id. rewrite list_lookup_fmap, E. reflexivity. }
  constructor.
  - intros t2 r2 E2. cbn in E2. destruct (S1 _ _ E2) as (ob2 & E3 & H). exists ob2. cbn.
    rewrite list_lookup_insert_ne; [auto|]. intros ->. apply Hni, elem_of_vals. eauto.
  - intros key r2 E2. cbn in E2. destruct (S2 _ _ E2) as (ob2 & E3 & Hk & Hs).
    destruct (Hle _ _ E3) as (ob3 & E4 & (_ & Hm & _) & Hs'). exists ob3. rewrite Hm. auto.
  - intros q Hq. apply elem_of_cons in Hq as [->|Hq].
    + destruct (S3 (PCommit1 r tok ine) ltac:(constructor)) as (ob2 & E2 & Hid). assert (ob2 = ob) as -> by congruence.
      exists (set_b_state ob ds_committed). cbn. rewrite list_lookup_insert by exact Hlen. auto.
    + eapply pc_ok_le; [exact Hle|]. apply S3. now constructor.
  - exact S4.
  - rewrite Hids. exact S5.
  - rewrite Hids. exact S6.
  - intros r2 ob2 E2. destruct (Hlk _ _ E2) as [[-> ->]|[_ E3]]; [right; reflexivity|eauto].
  - intros r2 ob2 E2 Hs. destruct (Hlk _ _ E2) as [[-> ->]|[Hne E3]]; [discriminate|].
    destruct (S8 _ _ E3 Hs) as [|(q & Hq & Hc)]; [auto|]. right. exists q. apply elem_of_cons in Hq as [->|Hq].
    + exfalso. cbn in Hc. congruence.
    + split; [now constructor|exact Hc].
  - intros r2 ob2 E2. destruct (Hlk _ _ E2) as [[-> ->]|[_ E3]]; [exact (S9 _ _ E)|exact (S9 _ _ E3)].
  - intros r2 q Hq Hw. apply elem_of_cons in Hq as [->|Hq]; [contradiction|].
    destruct (S10 r2 q ltac:(now constructor) Hw) as [|(q2 & Hq2 & Hc)]; [auto|]. right.
    apply elem_of_cons in Hq2 as [->|Hq2].
    + exists (PCommit2 r tok ine). split; [constructor|exact Hc].
    + exists q2. split; [now constructor|exact Hc].
Qed.

Lemma S_delete h key id r ob rest : SInv h (PStart (ODelete key id) :: rest) -> find_committed h key id = Some (r, ob) ->
  SInv (set_com h (delete key (h_com h))) (PReap1 r KDelete :: rest).
Proof.
  intros [S1 S2 S3 S4 S5 S6 S7 S8 S9 S10] F. apply find_committed_Some in F as (E & Eo & _).
  pose proof (vals_delete _ _ _ E) as Hv.
  constructor; cbn [set_com h_inc h_com h_objs h_used].
  - exact S1.
  - intros k2 r2 E2. apply lookup_delete_Some in E2 as [_ E2]. eauto.
  - intros q Hq. apply elem_of_cons in Hq as [->|Hq]; [|apply (pc_ok_le h); [now apply objs_le_refl|apply S3; now constructor]].
    destruct (S2 _ _ E) as (ob2 & Eo2 & _ & Hs). exists ob2. auto.
  - unfold owners in *. cbn [set_com h_inc h_com]. rewrite bind_cons in *. cbn [pc_refs] in *.
    apply nodup_mult. intros x. rewrite nodup_mult in S4. specialize (S4 x). apply (mult_perm x) in Hv.
    rewrite !mult_app, ?mult_cons, ?mult_nil in *. lia.
  - exact S5.
  - exact S6.
  - exact S7.
  - intros r2 ob2 E2 Hs. destruct (S8 _ _ E2 Hs) as [H|(q & Hq & Hc)]; [auto|].
    right. exists q. apply elem_of_cons in Hq as [->|Hq]; [contradiction|]. split; [now constructor|exact Hc].
  - exact S9.
  - intros r2 q Hq Hw. apply elem_of_cons in Hq as [->|Hq]; [contradiction|].
    destruct (S10 r2 q ltac:(now constructor) Hw) as [H|(q2 & Hq2 & Hc)]; [auto|].
    right. exists q2. apply elem_of_cons in Hq2 as [->|Hq2]; [contradiction|]. split; [now constructor|exact Hc].
Qed.

(** Facts about valid references. *)
Lemma owner_lt h ps r : SInv h ps -> r ∈ owners h ps -> (r < length (h_objs h))%nat.
Proof.
  intros HS H. unfold owners in H. rewrite !elem_of_app in H. destruct H as [H|[H|H]].
  - apply elem_of_vals in H as [k E]. destruct (s_inc _ _ HS _ _ E) as (ob & Eo & _). eapply lookup_lt_Some, Eo.
  - apply elem_of_vals in H as [k E]. destruct (s_com _ _ HS _ _ E) as (ob & Eo & _). eapply lookup_lt_Some, Eo.
  - apply elem_of_list_bind in H as (p & Hr & Hp). pose proof (s_pcs _ _ HS _ Hp) as Hok.
    destruct p; cbn in Hr; try (inversion Hr; fail).
    + apply elem_of_list_singleton in Hr as ->. destruct Hok as (ob & Eo & _). eapply lookup_lt_Some, Eo.
    + apply elem_of_list_singleton in Hr as ->. destruct Hok as (ob & Eo & _). eapply lookup_lt_Some, Eo.
    + apply elem_of_list_singleton in Hr as ->. destruct Hok as (ob & Eo & _). eapply lookup_lt_Some, Eo.
    + destruct existing; [|inversion Hr]. apply elem_of_list_singleton in Hr as ->. destruct Hok as (ob & Eo & _). eapply lookup_lt_Some, Eo.
    + destruct existing; [|inversion Hr]. apply elem_of_list_singleton in Hr as ->. destruct Hok as (ob & Eo & _). eapply lookup_lt_Some, Eo.
    + apply elem_of_list_singleton in Hr as ->. destruct Hok as (ob & Eo & _). eapply lookup_lt_Some, Eo.
    + apply elem_of_list_singleton in Hr as ->. destruct Hok as (ob & Eo & _). eapply lookup_lt_Some, Eo.
Qed.

Lemma grds_lt h ps r : SInv h ps -> h_objs h !! r = None -> grds r ps = 0%nat.
Proof.
  intros HS E. destruct (grds r ps) eqn:Eg; [reflexivity|exfalso].
  assert (exists p, p ∈ ps /\ (0 < grd r p)%nat) as (p & Hp & Hg).
  { clear HS. revert n Eg. induction ps as [|q ps IH]; intros n Eg; cbn [grds] in Eg; [lia|].
    destruct (grd r q) eqn:Eq.
    - destruct (IH n Eg) as (p & Hp & Hg). exists p. split; [now constructor|exact Hg].
    - exists q. split; [constructor|lia]. }
  pose proof (s_pcs _ _ HS _ Hp) as Hok. destruct p; cbn in Hg; try lia; destruct (decide (r = _)); try lia; subst;
    destruct Hok as [ob Hob]; congruence.
Qed.

(** A new object is appended. *)
Lemma objs_snoc (l : list dobj) ob r ob2 : (l ++ [ob]) !! r = Some ob2 ->
  l !! r = Some ob2 \/ r = length l /\ ob2 = ob.
Proof.
  intros H. apply lookup_app_Some in H as [H|[Hl H]]; [auto|]. right.
  apply list_lookup_singleton_Some in H as [H ->]. split; [lia|reflexivity].
Qed.

Lemma S_create4 c h m msize moff id k rest : SInv h (PCreate4 m msize moff id k :: rest) -> h_inc h !! id = None ->
  SInv (bump (set_inc (add_obj h (created_obj c m msize moff id)) (<[id := length (h_objs h)]> (h_inc h)))
            (met_create_done msize (m_size m))) (PDone :: rest).
Proof.
  intros HS E. pose proof HS as [S1 S2 S3 S4 S5 S6 S7 S8 S9 S10].
  set (ob := created_obj c m msize moff id).
  pose proof (vals_insert _ _ (length (h_objs h)) E) as Hv.
  assert (Hle : objs_le h (add_obj h ob)) by now apply (objs_le_add _ _ ob).
  assert (Hno : length (h_objs h) ∉ owners h (PCreate4 m msize moff id k :: rest)).
  { intros H. apply (owner_lt _ _ _ HS) in H. lia. }
  constructor; cbn [bump set_inc add_obj set_objs h_inc h_com h_objs h_used].
  - intros t2 r2 E2. apply lookup_insert_Some in E2 as [[<- <-]|[Hne E2]].
    + exists ob. rewrite lookup_app_r by lia. rewrite Nat.sub_diag. repeat split.
    + destruct (S1 _ _ E2) as (ob2 & E3 & H). exists ob2. split; [now apply lookup_app_l_Some|exact H].
  - intros key r2 E2. destruct (S2 _ _ E2) as (ob2 & E3 & H). exists ob2. split; [now apply lookup_app_l_Some|exact H].
  - intros q Hq. apply elem_of_cons in Hq as [->|Hq]; [exact I|].
    apply (pc_ok_le h); [exact Hle|]. apply S3. now constructor.
  - unfold owners in *. cbn [bump set_inc add_obj set_objs h_inc h_com]. rewrite bind_cons in *. cbn [pc_refs app] in *.
    apply nodup_mult. intros x. rewrite nodup_mult in S4. specialize (S4 x). apply (mult_perm x) in Hv.
    rewrite !mult_app, ?mult_cons, ?mult_nil in *. destruct (decide (x = length (h_objs h))) as [->|]; [|lia].
    assert (mult (length (h_objs h)) (vals (h_inc h) ++ vals (h_com h) ++ (rest ≫= pc_refs)) = 0)%nat as H0.
    { apply mult_zero. exact Hno. }
    rewrite !mult_app in H0. lia.
  - rewrite fmap_app. cbn [fmap list_fmap]. rewrite bind_cons in *. cbn [pc_new_ids app] in *. subst ob; cbn [created_obj b_id].
    eapply NoDup_Permutation_proper; [|exact S5]. perm_solve.
  - intros i. rewrite fmap_app. cbn [fmap list_fmap]. rewrite bind_cons in *. cbn [pc_new_ids app] in *. intros H. apply S6.
    subst ob; cbn [created_obj b_id] in H. rewrite !elem_of_app, elem_of_cons in *. set_solver.
  - intros r2 ob2 E2. apply objs_snoc in E2 as [E2|[-> ->]]; [eauto|left; reflexivity].
  - intros r2 ob2 E2 Hs. apply objs_snoc in E2 as [E2|[-> ->]].
    + destruct (S8 _ _ E2 Hs) as [H|(q & Hq & Hc)].
      * left. rewrite Hv. now constructor.
      * right. exists q. apply elem_of_cons in Hq as [->|Hq]; [contradiction|]. split; [now constructor|exact Hc].
    + left. rewrite Hv. constructor.
  - intros r2 ob2 E2. apply objs_snoc in E2 as [E2|[-> ->]]; [exact (S9 _ _ E2)|].
    cbn [ob created_obj b_readers]. symmetry. apply (grds_lt _ _ _ HS). apply lookup_ge_None_2. lia.
  - intros r2 q Hq Hw. apply elem_of_cons in Hq as [->|Hq]; [contradiction|].
    destruct (S10 r2 q ltac:(now constructor) Hw) as [H|(q2 & Hq2 & Hc)]; [left; rewrite Hv; now constructor|].
    right. exists q2. apply elem_of_cons in Hq2 as [->|Hq2]; [contradiction|]. split; [now constructor|exact Hc].
Qed.

Lemma S_c3 h tok ine r ob id rest : SInv h (PCommit3 r tok ine :: rest) -> id ∉ h_used h -> h_objs h !! r = Some ob ->
  SInv (use_id (set_com (add_obj h (published_obj ob id)) (<[m_key (b_meta ob) := length (h_objs h)]> (h_com h))) id)
    (PCommit4 tok id (h_com h !! m_key (b_meta ob)) :: rest).
Proof.
  intros HS Hid E. pose proof HS as [S1 S2 S3 S4 S5 S6 S7 S8 S9 S10].
  set (nob := published_obj ob id).
  assert (Hcom : b_state ob = ds_committed).
  { destruct (S3 (PCommit3 r tok ine) ltac:(constructor)) as (ob2 & E2 & _ & Hs). congruence. }
  assert (Hle : objs_le h (add_obj h nob)) by now apply (objs_le_add _ _ nob).
  assert (Hno : length (h_objs h) ∉ owners h (PCommit3 r tok ine :: rest)).
  { intros H. apply (owner_lt _ _ _ HS) in H. lia. }
  assert (Hv : option_list (h_com h !! m_key (b_meta ob)) ++ vals (<[m_key (b_meta ob) := length (h_objs h)]> (h_com h))
               ≡ₚ length (h_objs h) :: vals (h_com h)).
  { destruct (h_com h !! m_key (b_meta ob)) as [e|] eqn:Ee; cbn [option_list app].
    - now apply vals_replace.
    - now apply vals_insert. }
  constructor; cbn [use_id set_com add_obj set_objs h_inc h_com h_objs h_used].
  - intros t2 r2 E2. destruct (S1 _ _ E2) as (ob2 & E3 & H). exists ob2. split; [now apply lookup_app_l_Some|exact H].
  - intros key r2 E2. apply lookup_insert_Some in E2 as [[<- <-]|[Hne E2]].
    + exists nob. rewrite lookup_app_r by lia. rewrite Nat.sub_diag. repeat split. exact Hcom.
    + destruct (S2 _ _ E2) as (ob2 & E3 & H). exists ob2. split; [now apply lookup_app_l_Some|exact H].
  - intros q Hq. apply elem_of_cons in Hq as [->|Hq].
    + apply (pc_ok_le h); [exact Hle|]. cbn [pc_ok]. destruct (h_com h !! m_key (b_meta ob)) as [e|] eqn:Ee; [|exact I].
      destruct (S2 _ _ Ee) as (ob2 & E2 & _ & Hs). exists ob2. auto.
    + apply (pc_ok_le h); [exact Hle|]. apply S3. now constructor.
  - unfold owners in *. cbn [use_id set_com add_obj set_objs h_inc h_com]. rewrite bind_cons in *. cbn [pc_refs] in *.
    apply nodup_mult. intros x. rewrite nodup_mult in S4. specialize (S4 x). apply (mult_perm x) in Hv.
    rewrite !mult_app, ?mult_cons, ?mult_nil in *. destruct (decide (x = length (h_objs h))) as [->|]; [|lia].
    assert (mult (length (h_objs h)) (vals (h_inc h) ++ vals (h_com h) ++ (rest ≫= pc_refs)) = 0)%nat as H0.
    { apply mult_zero. intros Hx. apply Hno. rewrite !elem_of_app in *. tauto. }
    rewrite !mult_app in H0. lia.
  - rewrite fmap_app. cbn [fmap list_fmap]. rewrite bind_cons in *. cbn [pc_new_ids app] in *.
    assert (NoDup (id :: (b_id <$> h_objs h) ++ (rest ≫= pc_new_ids))) as Hnd.
    { constructor; [|exact S5]. intros H. apply Hid, S6, H. }
    eapply NoDup_Permutation_proper; [|exact Hnd]. cbn [nob published_obj b_id]. perm_solve.
  - intros i. rewrite fmap_app. cbn [fmap list_fmap]. rewrite bind_cons in *. cbn [pc_new_ids app] in *. intros H.
    cbn [nob published_obj b_id] in H. rewrite !elem_of_app, elem_of_list_singleton in *.
    destruct H as [[H| ->]|H]; [|set_solver|]; apply elem_of_union_r, S6; rewrite elem_of_app; auto.
  - intros r2 ob2 E2. apply objs_snoc in E2 as [E2|[-> ->]]; [eauto|right; exact Hcom].
  - intros r2 ob2 E2 Hs. apply objs_snoc in E2 as [E2|[-> ->]].
    + destruct (S8 _ _ E2 Hs) as [H|(q & Hq & Hc)]; [auto|].
      right. exists q. apply elem_of_cons in Hq as [->|Hq]; [contradiction|]. split; [now constructor|exact Hc].
    + cbn in Hs. rewrite Hcom in Hs. discriminate.
  - intros r2 ob2 E2. apply objs_snoc in E2 as [E2|[-> ->]]; [exact (S9 _ _ E2)|].
    cbn [nob published_obj b_readers]. symmetry. apply (grds_lt _ _ _ HS). apply lookup_ge_None_2. lia.
  - intros r2 q Hq Hw. apply elem_of_cons in Hq as [->|Hq]; [contradiction|].
    destruct (S10 r2 q ltac:(now constructor) Hw) as [H|(q2 & Hq2 & Hc)]; [auto|].
    right. exists q2. apply elem_of_cons in Hq2 as [->|Hq2]; [contradiction|]. split; [now constructor|exact Hc].
Qed.

Ltac sframe HS :=
  eapply (S_frame _ _ _ _ _ HS); cbn [set_alloc set_dev set_tup bump use_id h_objs h_inc h_com h_used];
  [reflexivity|reflexivity|reflexivity|set_solver| | | |(intros ?; cbn; auto)|(intros ? [])|(intros ? []) |(intros ? [])];
  [try exact I | try (exists []; rewrite app_nil_r; reflexivity) | try (left; reflexivity)].

Lemma S_step c o h p h' p' v rest :
  SInv h (p :: rest) -> or_id o ∉ h_used h -> pstepR c o h p h' p' v -> SInv h' (p' :: rest).
Proof.
  intros HS Hid St.
  assert (Hok : pc_ok h p) by (apply (s_pcs _ _ HS); constructor).
  destruct St; cbn [pc_ok] in Hok.
  - sframe HS.
  - sframe HS.
  - sframe HS.
  - sframe HS.
  - sframe HS.
  - sframe HS. right. right. exists (or_id o). split; [reflexivity|]. split; [exact Hid|set_solver].
  - sframe HS. right. left. reflexivity.
  - sframe HS.
  - sframe HS. right. left. reflexivity.
  - sframe HS.
  - now apply S_create4 with (k := k).
  - sframe HS.
  - sframe HS.
  - sframe HS. destruct (s_inc _ _ HS _ _ H) as (ob2 & E2 & _). cbn. eauto.
  - sframe HS.
  - sframe HS.
  - sframe HS. exact Hok.
  - sframe HS. exact Hok.
  - eapply S_readers; [exact HS|exact H|reflexivity..|intros ? []|intros ? []|exact Hok| |].
    + intros r' Hne. cbn. now rewrite decide_False.
    + cbn. rewrite decide_True by reflexivity. lia.
  - eapply S_frame; [exact HS|reflexivity|reflexivity|reflexivity|reflexivity|exact Hok| | |auto|intros ? []|intros ? []|].
    + exists []; rewrite app_nil_r; reflexivity.
    + left. reflexivity.
    + intros r2 Hw. cbn in Hw. subst r2. destruct (s_open _ _ HS _ _ H H0) as [|(q & Hq & Hc)]; [auto|].
      right. exists q. apply elem_of_cons in Hq as [->|Hq]; [contradiction|]. split; [exact Hq|]. destruct q; try contradiction; exact Hc.
  - eapply S_readers; [exact HS|exact H|reflexivity..|intros ? []|intros ? []|exact I| |].
    + intros r' Hne. cbn. now rewrite decide_False.
    + pose proof (s_readers _ _ HS _ _ H) as Hr. cbn [grds grd] in *. rewrite decide_True in * by reflexivity. lia.
  - sframe HS. exact Hok.
  - eapply S_readers; [exact HS|exact H|reflexivity..|intros ? []|intros ? []|exact Hok| |].
    + intros r' Hne. cbn. now rewrite decide_False.
    + pose proof (s_readers _ _ HS _ _ H) as Hr. cbn [grds grd] in *. rewrite decide_True in * by reflexivity. lia.
  - sframe HS.
  - now apply S_commit.
  - now apply S_c1.
  - eapply S_frame; [exact HS|reflexivity|reflexivity|reflexivity|reflexivity|exact Hok| | |auto|intros ? []| |intros ? []].
    + exists []; rewrite app_nil_r; reflexivity.
    + left. reflexivity.
    + intros r2 Hc _. cbn in Hc. subst r2. pose proof (s_readers _ _ HS _ _ H) as Hr. cbn [grds grd] in Hr. lia.
  - sframe HS. destruct Hok as (ob2 & E2 & _ & Hs). exists ob2. auto.
  - subst existing. eapply S_c3; eassumption.
  - sframe HS. cbn. eexists. reflexivity.
  - sframe HS. exact Hok.
  - sframe HS. exact Hok.
  - sframe HS.
  - sframe HS.
  - eapply S_delete; eassumption.
  - sframe HS. cbn. eexists. reflexivity.
  - sframe HS. exact Hok.
  - sframe HS. cbn. eexists. reflexivity.
  - sframe HS; [exact Hok|]. cbn. eexists. reflexivity.
  - sframe HS.
  - sframe HS.
  - sframe HS.
  - sframe HS.
  - sframe HS.
  - sframe HS.
  - sframe HS.
  - sframe HS. apply find_committed_Some in H as (E & Eo & _). destruct (s_com _ _ HS _ _ E) as (ob2 & E2 & _ & Hs). exists ob2. auto.
  - sframe HS. exact Hok.
  - sframe HS.
Qed.
