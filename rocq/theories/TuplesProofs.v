From stdpp Require Import base numbers list list_numbers option gmap sets fin_sets fin_maps.
From Coq Require Import ZifyBool ZifyNat ZifyN.
From Verif Require Import Util Bytes TuplesModel TuplesSpec TuplesCodec.
Open Scope N_scope.
Ltac Zify.zify_post_hook ::= idtac.

Ltac tcbn := cbn [ts_id2b ts_bundles ts_free ts_dirty ts_fad ts_signals ts_max].
Notation bundles := (list (gmap N tuple)).
Definition total (bs : bundles) : nat := sum_list (size <$> bs).

Lemma sum_list_insert (l : list nat) i x y : l !! i = Some x -> (sum_list (<[i := y]> l) + x = sum_list l + y)%nat.
Proof.
  revert i. induction l as [|a l IH]; intros [|i] E; cbn in E; try discriminate.
  - injection E as ->. cbn. lia.
  - change (<[S i:=y]> (a :: l)) with (a :: <[i:=y]> l).
    change (sum_list (a :: <[i:=y]> l)) with (a + sum_list (<[i:=y]> l))%nat.
    change (sum_list (a :: l)) with (a + sum_list l)%nat. specialize (IH i E). lia.
Qed.
Lemma total_insert bs b m m' : bs !! b = Some m -> (total (<[b := m']> bs) + size m = total bs + size m')%nat.
Proof.
  intros E. unfold total. rewrite list_fmap_insert. apply sum_list_insert. rewrite list_lookup_fmap, E. reflexivity.
Qed.

Lemma size_delete_S (m : gmap N tuple) i : is_Some (m !! i) -> size m = S (size (delete i m)).
Proof.
  intros [x E]. rewrite <- (insert_delete m i x E) at 1. rewrite map_size_insert_None; [reflexivity|]. apply lookup_delete.
Qed.

Record Inv (s : tstate) (sp : index) : Prop := {
  i_id2b : forall id b, ts_id2b s !! id = Some b <-> exists t, in_memory s b id t;
  i_key : forall b id t, in_memory s b id t -> t_id t = id;
  i_max : forall b m, ts_bundles s !! b = Some m -> N.of_nat (size m) <= ts_max s;
  i_sp : forall id t, sp !! id = Some t <-> exists b, in_memory s b id t;
  i_free : forall b, b ∈ ts_free s -> exists m, ts_bundles s !! b = Some m /\ N.of_nat (size m) < ts_max s;
  i_fad : forall b, b ∈ ts_fad s -> exists m, ts_bundles s !! b = Some m /\ N.of_nat (size m) < ts_max s;
  i_dirty : forall b, b ∈ ts_dirty s -> is_Some (ts_bundles s !! b);
  i_count : size sp = total (ts_bundles s);
}.

Lemma inv_unique s sp b1 b2 id t1 t2 : Inv s sp -> in_memory s b1 id t1 -> in_memory s b2 id t2 -> b1 = b2 /\ t1 = t2.
Proof.
  intros I H1 H2. assert (b1 = b2) as ->.
  { assert (ts_id2b s !! id = Some b1) by (apply (i_id2b _ _ I); eauto).
    assert (ts_id2b s !! id = Some b2) by (apply (i_id2b _ _ I); eauto). congruence. }
  split; [reflexivity|]. destruct H1 as (m & E1 & E2), H2 as (m' & E1' & E2'). congruence.
Qed.

Lemma bm_min_elem s b : bm_min s = Some b -> b ∈ s.
Proof.
  unfold bm_min. intros H. apply elem_of_elements. destruct (elements s) as [|x l]; [discriminate|].
  injection H as <-. clear. assert (forall l x, fold_left Nat.min l x = x \/ fold_left Nat.min l x ∈ l) as F.
  { clear. induction l as [|y l IH]; intros x; cbn; [left; reflexivity|].
    destruct (IH (Nat.min x y)) as [-> | H]; [|right; constructor; exact H].
    destruct (Nat.min_spec x y) as [[_ ->]|[_ ->]]; [left; reflexivity|right; constructor]. }
  destruct (F l x) as [-> | H]; constructor; exact H.
Qed.
Lemma bm_min_None s : bm_min s = None -> s = ∅.
Proof.
  unfold bm_min. destruct (elements s) eqn:E; [|discriminate]. intros _. apply leibniz_equiv, elements_empty_inv, E.
Qed.

(** ** The calls *)
Lemma insert_inv s sp k o s' : Inv s sp -> insert_object s k o = Some s' ->
  Inv s' (<[t_id o := o]> sp) /\ sp !! t_id o = None /\
  exists b m, ts_bundles s !! b = Some m /\ m !! t_id o = None /\ N.of_nat (size m) < ts_max s /\
    (b ∈ ts_free s \/ b ∈ ts_fad s) /\
    ts_bundles s' = <[b := <[t_id o := o]> m]> (ts_bundles s) /\ ts_max s' = ts_max s /\
    ts_signals s' = ts_signals s ++ [k] /\ ts_dirty s' = {[b]} ∪ ts_dirty s /\
    (forall b', b' ∈ ts_free s' <-> b' ∈ ts_free s /\ (b' = b -> N.of_nat (size m) + 1 < ts_max s)).
Proof.
  intros I. unfold insert_object.
  assert (forall bid, (match bm_min (ts_fad s) with Some b => Some b | None => bm_min (ts_free s) end) = Some bid ->
    (bid ∈ ts_free s \/ bid ∈ ts_fad s) /\ exists m, ts_bundles s !! bid = Some m /\ N.of_nat (size m) < ts_max s) as Hb.
  { intros bid. destruct (bm_min (ts_fad s)) as [b|] eqn:Ef; intros H.
    - injection H as <-. apply bm_min_elem in Ef. split; [right; exact Ef|]. apply (i_fad _ _ I), Ef.
    - apply bm_min_elem in H. split; [left; exact H|]. apply (i_free _ _ I), H. }
  destruct (match bm_min (ts_fad s) with Some b => Some b | None => bm_min (ts_free s) end) as [b|]; [|discriminate].
  destruct (Hb b eq_refl) as (Hfree & m & Em & Hsz). clear Hb. cbn [mbind option_bind].
  destruct (ts_id2b s !! t_id o) as [bb|] eqn:E2; [discriminate|].
  rewrite Em. cbn [mbind option_bind].
  destruct (m !! t_id o) as [tt|] eqn:E3; [discriminate|].
  assert (size (<[t_id o := o]> m) = S (size m)) as Es by (apply map_size_insert_None, E3).
  rewrite Es.
  destruct (N.ltb_spec (ts_max s) (N.of_nat (S (size m)))) as [|Hle]; [discriminate|].
  assert (sp !! t_id o = None) as Hnone.
  { destruct (sp !! t_id o) as [t|] eqn:E; [|reflexivity]. exfalso. apply (i_sp _ _ I) in E as [b' Hb'].
    assert (ts_id2b s !! t_id o = Some b') by (apply (i_id2b _ _ I); eauto). congruence. }
  intros H. apply (inj Some) in H. subst s'.
  assert (forall bs' b' id t, bs' = <[b := <[t_id o := o]> m]> (ts_bundles s) ->
    (exists m', bs' !! b' = Some m' /\ m' !! id = Some t) <-> (b' = b /\ id = t_id o /\ t = o) \/ (in_memory s b' id t)) as Hin.
  { intros bs' b' id t ->. unfold in_memory. destruct (decide (b' = b)) as [->|Hne].
    - rewrite list_lookup_insert by (eapply lookup_lt_Some, Em). rewrite Em. split.
      + intros (m' & E & E'). injection E as <-. destruct (decide (id = t_id o)) as [->|Hi].
        * rewrite lookup_insert in E'. injection E' as <-. left. auto.
        * rewrite lookup_insert_ne in E' by auto. right. eauto.
      + intros [(_ & -> & ->)|(m' & E & E')].
        * eexists. split; [reflexivity|]. apply lookup_insert.
        * injection E as <-. eexists. split; [reflexivity|]. rewrite lookup_insert_ne; [exact E'|]. congruence.
    - rewrite list_lookup_insert_ne by auto. split; [intros H; right; exact H|]. intros [(-> & _)|H]; [contradiction|exact H]. }
  assert (forall bs', bs' = <[b := <[t_id o := o]> m]> (ts_bundles s) -> forall b' m', bs' !! b' = Some m' ->
     (b' = b /\ m' = <[t_id o := o]> m) \/ (b' <> b /\ ts_bundles s !! b' = Some m')) as Hbs.
  { intros bs' -> b' m' E. destruct (decide (b' = b)) as [->|Hne].
    - rewrite list_lookup_insert in E by (eapply lookup_lt_Some, Em). injection E as <-. auto.
    - rewrite list_lookup_insert_ne in E by auto. auto. }
  assert (forall b' m0, ts_bundles s !! b' = Some m0 -> N.of_nat (size m0) < ts_max s ->
     (b' = b -> N.of_nat (S (size m)) <> ts_max s) ->
     exists m', (<[b := <[t_id o := o]> m]> (ts_bundles s) : bundles) !! b' = Some m' /\ N.of_nat (size m') < ts_max s) as Hlt.
  { intros b' m0 E0 Hs Hn. destruct (decide (b' = b)) as [->|Hne].
    - rewrite list_lookup_insert by (eapply lookup_lt_Some, Em). eexists. split; [reflexivity|]. rewrite Es.
      specialize (Hn eq_refl). lia.
    - rewrite list_lookup_insert_ne by auto. eauto. }
  split; [|split; [exact Hnone|]].
  - constructor; tcbn.
    + intros id b'. unfold in_memory at 1. tcbn. setoid_rewrite Hin; [|reflexivity].
      destruct (decide (id = t_id o)) as [->|Hi].
      * rewrite lookup_insert. split.
        -- intros E. injection E as <-. exists o. left. auto.
        -- intros [t [(-> & _)|H]]; [reflexivity|]. exfalso.
           assert (ts_id2b s !! t_id o = Some b') by (apply (i_id2b _ _ I); eauto). congruence.
      * rewrite lookup_insert_ne by auto. rewrite (i_id2b _ _ I). split.
        -- intros [t H]. exists t. right. exact H.
        -- intros [t [(_ & -> & _)|H]]; [contradiction|eauto].
    + intros b' id t H. apply Hin in H; [|reflexivity]. destruct H as [(_ & -> & ->)|H]; [reflexivity|]. apply (i_key _ _ I _ _ _ H).
    + intros b' m' E. apply Hbs in E; [|reflexivity]. destruct E as [(-> & ->)|(_ & E)]; [rewrite Es; exact Hle|]. apply (i_max _ _ I _ _ E).
    + intros id t. unfold in_memory. tcbn. setoid_rewrite Hin; [|reflexivity].
      destruct (decide (id = t_id o)) as [->|Hi].
      * rewrite lookup_insert. split.
        -- intros E. injection E as <-. exists b. left. auto.
        -- intros [b' [(_ & _ & ->)|H]]; [reflexivity|]. exfalso.
           assert (ts_id2b s !! t_id o = Some b') by (apply (i_id2b _ _ I); eauto). congruence.
      * rewrite lookup_insert_ne by auto. rewrite (i_sp _ _ I). split.
        -- intros [b' H]. exists b'. right. exact H.
        -- intros [b' [(_ & -> & _)|H]]; [contradiction|eauto].
    + intros b' Hb'. destruct (N.eqb_spec (N.of_nat (S (size m))) (ts_max s)) as [Heq|Hneq].
      * apply elem_of_difference in Hb' as [Hf Hn]. destruct (i_free _ _ I _ Hf) as (m0 & E0 & Hs). apply (Hlt _ _ E0 Hs).
        intros ->. exfalso. apply Hn. apply elem_of_singleton. reflexivity.
      * destruct (i_free _ _ I _ Hb') as (m0 & E0 & Hs). apply (Hlt _ _ E0 Hs). intros _. exact Hneq.
    + intros b' Hb'. destruct (N.eqb_spec (N.of_nat (S (size m))) (ts_max s)) as [Heq|Hneq].
      * apply elem_of_difference in Hb' as [Hf Hn]. destruct (i_fad _ _ I _ Hf) as (m0 & E0 & Hs). apply (Hlt _ _ E0 Hs).
        intros ->. exfalso. apply Hn. apply elem_of_singleton. reflexivity.
      * apply elem_of_union in Hb' as [Hb'|Hb'].
        -- apply elem_of_singleton in Hb' as ->. apply (Hlt _ _ Em Hsz). intros _. exact Hneq.
        -- destruct (i_fad _ _ I _ Hb') as (m0 & E0 & Hs). apply (Hlt _ _ E0 Hs). intros _. exact Hneq.
    + intros b' Hb'. apply lookup_lt_is_Some_2. rewrite insert_length. apply lookup_lt_is_Some_1.
      apply elem_of_union in Hb' as [Hb'|Hb']; [apply elem_of_singleton in Hb' as ->; eauto|apply (i_dirty _ _ I _ Hb')].
    + pose proof (total_insert _ _ _ (<[t_id o := o]> m) Em) as Ht. rewrite Es in Ht.
      rewrite map_size_insert_None by exact Hnone. pose proof (i_count _ _ I). lia.
  - exists b, m. tcbn. do 8 (split; [solve [auto]|]). intros b'.
    destruct (N.eqb_spec (N.of_nat (S (size m))) (ts_max s)) as [Heq|Hneq]; split.
    + intros Hb'. apply elem_of_difference in Hb' as [Hb' Hn]. split; [exact Hb'|]. intros ->. exfalso. apply Hn, elem_of_singleton. reflexivity.
    + intros [Hb' Hc]. apply elem_of_difference. split; [exact Hb'|]. intros He. apply elem_of_singleton in He. specialize (Hc He). lia.
    + intros Hb'. split; [exact Hb'|]. intros _. lia.
    + intros [Hb' _]. exact Hb'.
Qed.

(** The effect of replacing one bundle. *)
Lemma lookup_replace (bs : bundles) b m m1 b' : bs !! b = Some m ->
  (<[b := m1]> bs : bundles) !! b' = if decide (b' = b) then Some m1 else bs !! b'.
Proof.
  intros E. destruct (decide (b' = b)) as [->|Hne].
  - apply list_lookup_insert. eapply lookup_lt_Some, E.
  - apply list_lookup_insert_ne. auto.
Qed.

Lemma delete_inv s sp k id s' t : Inv s sp -> delete_object s k id = Some (s', t) ->
  Inv s' (delete id sp) /\
  exists b m, ts_bundles s !! b = Some m /\ m !! id = Some t /\
    ts_bundles s' = <[b := delete id m]> (ts_bundles s) /\ ts_max s' = ts_max s /\
    ts_signals s' = ts_signals s ++ [k] /\ ts_dirty s' = {[b]} ∪ ts_dirty s /\ ts_free s' = ts_free s.
Proof.
  intros I. unfold delete_object.
  destruct (ts_id2b s !! id) as [b|] eqn:E1; [|discriminate]. cbn [mbind option_bind].
  destruct (ts_bundles s !! b) as [m|] eqn:Em; [|discriminate]. cbn [mbind option_bind].
  destruct (m !! id) as [t0|] eqn:E2; [|discriminate]. cbn [mbind option_bind].
  intros H. apply (inj Some) in H. injection H as <- <-.
  assert (size m = S (size (delete id m))) as Es by (apply size_delete_S; eauto).
  assert (forall b' id' t', (exists m', (<[b := delete id m]> (ts_bundles s) : bundles) !! b' = Some m' /\ m' !! id' = Some t')
    <-> id' <> id /\ in_memory s b' id' t') as Hin.
  { intros b' id' t'. unfold in_memory. rewrite (lookup_replace _ _ _ _ _ Em). destruct (decide (b' = b)) as [->|Hne].
    - rewrite Em. split.
      + intros (m' & E & E'). injection E as <-. destruct (decide (id' = id)) as [->|Hi]; [rewrite lookup_delete in E'; discriminate|].
        rewrite lookup_delete_ne in E' by auto. eauto.
      + intros [Hi (m' & E & E')]. injection E as <-. eexists. split; [reflexivity|]. rewrite lookup_delete_ne; auto.
    - split; [|intros [_ H]; exact H]. intros (m' & E & E'). split; [|eauto]. intros ->. apply Hne.
      eapply (inv_unique _ _ _ _ _ _ _ I); [exists m'|exists m]; eauto. }
  assert (forall b', (exists m', ts_bundles s !! b' = Some m' /\ N.of_nat (size m') < ts_max s) \/ b' = b ->
    exists m', (<[b := delete id m]> (ts_bundles s) : bundles) !! b' = Some m' /\ N.of_nat (size m') < ts_max s) as Hlt.
  { pose proof (i_max _ _ I _ _ Em) as Hm. intros b' Hb. rewrite (lookup_replace _ _ _ _ _ Em). destruct (decide (b' = b)) as [->|Hne].
    - eexists. split; [reflexivity|]. lia.
    - destruct Hb as [Hb|Hb]; [exact Hb|contradiction]. }
  split.
  - constructor; tcbn.
    + intros id' b'. unfold in_memory at 1. tcbn. setoid_rewrite Hin. destruct (decide (id' = id)) as [->|Hi].
      * rewrite lookup_delete. split; [discriminate|]. intros [t' [H _]]. contradiction.
      * rewrite lookup_delete_ne by auto. rewrite (i_id2b _ _ I). split; intros [t' H]; exists t'; [auto|apply H].
    + intros b' id' t' H. apply Hin in H as [_ H]. apply (i_key _ _ I _ _ _ H).
    + intros b' m' E. rewrite (lookup_replace _ _ _ _ _ Em) in E. destruct (decide (b' = b)) as [->|Hne].
      * injection E as <-. pose proof (i_max _ _ I _ _ Em). lia.
      * apply (i_max _ _ I _ _ E).
    + intros id' t'. unfold in_memory. tcbn. setoid_rewrite Hin. destruct (decide (id' = id)) as [->|Hi].
      * rewrite lookup_delete. split; [discriminate|]. intros [b' [H _]]. contradiction.
      * rewrite lookup_delete_ne by auto. rewrite (i_sp _ _ I). split; intros [b' H]; exists b'; [auto|apply H].
    + intros b' Hb'. apply Hlt. left. apply (i_free _ _ I _ Hb').
    + intros b' Hb'. apply Hlt. apply elem_of_union in Hb' as [Hb'|Hb']; [right; apply elem_of_singleton in Hb'; exact Hb'|left; apply (i_fad _ _ I _ Hb')].
    + intros b' Hb'. apply lookup_lt_is_Some_2. rewrite insert_length. apply lookup_lt_is_Some_1.
      apply elem_of_union in Hb' as [Hb'|Hb']; [apply elem_of_singleton in Hb' as ->; eauto|apply (i_dirty _ _ I _ Hb')].
    + pose proof (total_insert _ _ _ (delete id m) Em) as Ht.
      assert (is_Some (sp !! id)) as Hs by (exists t0; apply (i_sp _ _ I); exists b, m; auto).
      assert (size sp = S (size (delete id sp))) as Esp by (apply size_delete_S; eauto).
      pose proof (i_count _ _ I). lia.
  - exists b, m. tcbn. auto 10.
Qed.

Lemma update_inv s sp k cur new st s' : Inv s sp -> update_object s k cur new st = Some s' ->
  Inv s' (apply_call sp (CUpdate cur new st)) /\
  exists b m t, ts_bundles s !! b = Some m /\ m !! cur = Some t /\ (new <> cur -> sp !! new = None) /\
    ts_bundles s' = <[b := <[new := {| t_state := st; t_id := new; t_off := t_off t; t_pow2 := t_pow2 t |}]> (delete cur m)]> (ts_bundles s) /\
    ts_max s' = ts_max s /\
    ts_signals s' = ts_signals s ++ [k] /\ ts_dirty s' = {[b]} ∪ ts_dirty s /\ ts_free s' = ts_free s.
Proof.
  intros I. unfold update_object.
  destruct (ts_id2b s !! cur) as [b|] eqn:E1; [|discriminate]. cbn [mbind option_bind].
  destruct (ts_bundles s !! b) as [m|] eqn:Em; [|discriminate]. cbn [mbind option_bind].
  destruct (m !! cur) as [t|] eqn:E2; [|discriminate]. cbn [mbind option_bind].
  destruct (delete cur m !! new) as [|] eqn:E3; [discriminate|].
  destruct (delete cur (ts_id2b s) !! new) as [|] eqn:E4; [discriminate|].
  set (t1 := {| t_state := st; t_id := new; t_off := t_off t; t_pow2 := t_pow2 t |}).
  intros H. apply (inj Some) in H. subst s'.
  assert (sp !! cur = Some t) as Hcur by (apply (i_sp _ _ I); exists b, m; auto).
  assert (size m = S (size (delete cur m))) as Es0 by (apply size_delete_S; eauto).
  assert (size (<[new := t1]> (delete cur m)) = size m) as Es by (rewrite map_size_insert_None by exact E3; lia).
  assert (forall b' id' t', in_memory s b' id' t' -> id' <> cur -> id' <> new) as Hnew.
  { intros b' id' t' H Hc ->. rewrite lookup_delete_ne in E4 by auto.
    assert (ts_id2b s !! new = Some b') by (apply (i_id2b _ _ I); eauto). congruence. }
  assert (forall b' id' t', (exists m', (<[b := <[new := t1]> (delete cur m)]> (ts_bundles s) : bundles) !! b' = Some m' /\ m' !! id' = Some t')
    <-> (b' = b /\ id' = new /\ t' = t1) \/ (id' <> cur /\ in_memory s b' id' t')) as Hin.
  { intros b' id' t'. rewrite (lookup_replace _ _ _ _ _ Em). destruct (decide (b' = b)) as [->|Hne].
    - split.
      + intros (m' & E & E'). injection E as <-. destruct (decide (id' = new)) as [->|Hi]; [rewrite lookup_insert in E'; injection E' as <-; left; auto|].
        rewrite lookup_insert_ne in E' by auto.
        destruct (decide (id' = cur)) as [->|Hi']; [rewrite lookup_delete in E'; discriminate|].
        rewrite lookup_delete_ne in E' by auto. right. split; [exact Hi'|]. exists m. auto.
      + intros [(_ & -> & ->)|[Hi H]].
        * eexists. split; [reflexivity|]. apply lookup_insert.
        * eexists. split; [reflexivity|]. pose proof (Hnew _ _ _ H Hi). rewrite lookup_insert_ne by auto. rewrite lookup_delete_ne by auto.
          destruct H as (m' & E & E'). congruence.
    - split.
      + intros (m' & E & E'). right. split; [|exists m'; auto]. intros ->. apply Hne.
        eapply (inv_unique _ _ _ _ _ _ _ I); [exists m'|exists m]; eauto.
      + intros [(-> & _)|[_ H]]; [contradiction|exact H]. }
  assert (forall b' m', (<[b := <[new := t1]> (delete cur m)]> (ts_bundles s) : bundles) !! b' = Some m' ->
     exists m0, ts_bundles s !! b' = Some m0 /\ size m' = size m0) as Hsz.
  { intros b' m' E. rewrite (lookup_replace _ _ _ _ _ Em) in E. destruct (decide (b' = b)) as [->|Hne]; [|eauto].
    injection E as <-. eauto. }
  assert (forall b', (exists m', ts_bundles s !! b' = Some m' /\ N.of_nat (size m') < ts_max s) ->
    exists m', (<[b := <[new := t1]> (delete cur m)]> (ts_bundles s) : bundles) !! b' = Some m' /\ N.of_nat (size m') < ts_max s) as Hlt.
  { intros b' (m' & E & H). rewrite (lookup_replace _ _ _ _ _ Em). destruct (decide (b' = b)) as [->|Hne]; [|eauto].
    eexists. split; [reflexivity|]. rewrite Es. congruence. }
  split.
  - cbn [apply_call]. rewrite Hcur. fold t1. constructor; tcbn.
    + intros id' b'. unfold in_memory at 1. tcbn. setoid_rewrite Hin. destruct (decide (id' = new)) as [->|Hn].
      * rewrite lookup_insert. split; [intros E; injection E as <-; eauto|]. intros [t' [(-> & _)|[Hc H]]]; [reflexivity|].
        exfalso. exact (Hnew _ _ _ H Hc eq_refl).
      * rewrite lookup_insert_ne by auto. destruct (decide (id' = cur)) as [->|Hi].
        -- rewrite lookup_delete. split; [discriminate|]. intros [t' [(_ & H & _)|[H _]]]; contradiction.
        -- rewrite lookup_delete_ne by auto. rewrite (i_id2b _ _ I). split.
           ++ intros [t' H]. eauto.
           ++ intros [t' [(_ & H & _)|[_ H]]]; [contradiction|eauto].
    + intros b' id' t' H. apply Hin in H as [(_ & -> & ->)|[_ H]]; [reflexivity|]. apply (i_key _ _ I _ _ _ H).
    + intros b' m' E. destruct (Hsz _ _ E) as (m0 & E0 & ->). apply (i_max _ _ I _ _ E0).
    + intros id' t'. unfold in_memory. tcbn. setoid_rewrite Hin. destruct (decide (id' = new)) as [->|Hn].
      * rewrite lookup_insert. split; [intros E; injection E as <-; eauto|]. intros [b' [(_ & _ & ->)|[Hc H]]]; [reflexivity|].
        exfalso. exact (Hnew _ _ _ H Hc eq_refl).
      * rewrite lookup_insert_ne by auto. destruct (decide (id' = cur)) as [->|Hi].
        -- rewrite lookup_delete. split; [discriminate|]. intros [t'' [(_ & H & _)|[H _]]]; contradiction.
        -- rewrite lookup_delete_ne by auto. rewrite (i_sp _ _ I). split.
           ++ intros [b' H]. eauto.
           ++ intros [b' [(_ & H & _)|[_ H]]]; [contradiction|eauto].
    + intros b' Hb'. apply Hlt. apply (i_free _ _ I _ Hb').
    + intros b' Hb'. apply Hlt. destruct (N.ltb_spec (N.of_nat (size m)) (ts_max s)); [|apply (i_fad _ _ I _ Hb')].
      apply elem_of_union in Hb' as [Hb'|Hb']; [apply elem_of_singleton in Hb' as ->; eauto|apply (i_fad _ _ I _ Hb')].
    + intros b' Hb'. apply lookup_lt_is_Some_2. rewrite insert_length. apply lookup_lt_is_Some_1.
      apply elem_of_union in Hb' as [Hb'|Hb']; [apply elem_of_singleton in Hb' as ->; eauto|apply (i_dirty _ _ I _ Hb')].
    + pose proof (total_insert _ _ _ (<[new := t1]> (delete cur m)) Em) as Ht. rewrite Es in Ht.
      assert (size sp = S (size (delete cur sp))) as Esp by (apply size_delete_S; eauto).
      rewrite map_size_insert_None; [pose proof (i_count _ _ I); lia|].
      destruct (decide (new = cur)) as [->|Hne]; [apply lookup_delete|]. rewrite lookup_delete_ne by auto.
      destruct (sp !! new) as [t'|] eqn:E; [|reflexivity]. exfalso. apply (i_sp _ _ I) in E as [b' H].
      exact (Hnew _ _ _ H Hne eq_refl).
  - exists b, m, t. tcbn. split; [auto|]. split; [auto|]. split; [|auto 10].
    intros Hne. destruct (sp !! new) as [t'|] eqn:E; [|reflexivity]. exfalso. apply (i_sp _ _ I) in E as [b' H].
    exact (Hnew _ _ _ H Hne eq_refl).
Qed.
