From stdpp Require Import base numbers list list_numbers option gmap sets fin_sets fin_maps.
From Coq Require Import ZifyBool ZifyNat ZifyN.
From Verif Require Import Util Bytes TuplesModel TuplesSpec TuplesCodec TuplesProofs.
Open Scope N_scope.
Ltac Zify.zify_post_hook ::= idtac.

(** ** Opening *)
Definition load_step (bid : nat) (acc : option (gmap N nat * gmap N tuple)) (t : tuple) : option (gmap N nat * gmap N tuple) :=
  '(id2b, m) ← acc;
  match id2b !! t_id t, m !! t_id t with
  | None, None => Some (<[t_id t := bid]> id2b, <[t_id t := t]> m)
  | _, _ => None
  end.
Lemma fold_None bid l : fold_left (load_step bid) l None = None.
Proof. induction l; [reflexivity|]. exact IHl. Qed.
Lemma fold_load bid l : forall id2b m id2b' m',
  fold_left (load_step bid) l (Some (id2b, m)) = Some (id2b', m') ->
  NoDup (t_id <$> l) /\ (forall t, t ∈ l -> id2b !! t_id t = None /\ m !! t_id t = None) /\
  (forall id b, id2b' !! id = Some b <-> id2b !! id = Some b \/ (b = bid /\ id ∈ t_id <$> l)) /\
  (forall id t, m' !! id = Some t <-> m !! id = Some t \/ (t ∈ l /\ t_id t = id)) /\
  size m' = (size m + length l)%nat.
Proof.
  induction l as [|t l IH]; intros id2b m id2b' m' H.
  - cbn in H. injection H as <- <-. split; [constructor|]. split; [intros t Ht; inversion Ht|]. split.
    { intros id b. split; [auto|]. intros [H|[_ H]]; [exact H|inversion H]. }
    split; [|cbn; lia]. intros id t. split; [auto|]. intros [H|[H _]]; [exact H|inversion H].
  - change (fold_left (load_step bid) (t :: l) (Some (id2b, m))) with (fold_left (load_step bid) l (load_step bid (Some (id2b, m)) t)) in H.
    unfold load_step at 2 in H. cbn [mbind option_bind] in H.
    destruct (id2b !! t_id t) eqn:E1; [rewrite fold_None in H; discriminate|].
    destruct (m !! t_id t) eqn:E2; [rewrite fold_None in H; discriminate|].
    apply IH in H as (Hnd & Hfr & Hb & Hm & Hs). clear IH.
    assert (forall t', t' ∈ l -> t_id t' <> t_id t) as Hne.
    { intros t' Ht' E. destruct (Hfr t' Ht') as [H _]. rewrite E, lookup_insert in H. discriminate. }
    split.
    { cbn. constructor; [|exact Hnd]. intros H. apply elem_of_list_fmap in H as (t' & E & Ht'). apply (Hne t' Ht'). auto. }
    split.
    { intros t' Ht'. apply elem_of_cons in Ht' as [->|Ht']; [auto|]. specialize (Hne _ Ht'). destruct (Hfr t' Ht') as [H1 H2].
      rewrite lookup_insert_ne in H1 by auto. rewrite lookup_insert_ne in H2 by auto. auto. }
    split.
    { intros id b. rewrite Hb. rewrite fmap_cons, elem_of_cons. destruct (decide (id = t_id t)) as [->|Hi].
      - rewrite lookup_insert. rewrite E1. split.
        + intros [H|[-> H]]; [injection H as <-; auto|]. auto.
        + intros [H|[-> _]]; [discriminate|]. left. reflexivity.
      - rewrite lookup_insert_ne by auto. split; [intros [H|[-> H]]; auto|]. intros [H|[-> [H|H]]]; [auto|contradiction|auto]. }
    split.
    { intros id t'. rewrite Hm. rewrite elem_of_cons. destruct (decide (id = t_id t)) as [->|Hi].
      - rewrite lookup_insert, E2. split.
        + intros [H|[H1 H2]]; [injection H as <-; auto|]. auto.
        + intros [H|[[->|H] H2]]; [discriminate|auto|]. exfalso. apply (Hne _ H H2).
      - rewrite lookup_insert_ne by auto. split; [intros [H|[H1 H2]]; auto|]. intros [H|[[->|H] H2]]; [auto|congruence|auto]. }
    rewrite Hs. rewrite map_size_insert_None by exact E2. cbn [length]. lia.
Qed.

Lemma total_app a b : total (a ++ b) = (total a + total b)%nat.
Proof. unfold total. rewrite fmap_app. induction a as [|x a IH]; [reflexivity|]. cbn [fmap list_fmap app]. 
  change (size x + sum_list ((size <$> a) ++ (size <$> b)) = size x + sum_list (size <$> a) + sum_list (size <$> b))%nat. lia. Qed.

Lemma map_size_list_to_map (l : list (N * tuple)) : NoDup (l.*1) -> size (list_to_map l : gmap N tuple) = length l.
Proof.
  induction l as [|[i x] l IH]; intros Hn; [apply map_size_empty|]. cbn in Hn. inversion Hn as [|? ? H1 H2]; subst.
  cbn [list_to_map foldr length]. rewrite map_size_insert_None; [f_equal; apply IH, H2|].
  apply not_elem_of_list_to_map_1, H1.
Qed.

Record Loaded (s : tstate) (max : N) (l : list (list tuple)) : Prop := {
  l_inv : Inv s (index_of l);
  l_max : ts_max s = max;
  l_len : length (ts_bundles s) = length l;
  l_nodup : NoDup (t_id <$> concat l);
  l_free : forall b m, ts_bundles s !! b = Some m -> N.of_nat (size m) < max -> b ∈ ts_free s;
  l_dirty : ts_dirty s = ∅ /\ ts_fad s = ∅ /\ ts_signals s = [];
  l_page : forall b m ts, ts_bundles s !! b = Some m -> l !! b = Some ts -> forall id t, m !! id = Some t <-> t ∈ ts /\ t_id t = id;
}.

Lemma index_of_lookup l id t : NoDup (t_id <$> concat l) -> index_of l !! id = Some t <-> t ∈ concat l /\ t_id t = id.
Proof.
  intros Hnd. unfold index_of. rewrite <- elem_of_list_to_map.
  - rewrite elem_of_list_fmap. split.
    + intros (t' & E & H). injection E as -> ->. auto.
    + intros [H <-]. exists t. auto.
  - rewrite <- list_fmap_compose. exact Hnd.
Qed.

Lemma load_loaded init : forall done s max s', Loaded s max done ->
  tuples_load (length done) max init s = Some s' -> Loaded s' max (done ++ init).
Proof.
  induction init as [|l init IH]; intros done s max s' L H.
  - cbn in H. injection H as <-. rewrite app_nil_r. exact L.
  - cbn [tuples_load] in H.
    destruct (N.ltb_spec max (N.of_nat (length l))) as [|Hmax]; [discriminate|].
    destruct (2 ^ 32 <=? N.of_nat (length done)); [discriminate|]. cbn [orb] in H.
    change (fold_left _ l (Some (ts_id2b s, ∅))) with (fold_left (load_step (length done)) l (Some (ts_id2b s, ∅))) in H.
    destruct (fold_left (load_step (length done)) l (Some (ts_id2b s, ∅))) as [[id2b m]|] eqn:E; [|discriminate].
    cbn [mbind option_bind] in H.
    apply fold_load in E as (Hnd & Hfr & Hb & Hm & Hs).
    rewrite map_size_empty in Hs. cbn in Hs.
    assert (length (ts_bundles s) = length done) as Ll by apply (l_len _ _ _ L).
    pose proof (l_inv _ _ _ L) as I.
    assert (forall t, t ∈ l -> t_id t ∉ t_id <$> concat done) as Hdis.
    { intros t Ht Hin. apply elem_of_list_fmap in Hin as (t' & Et & Ht'). destruct (Hfr t Ht) as [Hn _].
      assert (index_of done !! t_id t = Some t') as Hi by (apply index_of_lookup; [apply (l_nodup _ _ _ L)|auto]).
      apply (i_sp _ _ I) in Hi as [b Hb']. assert (ts_id2b s !! t_id t = Some b) by (apply (i_id2b _ _ I); eauto). congruence. }
    assert (NoDup (t_id <$> concat (done ++ [l]))) as Hnd2.
    { rewrite concat_app, fmap_app. apply NoDup_app. split; [apply (l_nodup _ _ _ L)|]. cbn [concat]. rewrite app_nil_r.
      split; [|exact Hnd]. intros id H1 H2. apply elem_of_list_fmap in H2 as (t & -> & Ht). exact (Hdis t Ht H1). }
    assert (forall b m', (ts_bundles s ++ [m]) !! b = Some m' <-> ts_bundles s !! b = Some m' \/ (b = length done /\ m' = m)) as Hlk.
    { intros b m'. destruct (decide (b < length done)%nat) as [Hl|Hl].
      - rewrite lookup_app_l by lia. split; [auto|]. intros [H'|[-> _]]; [exact H'|lia].
      - rewrite lookup_app_r by lia. rewrite (lookup_ge_None_2 (ts_bundles s)) by lia. rewrite Ll.
        destruct (b - length done)%nat as [|x] eqn:Ex.
        + cbn. split; [intros H'; injection H' as <-; right; split; [lia|reflexivity]|]. intros [H'|[_ ->]]; [discriminate|reflexivity].
        + cbn. split; [discriminate|]. intros [H'|[-> _]]; [discriminate|lia]. }
    rewrite cons_middle, app_assoc. eapply IH; [|rewrite app_length; cbn [length]; rewrite Nat.add_1_r; exact H].
    clear H IH.
    assert (forall b id t, (exists m', (ts_bundles s ++ [m]) !! b = Some m' /\ m' !! id = Some t)
       <-> in_memory s b id t \/ (b = length done /\ t ∈ l /\ t_id t = id)) as Hin.
    { intros b id t. setoid_rewrite Hlk. split.
      - intros (m' & [E|[-> ->]] & E').
        + left. exists m'. auto.
        + right. apply Hm in E'. rewrite lookup_empty in E'. destruct E' as [E'|E']; [discriminate|auto].
      - intros [(m' & E & E')|(-> & Ht & Ei)]; [exists m'; auto|]. exists m. split; [auto|]. apply Hm. auto. }
    constructor; tcbn.
    + constructor; tcbn.
      * intros id b. unfold in_memory at 1. tcbn. setoid_rewrite Hin. rewrite Hb. rewrite (i_id2b _ _ I). split.
        -- intros [[t Ht]|[-> Hi]]; [eauto|]. apply elem_of_list_fmap in Hi as (t & -> & Ht). eauto.
        -- intros [t [Ht|(-> & Ht & <-)]]; [eauto|]. right. split; [reflexivity|]. apply elem_of_list_fmap. eauto.
      * intros b id t H. apply Hin in H as [H|(_ & _ & H)]; [apply (i_key _ _ I _ _ _ H)|exact H].
      * intros b m' H. apply Hlk in H as [H|[_ ->]]; [|lia]. rewrite <- (l_max _ _ _ L). apply (i_max _ _ I _ _ H).
      * intros id t. unfold in_memory. tcbn. setoid_rewrite Hin. rewrite index_of_lookup by exact Hnd2.
        rewrite concat_app. cbn [concat]. rewrite app_nil_r, elem_of_app. split.
        -- intros [[Ht|Ht] Hi]; [|eauto 10].
           assert (index_of done !! id = Some t) as Hx by (apply index_of_lookup; [apply (l_nodup _ _ _ L)|auto]).
           apply (i_sp _ _ I) in Hx as [b Hx]. eauto.
        -- intros [b [Ht|(_ & Ht & Hi)]]; [|auto]. assert (index_of done !! id = Some t) as Hx by (apply (i_sp _ _ I); eauto).
           apply index_of_lookup in Hx; [|apply (l_nodup _ _ _ L)]. tauto.
      * intros b Hbf. assert (b ∈ ts_free s \/ (b = length done /\ N.of_nat (length l) < max)) as [Hf|[-> Hf]].
        { destruct (N.ltb_spec (N.of_nat (length l)) max); [|auto]. apply elem_of_union in Hbf as [Hbf|Hbf]; [|auto].
          apply elem_of_singleton in Hbf as ->. auto. }
        -- destruct (i_free _ _ I _ Hf) as (m' & E & Hz). exists m'. rewrite Hlk, <- (l_max _ _ _ L). auto.
        -- exists m. rewrite Hlk. split; [auto|]. lia.
      * destruct (l_dirty _ _ _ L) as (_ & -> & _). intros b Hb'. exfalso. apply (not_elem_of_empty b Hb').
      * destruct (l_dirty _ _ _ L) as (-> & _ & _). intros b Hb'. exfalso. apply (not_elem_of_empty b Hb').
      * rewrite total_app, <- (i_count _ _ I). unfold index_of.
        rewrite !map_size_list_to_map by (rewrite <- list_fmap_compose; first [exact Hnd2|apply (l_nodup _ _ _ L)]).
        rewrite !fmap_length, concat_app, app_length. cbn [concat]. rewrite app_nil_r.
        change (total [m]) with (size m + 0)%nat. lia.
    + reflexivity.
    + rewrite !app_length, Ll. reflexivity.
    + exact Hnd2.
    + intros b m' H Hz. apply Hlk in H as [H|[-> ->]].
      * assert (b ∈ ts_free s) by (apply (l_free _ _ _ L _ _ H Hz)). destruct (N.of_nat (length l) <? max); [apply elem_of_union; right|]; assumption.
      * destruct (N.ltb_spec (N.of_nat (length l)) max); [|lia]. apply elem_of_union. left. apply elem_of_singleton. reflexivity.
    + apply (l_dirty _ _ _ L).
    + intros b m' ts H Hts id t. apply Hlk in H as [H|[-> ->]].
      * rewrite lookup_app_l in Hts by (rewrite <- Ll; eapply lookup_lt_Some, H). apply (l_page _ _ _ L _ _ _ H Hts).
      * rewrite lookup_app_r, Nat.sub_diag in Hts by lia. injection Hts as <-. rewrite Hm, lookup_empty. split; [intros [H|H]; [discriminate|exact H]|auto].
Qed.
Lemma new_loaded spage init s : tuples_new spage init = Some s -> Loaded s (2 ^ spage / 24) init.
Proof.
  unfold tuples_new. change tup_len with 24. destruct (2 ^ 16 <=? 2 ^ spage / 24); [discriminate|].
  intros H. change init with ([] ++ init). eapply (load_loaded init []); [|exact H].
  constructor; tcbn.
  - assert (forall b id t, ~ in_memory {| ts_id2b := ∅; ts_bundles := []; ts_free := ∅; ts_dirty := ∅; ts_fad := ∅; ts_signals := []; ts_max := 2 ^ spage / 24 |} b id t) as Hn.
    { intros b id t (m & E & _). discriminate. }
    constructor; tcbn.
    + intros id b. rewrite lookup_empty. split; [discriminate|]. intros [t Ht]. exfalso. exact (Hn _ _ _ Ht).
    + intros b id t Ht. exfalso. exact (Hn _ _ _ Ht).
    + intros b m E. discriminate.
    + intros id t. change (index_of []) with (∅ : gmap N tuple). rewrite lookup_empty. split; [discriminate|]. intros [b Ht]. exfalso. exact (Hn _ _ _ Ht).
    + intros b Hb'. exfalso. apply (not_elem_of_empty b Hb').
    + intros b Hb'. exfalso. apply (not_elem_of_empty b Hb').
    + intros b Hb'. exfalso. apply (not_elem_of_empty b Hb').
    + reflexivity.
  - reflexivity.
  - reflexivity.
  - constructor.
  - intros b m E. discriminate.
  - auto.
  - intros b m ts E. discriminate.
Qed.

(** ** Runs *)
Definition deficit (s : tstate) : nat :=
  sum_list (imap (fun b m => if decide (b ∈ ts_free s) then 0 else N.to_nat (ts_max s) - size m)%nat (ts_bundles s)).
Definition deletes (cs : list tcall) : nat := length (filter (fun c => is_delete c = true) cs).

Lemma sum_imap_le {A} (f g : nat -> A -> nat) (l : list A) :
  (forall i x, l !! i = Some x -> f i x <= g i x)%nat -> (sum_list (imap f l) <= sum_list (imap g l))%nat.
Proof.
  revert f g. induction l as [|x l IH]; intros f g H; [reflexivity|].
  rewrite !imap_cons. change (f 0 x + sum_list (imap (f ∘ S) l) <= g 0 x + sum_list (imap (g ∘ S) l))%nat.
  pose proof (H 0%nat x eq_refl). pose proof (IH (f ∘ S) (g ∘ S) (fun i x E => H (S i) x E)). lia.
Qed.
Lemma sum_imap_insert {A} (f : nat -> A -> nat) l i x y : l !! i = Some x ->
  (sum_list (imap f (<[i := y]> l)) + f i x = sum_list (imap f l) + f i y)%nat.
Proof.
  intros E. assert (imap f (<[i := y]> l) = <[i := f i y]> (imap f l)) as ->.
  { apply list_eq. intros j. rewrite list_lookup_imap. destruct (decide (j = i)) as [->|Hne].
    - rewrite !list_lookup_insert by (rewrite ?imap_length; eapply lookup_lt_Some, E). reflexivity.
    - rewrite !list_lookup_insert_ne by auto. rewrite list_lookup_imap. reflexivity. }
  apply sum_list_insert. rewrite list_lookup_imap, E. reflexivity.
Qed.

Lemma after_calls_snoc m cs c : after_calls m (cs ++ [c]) = apply_call (after_calls m cs) c.
Proof. unfold after_calls. rewrite fold_left_app. reflexivity. Qed.

Definition call_effect (s s' : tstate) (k : nat) (c : tcall) (b : nat) (m m' : gmap N tuple) : Prop :=
  ts_bundles s !! b = Some m /\ ts_bundles s' = <[b := m']> (ts_bundles s) /\ ts_max s' = ts_max s /\
  ts_signals s' = ts_signals s ++ [k] /\ ts_dirty s' = {[b]} ∪ ts_dirty s /\
  (forall id, is_Some (m' !! id) -> is_Some (m !! id) \/ id ∈ introduced c) /\
  (forall id, id ∈ touched c -> is_Some (m !! id) \/ id ∈ introduced c) /\
  (valid_call c -> (forall id t, m !! id = Some t -> valid_entry t) -> forall id t, m' !! id = Some t -> valid_entry t) /\
  (N.of_nat (size m) <= ts_max s -> (deficit s' <= deficit s + (if is_delete c then 1 else 0))%nat).

Lemma call_inv s sp k c s' : Inv s sp -> call_exec s k c = Some s' ->
  Inv s' (apply_call sp c) /\ exists b m m', call_effect s s' k c b m m'.
Proof.
  intros I H. destruct c as [o|cur new st|id]; cbn [call_exec] in H.
  - pose proof (insert_inv _ _ _ _ _ I H) as (I' & Hn & b & m & Em & E0 & Hsz & Hf & E1 & E2 & E3 & E4 & E5).
    split; [exact I'|]. exists b, m, (<[t_id o := o]> m). unfold call_effect. rewrite Em, E1, E2, E3, E4.
    do 5 (split; [reflexivity|]). split; [|split; [|split]].
    + intros id [t Ht]. destruct (decide (id = t_id o)) as [->|Hi]; [right; constructor|]. rewrite lookup_insert_ne in Ht by auto. left. eauto.
    + intros id Hid. right. exact Hid.
    + intros Hv Hm id t Ht. destruct (decide (id = t_id o)) as [->|Hi]; [rewrite lookup_insert in Ht; injection Ht as <-; exact Hv|].
      rewrite lookup_insert_ne in Ht by auto. eauto.
    + intros _. unfold deficit. rewrite E1, E2. cbn [is_delete].
      pose proof (sum_imap_insert (fun b m => if decide (b ∈ ts_free s) then 0 else N.to_nat (ts_max s) - size m)%nat _ _ _ (<[t_id o := o]> m) Em) as Hs.
      assert (size (<[t_id o := o]> m) = S (size m)) as Es by (apply map_size_insert_None, E0).
      etransitivity; [apply (sum_imap_le _ (fun b' m' => if decide (b' ∈ ts_free s) then 0 else N.to_nat (ts_max s) - size m')%nat)|].
      * intros b' m' E. rewrite (lookup_replace _ _ _ _ _ Em) in E.
        destruct (decide (b' ∈ ts_free s')) as [Hf'|Hf']; [lia|].
        destruct (decide (b' ∈ ts_free s)) as [Hf0|Hf0]; [|lia].
        destruct (decide (b' = b)) as [->|Hne].
        -- injection E as <-. rewrite Es. destruct (decide (N.of_nat (size m) + 1 < ts_max s)) as [Hl|Hl]; [exfalso; apply Hf'; apply E5; auto|]. lia.
        -- exfalso. apply Hf'. apply E5. split; [exact Hf0|]. intros. contradiction.
      * cbn beta in Hs. rewrite Es in Hs. destruct (decide (b ∈ ts_free s)); lia.
  - pose proof (update_inv _ _ _ _ _ _ _ I H) as (I' & b & m & t & Em & E0 & Hn & E1 & E2 & E3 & E4 & E5).
    split; [exact I'|]. eexists b, m, _. unfold call_effect. rewrite Em, E1, E2, E3, E4.
    do 5 (split; [reflexivity|]). split; [|split; [|split]].
    + intros id [t' Ht]. destruct (decide (id = new)) as [->|Hi]; [right; constructor|]. rewrite lookup_insert_ne in Ht by auto.
      apply lookup_delete_Some in Ht as [_ Ht]. left. eauto.
    + intros id Hid. cbn in Hid. apply elem_of_cons in Hid as [->|Hid]; [left; eauto|right; exact Hid].
    + intros [Hv1 Hv2] Hm id t' Ht. destruct (decide (id = new)) as [->|Hi].
      * rewrite lookup_insert in Ht. injection Ht as <-. destruct (Hm _ _ E0) as (_ & _ & Ho & Hp). unfold valid_entry. cbn. auto.
      * rewrite lookup_insert_ne in Ht by auto. apply lookup_delete_Some in Ht as [_ Ht]. eauto.
    + intros _. cbn [is_delete]. unfold deficit. rewrite E1, E2, E5.
      match goal with |- context [<[b := ?m1]> _] =>
        pose proof (sum_imap_insert (fun b m => if decide (b ∈ ts_free s) then 0 else N.to_nat (ts_max s) - size m)%nat _ _ _ m1 Em) as Hs;
        assert (size m1 = size m) as Es end.
      { rewrite map_size_insert_None; [symmetry; apply size_delete_S; eauto|].
        destruct (decide (new = cur)) as [->|Hne]; [apply lookup_delete|]. rewrite lookup_delete_ne by auto.
        destruct (m !! new) as [t'|] eqn:E; [|reflexivity]. exfalso. specialize (Hn Hne).
        assert (sp !! new = Some t') by (apply (i_sp _ _ I); exists b, m; auto). congruence. }
      cbn beta in Hs. rewrite Es in Hs. lia.
  - unfold delete_object in H. destruct (delete_object s k id) as [[s1 t]|] eqn:Ed; [|unfold delete_object in Ed; rewrite Ed in H; discriminate].
    assert (s1 = s') as -> by (unfold delete_object in Ed; rewrite Ed in H; injection H as ->; reflexivity). clear H.
    pose proof (delete_inv _ _ _ _ _ _ I Ed) as (I' & b & m & Em & E0 & E1 & E2 & E3 & E4 & E5).
    split; [exact I'|]. eexists b, m, _. unfold call_effect. rewrite Em, E1, E2, E3, E4.
    do 5 (split; [reflexivity|]). split; [|split; [|split]].
    + intros id' [t' Ht]. apply lookup_delete_Some in Ht as [_ Ht]. left. eauto.
    + intros id' Hid. cbn in Hid. apply elem_of_list_singleton in Hid as ->. left. eauto.
    + intros _ Hm id' t' Ht. apply lookup_delete_Some in Ht as [_ Ht]. eauto.
    + intros Hz. cbn [is_delete]. unfold deficit. rewrite E1, E2, E5.
      pose proof (sum_imap_insert (fun b m => if decide (b ∈ ts_free s) then 0 else N.to_nat (ts_max s) - size m)%nat _ _ _ (delete id m) Em) as Hs.
      pose proof (size_delete_S m id ltac:(eauto)). cbn beta in Hs. destruct (decide (b ∈ ts_free s)); lia.
Qed.

Lemma deletes_snoc cs c : deletes (cs ++ [c]) = (deletes cs + if is_delete c then 1 else 0)%nat.
Proof. unfold deletes. rewrite filter_app, app_length. f_equal. destruct c; reflexivity. Qed.

Lemma flush_state y y' : tstep y None y' ->
  ts_id2b (sy_state y') = ts_id2b (sy_state y) /\ ts_bundles (sy_state y') = ts_bundles (sy_state y) /\
  ts_free (sy_state y') = ts_free (sy_state y) /\ ts_max (sy_state y') = ts_max (sy_state y) /\ sy_calls y' = sy_calls y /\
  (ts_fad (sy_state y') ⊆ ts_fad (sy_state y)) /\ (ts_dirty (sy_state y') ⊆ ts_dirty (sy_state y)).
Proof. intros H. inversion H; subst; cbn; repeat split; auto; apply empty_subseteq. Qed.

Lemma flush_inv y y' sp : tstep y None y' -> Inv (sy_state y) sp -> Inv (sy_state y') sp.
Proof.
  intros H I. destruct (flush_state _ _ H) as (E1 & E2 & E3 & E4 & _ & S1 & S2).
  destruct I as [I1 I2 I3 I4 I5 I6 I7 I8].
  unfold in_memory in *.
  constructor; unfold in_memory; rewrite ?E1, ?E2, ?E3, ?E4; auto.
Qed.

Lemma run_inv spage pages init y0 cs y : opens spage pages init y0 -> runs y0 cs y ->
  Inv (sy_state y) (after_calls (index_of init) cs) /\ ts_max (sy_state y) = 2 ^ spage / 24 /\
  length (ts_bundles (sy_state y)) = length init /\ (deficit (sy_state y) <= deletes cs)%nat /\ sy_calls y = length cs.
Proof.
  intros (Hp & Hl & Hn & _ & _ & Hc & _) R. induction R as [y|y cs y1 c y2 R IH S|y cs y1 y2 R IH S].
  - apply new_loaded in Hn as L. split; [apply (l_inv _ _ _ L)|]. split; [apply (l_max _ _ _ L)|]. split; [apply (l_len _ _ _ L)|].
    split; [|exact Hc]. unfold deficit.
    assert (sum_list (imap (fun _ _ => 0%nat) (ts_bundles (sy_state y))) = 0%nat) as E0.
    { clear. induction (ts_bundles (sy_state y)) as [|x l IH]; [reflexivity|]. rewrite imap_cons. exact IH. }
    etransitivity; [apply (sum_imap_le _ (fun _ _ => 0%nat))|rewrite E0; lia].
    intros b m E. destruct (decide _) as [|Hf]; [lia|]. destruct (decide (N.of_nat (size m) < 2 ^ spage / 24)) as [Hz|Hz].
    + exfalso. apply Hf. apply (l_free _ _ _ L _ _ E Hz).
    + rewrite (l_max _ _ _ L). lia.
  - destruct (IH Hn Hc) as (I & Hm & Hlen & Hd & Hk). inversion S as [? ? s' Hx| | |]; subst.
    apply (call_inv _ _ _ _ _ I) in Hx as (I' & b & m & m' & Em & E1 & E2 & _ & _ & _ & _ & _ & Hd').
    cbn [sy_state sy_calls]. rewrite after_calls_snoc. split; [exact I'|]. split; [congruence|]. split; [rewrite E1, insert_length; exact Hlen|].
    split.
    + specialize (Hd' (i_max _ _ I _ _ Em)). rewrite deletes_snoc. lia.
    + rewrite Hk, app_length. cbn. lia.
  - destruct (IH Hn Hc) as (I & Hm & Hlen & Hd & Hk). pose proof (flush_state _ _ S) as (E1 & E2 & E3 & E4 & E5 & _).
    split; [eapply flush_inv; eauto|]. unfold deficit. rewrite E2, E3, E4, E5. auto.
Qed.
