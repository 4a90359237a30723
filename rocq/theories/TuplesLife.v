(** The life of an id in the index: introduced once, unchanged until removed,
    never back.  What a crash can leave of it on the device. *)
From Coq Require Import ZifyBool ZifyNat ZifyN.
From stdpp Require Import base numbers list_numbers option gmap sets list.
From Verif Require Import Util Bytes TuplesModel TuplesSpec TuplesSys TuplesDurable.
Open Scope N_scope.
Ltac Zify.zify_post_hook ::= idtac.

Definition known (init : list (list tuple)) (cs : list tcall) (id : N) : Prop :=
  id ∈ (t_id <$> concat init) ++ concat (introduced <$> cs).
Definition removes (c : tcall) (id : N) : Prop := c = CDelete id \/ exists new st, c = CUpdate id new st.

Lemma elem_of_concat_intro cs id : id ∈ concat (introduced <$> cs) <-> exists k c, cs !! k = Some c /\ id ∈ introduced c.
Proof.
  split.
  - intros H. apply elem_of_list_In, in_concat in H as (l & H & Hl). apply elem_of_list_In, elem_of_list_fmap in H as (c & -> & Hc).
    apply elem_of_list_lookup_1 in Hc as [k Hk]. apply elem_of_list_In in Hl. eauto.
  - intros (k & c & Hk & Hin). apply elem_of_list_In, in_concat. exists (introduced c). split; [|now apply elem_of_list_In].
    apply elem_of_list_In, elem_of_list_fmap. exists c. split; [reflexivity|]. eapply elem_of_list_lookup_2, Hk.
Qed.

Lemma index_known init id t : index_of init !! id = Some t -> id ∈ t_id <$> concat init.
Proof.
  intros H. unfold index_of in H. apply elem_of_list_to_map_2 in H. apply elem_of_list_fmap in H as (t' & E & Hin). injection E as -> ->.
  apply elem_of_list_fmap. eauto.
Qed.
Lemma known_app init cs c id : known init (cs ++ [c]) id <-> known init cs id \/ id ∈ introduced c.
Proof. unfold known. rewrite fmap_app, concat_app. cbn [fmap list_fmap concat]. rewrite app_nil_r, !elem_of_app. tauto. Qed.

Lemma step_life m c id : id ∉ introduced c -> apply_call m c !! id = m !! id \/ (apply_call m c !! id = None /\ removes c id).
Proof.
  intros Hn. destruct c as [o|cur new st|d]; cbn [apply_call introduced] in *.
  - left. rewrite lookup_insert_ne; [reflexivity|]. intros E. apply Hn. rewrite E. constructor.
  - destruct (m !! cur) as [t|] eqn:E; [|now left]. rewrite lookup_insert_ne by (intros ->; apply Hn; constructor).
    destruct (decide (cur = id)) as [->|Hne]; [right; split; [apply lookup_delete|right; eauto]|]. left. now apply lookup_delete_ne.
  - destruct (decide (d = id)) as [->|Hne]; [right; split; [apply lookup_delete|now left]|]. left. now apply lookup_delete_ne.
Qed.

Lemma present_known init cs id t : after_calls (index_of init) cs !! id = Some t -> known init cs id.
Proof.
  revert t. induction cs as [|c cs IH] using rev_ind; intros t H.
  - unfold known. rewrite elem_of_app. left. eapply index_known, H.
  - apply known_app. rewrite after_calls_snoc in H. destruct (decide (id ∈ introduced c)) as [|Hn]; [now right|left].
    destruct (step_life (after_calls (index_of init) cs) c id Hn) as [E|[E _]]; rewrite H in E; [|discriminate]. eapply IH. symmetry. exact E.
Qed.

Section Life.
Context (init : list (list tuple)) (cs : list tcall).
Hypothesis Hfresh : fresh_ids init cs.
Notation at_ i := (after_calls (index_of init) (take i cs)).

Lemma known_once i k c id : known init (take i cs) id -> (i <= k)%nat -> cs !! k = Some c -> id ∉ introduced c.
Proof.
  intros Hk Hle Hc Hin. unfold fresh_ids in Hfresh.
  assert (Hd : exists a b, cs = take i cs ++ a ++ c :: b).
  { exists (drop i (take k cs)), (drop (S k) cs). rewrite app_assoc.
    assert (take i cs ++ drop i (take k cs) = take k cs) as ->.
    { rewrite <- (take_drop i (take k cs)) at 2. f_equal. rewrite take_take. f_equal. lia. }
    symmetry. rewrite <- (take_drop k cs) at 3. f_equal. symmetry. now apply drop_S. }
  destruct Hd as (a & b & Hd). rewrite Hd in Hfresh. rewrite fmap_app, concat_app, app_assoc in Hfresh.
  apply NoDup_app in Hfresh as (_ & Hdis & _). apply (Hdis id Hk). rewrite fmap_app, concat_app, elem_of_app. right.
  cbn [fmap list_fmap concat]. apply elem_of_app. now left.
Qed.

Lemma life i j id : known init (take i cs) id -> (i <= j <= length cs)%nat ->
  at_ j !! id = at_ i !! id \/
  (at_ j !! id = None /\ exists k c, (i <= k < j)%nat /\ cs !! k = Some c /\ removes c id).
Proof.
  intros Hk [Hij Hj]. induction j as [|j IH].
  - replace i with 0%nat by lia. now left.
  - destruct (decide (i = S j)) as [->|Hne]; [now left|].
    assert (Hlt : (j < length cs)%nat) by lia. apply lookup_lt_is_Some_2 in Hlt as [c Hc].
    rewrite (take_S_r cs j c Hc), after_calls_snoc.
    destruct (step_life (at_ j) c id) as [E|[E Hr]]; [eapply known_once; [exact Hk| |exact Hc]; lia| |].
    + rewrite E. destruct IH as [IH|(IH & k & c' & Hkk & Hc' & Hr')]; [lia|lia|left; exact IH|right].
      split; [exact IH|]. exists k, c'. split; [lia|auto].
    + right. split; [exact E|]. exists j, c. split; [lia|auto].
Qed.

(** An entry present at two moments is the same. *)
Lemma same_entry i j id t t' : (i <= length cs)%nat -> (j <= length cs)%nat -> at_ i !! id = Some t -> at_ j !! id = Some t' -> t = t'.
Proof.
  intros Hi Hj E E'. destruct (Nat.le_ge_cases i j) as [Hij|Hij].
  - destruct (life i j id) as [H|[H _]]; [eapply present_known, E|lia|congruence|congruence].
  - destruct (life j i id) as [H|[H _]]; [eapply present_known, E'|lia|congruence|congruence].
Qed.

(** What the device may hold. *)
Variable acked : list nat.
Variable D : index.
Variable J : N -> nat.
Hypothesis HJ : forall id, (J id <= length cs)%nat /\ D !! id = at_ (J id) !! id.
Hypothesis Hack : forall k c id, cs !! k = Some c -> k ∈ acked -> id ∈ touched c -> (k < J id)%nat.
Hypothesis Hpair : forall k cur new st, cs !! k = Some (CUpdate cur new st) -> J cur = J new.
Notation sp := (after_calls (index_of init) cs).

Lemma at_full : at_ (length cs) = sp.
Proof. now rewrite take_ge. Qed.
Lemma disk_present id t : D !! id = Some t -> known init (take (J id) cs) id.
Proof. intros E. destruct (HJ id) as [_ H]. rewrite H in E. eapply present_known, E. Qed.
Lemma disk_at k id t t' : (k <= length cs)%nat -> D !! id = Some t -> at_ k !! id = Some t' -> t = t'.
Proof. intros Hk E E'. destruct (HJ id) as [Hl H]. rewrite H in E. eapply same_entry; [exact Hl|exact Hk|exact E|exact E']. Qed.
Lemma disk_same id t t' : D !! id = Some t -> sp !! id = Some t' -> t = t'.
Proof. rewrite <- at_full. apply disk_at. reflexivity. Qed.
Lemma disk_gone id t : D !! id = Some t -> sp !! id = None -> exists k c, (J id <= k)%nat /\ cs !! k = Some c /\ removes c id /\ k ∉ acked.
Proof.
  intros E Es. pose proof (disk_present _ _ E) as Hk. destruct (HJ id) as [Hl H].
  destruct (life (J id) (length cs) id Hk) as [Hx|(_ & k & c & Hkk & Hc & Hr)]; [lia| |].
  - rewrite at_full, Es, <- H, E in Hx. discriminate.
  - exists k, c. split; [lia|]. split; [exact Hc|]. split; [exact Hr|]. intros Hak.
    assert (id ∈ touched c) by (destruct Hr as [->|(new & st & ->)]; constructor).
    specialize (Hack k c id Hc Hak H0). lia.
Qed.
Lemma disk_kept id t : sp !! id = Some t -> id ∈ t_id <$> concat init \/ (exists k c, cs !! k = Some c /\ id ∈ introduced c /\ k ∈ acked) ->
  D !! id = Some t.
Proof.
  intros Es Hin. destruct (HJ id) as [Hl H]. rewrite H.
  assert (Hk : known init (take (J id) cs) id).
  { unfold known. rewrite elem_of_app. destruct Hin as [Hin|(k & c & Hc & Hin & Hak)]; [now left|right].
    apply elem_of_concat_intro. exists k, c. split; [|exact Hin]. rewrite lookup_take; [exact Hc|].
    apply (Hack k c id Hc Hak). destruct c; cbn in *; [exact Hin| |inversion Hin]. apply elem_of_list_singleton in Hin as ->. right. constructor. }
  destruct (life (J id) (length cs) id Hk) as [Hx|(Hx & _)]; [lia| |]; rewrite at_full, Es in Hx; congruence.
Qed.
Lemma disk_not_yet k c id : cs !! k = Some c -> id ∈ introduced c -> (J id <= k)%nat -> D !! id = None.
Proof.
  intros Hc Hin Hle. destruct (D !! id) as [t|] eqn:E; [exfalso|reflexivity].
  apply (known_once (J id) k c id (disk_present _ _ E) Hle Hc Hin).
Qed.
Lemma disk_unknown id : ~ known init cs id -> D !! id = None.
Proof.
  intros Hn. destruct (D !! id) as [t|] eqn:E; [exfalso|reflexivity]. apply Hn. pose proof (disk_present _ _ E) as H.
  unfold known in *. rewrite elem_of_app in *. destruct H as [H|H]; [now left|right]. apply elem_of_concat_intro in H as (k & c & Hk & Hin).
  apply elem_of_concat_intro. exists k, c. split; [|exact Hin]. apply lookup_take_Some in Hk as [Hk _]. exact Hk.
Qed.
End Life.
