From stdpp Require Import base numbers list list_numbers option sets.
From Coq Require Import ZifyBool ZifyNat ZifyN.
From Verif Require Import Util PageIOModel PageIOWrite JournalModel JournalSpec.
Open Scope N_scope.
Ltac Zify.zify_post_hook ::= idtac.

(** ** Sorted association lists *)
Fixpoint keys_above (k : N) (m : merger) : Prop :=
  match m with [] => True | (k', _) :: m' => k < k' /\ keys_above k' m' end.
Definition sorted (m : merger) : Prop :=
  match m with [] => True | (k, _) :: m' => keys_above k m' end.

Lemma keys_above_sorted k m : keys_above k m -> sorted m.
Proof. destruct m as [|[k' v] m]; cbn; tauto. Qed.
Lemma keys_above_le k k' m : k <= k' -> keys_above k' m -> keys_above k m.
Proof. destruct m as [|[k2 v] m]; cbn; [tauto|]. intros H [H1 H2]. split; [lia|assumption]. Qed.
Lemma keys_above_in k m w : keys_above k m -> w ∈ m -> k < fst w.
Proof.
  revert k. induction m as [|[k' v] m IH]; intros k H Hin; [set_solver|]. destruct H as [H1 H2].
  apply elem_of_cons in Hin as [->|Hin]; [exact H1|]. specialize (IH k' H2 Hin). lia.
Qed.

Lemma bt_insert_above k0 k v m : k0 < k -> keys_above k0 m -> keys_above k0 (bt_insert k v m).
Proof.
  revert k0. induction m as [|[k' v'] m IH]; intros k0 Hk H; cbn; [tauto|]. destruct H as [H1 H2].
  destruct (N.ltb_spec k k'); [cbn; auto|]. destruct (N.eqb_spec k k'); [subst; cbn; auto|].
  cbn. split; [exact H1|]. apply IH; [lia|exact H2].
Qed.
Lemma bt_insert_sorted k v m : sorted m -> sorted (bt_insert k v m).
Proof.
  destruct m as [|[k' v'] m]; cbn; [tauto|]. intros H.
  destruct (N.ltb_spec k k'); [cbn; auto|]. destruct (N.eqb_spec k k'); [subst; cbn; auto|].
  cbn. apply bt_insert_above; [lia|exact H].
Qed.
Lemma bt_insert_elem k v m w : sorted m ->
  (w ∈ bt_insert k v m <-> w = (k, v) \/ (w ∈ m /\ fst w <> k)).
Proof.
  induction m as [|[k' v'] m IH]; intros H; cbn [bt_insert]; [set_solver|].
  assert (Hab : forall x, x ∈ m -> k' < fst x) by (intros x; apply keys_above_in, H).
  destruct (N.ltb_spec k k') as [Hlt|Hge].
  { rewrite elem_of_cons. split; intros [->|Hw]; [auto| |auto|tauto].
    right. split; [exact Hw|]. apply elem_of_cons in Hw as [->|Hw]; [cbn; lia|]. specialize (Hab _ Hw). lia. }
  destruct (N.eqb_spec k k') as [->|Hne].
  { rewrite !elem_of_cons. split; intros [Hw|Hw].
    - auto.
    - right. split; [auto|]. specialize (Hab _ Hw). lia.
    - auto.
    - destruct Hw as [[->|Hw] Hn]; [cbn in Hn; congruence|auto]. }
  rewrite elem_of_cons, (IH (keys_above_sorted _ _ H)), elem_of_cons. split.
  - intros [->|[->|[Hw Hn]]]; [right; split; [auto|cbn; lia]|auto|auto].
  - intros [->|[[->|Hw] Hn]]; auto.
Qed.
Lemma bt_remove_above k0 k m : keys_above k0 m -> keys_above k0 (bt_remove k m).
Proof.
  revert k0. induction m as [|[k' v'] m IH]; intros k0 H; cbn; [tauto|]. destruct H as [H1 H2].
  destruct (k =? k'); [eapply keys_above_le; [|exact H2]; lia|]. cbn. auto.
Qed.
Lemma bt_remove_sorted k m : sorted m -> sorted (bt_remove k m).
Proof.
  destruct m as [|[k' v'] m]; cbn; [tauto|]. intros H.
  destruct (k =? k'); [eapply keys_above_sorted; exact H|]. cbn. apply bt_remove_above, H.
Qed.
Lemma bt_remove_elem k m w : sorted m -> (w ∈ bt_remove k m <-> w ∈ m /\ fst w <> k).
Proof.
  induction m as [|[k' v'] m IH]; intros H; cbn [bt_remove]; [set_solver|].
  assert (Hab : forall x, x ∈ m -> k' < fst x) by (intros x; apply keys_above_in, H).
  destruct (N.eqb_spec k k') as [->|Hne].
  - rewrite elem_of_cons. split.
    + intros Hw. split; [auto|]. specialize (Hab _ Hw). lia.
    + intros [[->|Hw] Hn]; [cbn in Hn; congruence|exact Hw].
  - rewrite !elem_of_cons, (IH (keys_above_sorted _ _ H)). split.
    + intros [->|[Hw Hn]]; [split; [auto|cbn; lia]|auto].
    + intros [[->|Hw] Hn]; auto.
Qed.

Lemma remove_all_spec ks m : sorted m ->
  sorted (fold_left (fun m k => bt_remove k m) ks m) /\
  forall w, w ∈ fold_left (fun m k => bt_remove k m) ks m <-> w ∈ m /\ fst w ∉ ks.
Proof.
  revert m. induction ks as [|k ks IH]; intros m H; cbn [fold_left].
  - split; [exact H|]. intros w. set_solver.
  - destruct (IH (bt_remove k m) (bt_remove_sorted _ _ H)) as [H1 H2]. split; [exact H1|].
    intros w. rewrite H2, bt_remove_elem by exact H. set_solver.
Qed.

Definition keys_unique (l : list write) : Prop :=
  forall w1 w2, w1 ∈ l -> w2 ∈ l -> fst w1 = fst w2 -> w1 = w2.

Lemma insert_all_spec ws m : sorted m -> keys_unique ws ->
  sorted (fold_left (fun m w => bt_insert (fst w) (snd w) m) ws m) /\
  forall w, w ∈ fold_left (fun m w => bt_insert (fst w) (snd w) m) ws m <->
     w ∈ ws \/ (w ∈ m /\ fst w ∉ ws.*1).
Proof.
  revert m. induction ws as [|[k v] ws IH]; intros m H Hu; cbn [fold_left].
  - split; [exact H|]. intros w. set_solver.
  - cbn [fst snd]. destruct (IH (bt_insert k v m) (bt_insert_sorted _ _ _ H)) as [H1 H2].
    { intros w1 w2 Hw1 Hw2. apply Hu; set_solver. }
    split; [exact H1|]. intros w. rewrite H2, bt_insert_elem by exact H.
    rewrite fmap_cons. cbn [fst]. split.
    + intros [Hw|[[->|[Hw Hn]] Hn2]]; [set_solver|set_solver|]. right. set_solver.
    + intros [Hw|[Hw Hn]]; [|set_solver].
      apply elem_of_cons in Hw as [->|Hw]; [|auto].
      destruct (decide ((k, v) ∈ ws)) as [Hin|Hni]; [auto|]. right. split; [auto|].
      cbn [fst]. intros Hk. apply elem_of_list_fmap in Hk as (w' & Ek & Hw').
      assert (w' = (k, v)) by (apply Hu; [set_solver|set_solver|cbn; congruence]). subst w'. contradiction.
Qed.

(** ** The merger's invariant *)
Definition wend (w : write) : N := fst w + N.of_nat (length (snd w)).
Definition sep (m : merger) : Prop :=
  forall w1 w2, w1 ∈ m -> w2 ∈ m -> fst w1 < fst w2 -> wend w1 <= fst w2.
Definition wf (m : merger) : Prop :=
  sorted m /\ sep m /\ (forall w, w ∈ m -> snd w <> []).

Lemma sorted_unique m : sorted m -> keys_unique m.
Proof.
  induction m as [|[k v] m IH]; intros H w1 w2 H1 H2 E; [set_solver|].
  apply elem_of_cons in H1 as [->|H1]; apply elem_of_cons in H2 as [->|H2].
  - reflexivity.
  - pose proof (keys_above_in _ _ _ H H2). cbn in E. lia.
  - pose proof (keys_above_in _ _ _ H H1). cbn in E. lia.
  - apply (IH (keys_above_sorted _ _ H)); assumption.
Qed.

Definition overlapping (offset fin : N) (w : write) : Prop := offset < wend w /\ fst w < fin.
Definition preserved (offset fin : N) (w p : write) : Prop :=
  (fst w < offset /\ p = (fst w, take (N.to_nat (offset - fst w)) (snd w))) \/
  (fin < wend w /\ p = (fin, drop (N.to_nat (fin - fst w)) (snd w))).

Lemma overlaps_spec offset fin m : sorted m ->
  (forall k, k ∈ snd (overlaps offset fin m) <-> exists w, w ∈ m /\ fst w = k /\ overlapping offset fin w) /\
  (forall p, p ∈ fst (overlaps offset fin m) <-> exists w, w ∈ m /\ overlapping offset fin w /\ preserved offset fin w p).
Proof.
  induction m as [|[o e] m IH]; intros H.
  - cbn. split; intros x; (split; [set_solver|]); intros (w & Hw & _); set_solver.
  - destruct (IH (keys_above_sorted _ _ H)) as [IH1 IH2]. clear IH.
    assert (Hab : forall x, x ∈ m -> o < fst x) by (intros x; apply keys_above_in, H).
    cbn [overlaps]. destruct (N.leb_spec (o + N.of_nat (length e)) offset) as [Hle|Hgt].
    { assert (~ overlapping offset fin (o, e)) as Hno by (unfold overlapping, wend; cbn [fst snd]; lia). split.
      - intros k. rewrite IH1. split; intros (w & Hw & Hr); exists w; (split; [|exact Hr]).
        + set_solver.
        + apply elem_of_cons in Hw as [->|Hw]; [|exact Hw]. tauto.
      - intros p. rewrite IH2. split; intros (w & Hw & Hr); exists w; (split; [|exact Hr]).
        + set_solver.
        + apply elem_of_cons in Hw as [->|Hw]; [|exact Hw]. tauto. }
    destruct (N.leb_spec fin o) as [Hfo|Hfo].
    { assert (forall w, w ∈ (o, e) :: m -> ~ overlapping offset fin w) as Hno.
      { intros w Hw [_ Hx]. apply elem_of_cons in Hw as [->|Hw]; cbn [fst] in *; [lia|]. specialize (Hab _ Hw). lia. }
      split; intros x; cbn [fst snd]; (split; [set_solver|]).
      - intros (w & Hw & _ & Ho). destruct (Hno _ Hw Ho).
      - intros (w & Hw & Ho & _). destruct (Hno _ Hw Ho). }
    assert (overlapping offset fin (o, e)) as Hov by (unfold overlapping, wend; cbn [fst snd]; lia).
    destruct (overlaps offset fin m) as [pr rm]. cbn [fst snd] in *. split.
    + intros k. rewrite elem_of_cons, IH1. split.
      * intros [->|(w & Hw & Hr)]; [exists (o, e); split; [set_solver|auto]|exists w; split; [set_solver|exact Hr]].
      * intros (w & Hw & Ek & Ho). apply elem_of_cons in Hw as [->|Hw]; [left; cbn in Ek; auto|right; exists w; auto].
    + intros p. rewrite !elem_of_app, IH2. split.
      * intros [Hp|[Hp|(w & Hw & Hr)]].
        -- destruct (N.ltb_spec o offset); [|set_solver]. apply elem_of_list_singleton in Hp. subst p.
           exists (o, e). split; [set_solver|]. split; [exact Hov|]. left. auto.
        -- destruct (N.ltb_spec fin (o + N.of_nat (length e))); [|set_solver]. apply elem_of_list_singleton in Hp. subst p.
           exists (o, e). split; [set_solver|]. split; [exact Hov|]. right. auto.
        -- exists w. split; [set_solver|exact Hr].
      * intros (w & Hw & Ho & Hpr). apply elem_of_cons in Hw as [->|Hw]; [|right; right; exists w; auto].
        destruct Hpr as [[H1 ->]|[H1 ->]]; cbn [fst snd] in *.
        -- left. destruct (N.ltb_spec o offset); [|lia]. set_solver.
        -- right. left. unfold wend in H1. cbn [fst snd] in H1. destruct (N.ltb_spec fin (o + N.of_nat (length e))); [|lia]. set_solver.
Qed.

Lemma sep_trich m w1 w2 : wf m -> w1 ∈ m -> w2 ∈ m -> w1 = w2 \/ wend w1 <= fst w2 \/ wend w2 <= fst w1.
Proof.
  intros (Hs & Hsep & _) H1 H2. destruct (N.lt_trichotomy (fst w1) (fst w2)) as [Hl|[He|Hg]].
  - right. left. auto.
  - left. apply (sorted_unique m Hs); assumption.
  - right. right. auto.
Qed.

Lemma merger_insert_elem m offset data : wf m -> data <> [] ->
  let fin := offset + N.of_nat (length data) in
  sorted (merger_insert m offset data) /\
  forall w, w ∈ merger_insert m offset data <->
    w = (offset, data) \/
    (exists w0, w0 ∈ m /\ overlapping offset fin w0 /\ preserved offset fin w0 w) \/
    (w ∈ m /\ ~ overlapping offset fin w).
Proof.
  intros Hwf Hd fin. pose proof Hwf as (Hs & Hsep & Hne).
  assert (Hlen : offset < fin) by (unfold fin; destruct data; [congruence|cbn [length]; lia]).
  unfold merger_insert. destruct data as [|b data]; [congruence|]. fold fin.
  remember (b :: data) as dat. clear Heqdat b data.
  destruct (overlaps_spec offset fin m Hs) as [Hrm Hpr].
  destruct (overlaps offset fin m) as [pr rm]. cbn [fst snd] in *.
  destruct (remove_all_spec rm m Hs) as [Hs1 He1].
  assert (Hu : keys_unique pr).
  { intros p1 p2 H1 H2 Ek. apply Hpr in H1 as (w1 & Hw1 & Ho1 & Hp1). apply Hpr in H2 as (w2 & Hw2 & Ho2 & Hp2).
    unfold overlapping in Ho1, Ho2.
    destruct (sep_trich m w1 w2 Hwf Hw1 Hw2) as [E|Hd12].
    - subst w2. destruct Hp1 as [[Ha ->]|[Ha ->]], Hp2 as [[Hb ->]|[Hb ->]]; cbn [fst] in Ek; try reflexivity; lia.
    - destruct Hp1 as [[Ha ->]|[Ha ->]], Hp2 as [[Hb ->]|[Hb ->]]; cbn [fst] in Ek; lia. }
  destruct (insert_all_spec pr _ Hs1 Hu) as [Hs2 He2].
  split; [apply bt_insert_sorted, Hs2|]. intros w. rewrite bt_insert_elem by exact Hs2. rewrite He2, He1.
  split.
  - intros [->|[[Hw|[[Hw Hn] Hn2]] Hk]]; [auto| |].
    + right. left. apply Hpr. exact Hw.
    + right. right. split; [exact Hw|]. intros Ho. apply Hn. apply Hrm. exists w. auto.
  - intros [->|[Hw|[Hw Ho]]]; [auto| |].
    + right. split; [left; apply Hpr; exact Hw|].
      destruct Hw as (w0 & Hw0 & Ho & [[Ha ->]|[Ha ->]]); cbn [fst]; lia.
    + right. split.
      * right. split; [split; [exact Hw|]|].
        -- intros Hr. apply Hrm in Hr as (w' & Hw' & Ek & Ho'). 
           assert (w' = w) by (apply (sorted_unique m Hs); assumption). subst. contradiction.
        -- intros Hk. apply elem_of_list_fmap in Hk as (p & Ek & Hp). apply Hpr in Hp as (w0 & Hw0 & Ho0 & Hpp).
           destruct (sep_trich m w w0 Hwf Hw Hw0) as [E|Hd0]; [subst; contradiction|].
           pose proof (Hne _ Hw0) as Hne0. assert (0 < N.of_nat (length (snd w0))) by (destruct (snd w0); [congruence|cbn [length]; lia]).
           specialize (Hne _ Hw). assert (0 < N.of_nat (length (snd w))) by (destruct (snd w); [congruence|cbn [length]; lia]).
           destruct Hpp as [[Ha ->]|[Ha ->]]; cbn [fst] in Ek; unfold overlapping, wend in *; lia.
      * intros E. apply Ho. specialize (Hne _ Hw). unfold overlapping, wend. rewrite E. split; [|lia].
        destruct (snd w); [congruence|cbn [length]; lia].
Qed.

(** What the entries say about address [x]. *)
Definition covers (m : merger) (x b : N) : Prop :=
  exists w, w ∈ m /\ fst w <= x /\ snd w !! N.to_nat (x - fst w) = Some b.

Lemma covers_range (w : write) x b : fst w <= x -> snd w !! N.to_nat (x - fst w) = Some b -> x < wend w.
Proof. intros H E. apply lookup_lt_Some in E. unfold wend. lia. Qed.

Lemma merger_insert_covers m offset data : wf m ->
  wf (merger_insert m offset data) /\
  forall x b, covers (merger_insert m offset data) x b <->
    if (offset <=? x) && (x <? offset + N.of_nat (length data))
    then data !! N.to_nat (x - offset) = Some b
    else covers m x b.
Proof.
  intros Hwf. destruct (decide (data = [])) as [->|Hd].
  { cbn. split; [exact Hwf|]. intros x b. rewrite N.add_0_r.
    replace ((offset <=? x) && (x <? offset)) with false by lia. tauto. }
  destruct (merger_insert_elem m offset data Hwf Hd) as [Hs He].
  remember (offset + N.of_nat (length data)) as fin eqn:Efin.
  assert (Hlen : offset < fin) by (rewrite Efin; destruct data; [congruence|cbn [length]; lia]).
  pose proof Hwf as (Hs0 & Hsep0 & Hne0).
  (* every entry of the result, with its extent *)
  assert (Hcls : forall w, w ∈ merger_insert m offset data -> w = (offset, data) \/
     (snd w <> [] /\ exists w0, w0 ∈ m /\ fst w0 <= fst w /\ wend w <= wend w0 /\
        ((wend w <= offset /\ fst w = fst w0) \/ (fin <= fst w /\ fst w = N.max (fst w0) fin)) /\
        (forall x, fst w <= x < wend w -> snd w !! N.to_nat (x - fst w) = snd w0 !! N.to_nat (x - fst w0)))).
  { intros w Hw. apply He in Hw as [->|[(w0 & Hw0 & [Ho1 Ho2] & [[Ha ->]|[Ha ->]])|[Hw Ho]]]; [auto| | |].
    - right. pose proof (Hne0 _ Hw0) as Hn0. unfold wend in *. cbn [fst snd].
      assert (Htl : length (take (N.to_nat (offset - fst w0)) (snd w0)) = N.to_nat (offset - fst w0)) by (rewrite take_length; lia).
      split. { intros E. rewrite E in Htl. cbn in Htl. lia. }
      exists w0. rewrite Htl. repeat split; try lia; [exact Hw0|]. intros x Hx. apply lookup_take. lia.
    - right. unfold wend in *. cbn [fst snd].
      assert (Hdl : length (drop (N.to_nat (fin - fst w0)) (snd w0)) = (length (snd w0) - N.to_nat (fin - fst w0))%nat) by apply drop_length.
      split. { intros E. rewrite E in Hdl. cbn in Hdl. lia. }
      exists w0. rewrite Hdl. repeat split; try lia; [exact Hw0|].
      intros x Hx. rewrite lookup_drop. f_equal. lia.
    - right. split; [apply Hne0, Hw|]. exists w. unfold overlapping in Ho. repeat split; try lia. exact Hw. }
  split.
  - split; [exact Hs|]. split.
    + intros w1 w2 H1 H2 Hlt. apply Hcls in H1 as C1. apply Hcls in H2 as C2.
      destruct C1 as [->|(Hn1 & w01 & Hw01 & Hf1 & He1 & Hr1 & _)], C2 as [->|(Hn2 & w02 & Hw02 & Hf2 & He2 & Hr2 & _)];
        unfold wend in *; cbn [fst snd] in *.
      * lia.
      * assert (0 < length (snd w2))%nat by (destruct (snd w2); [congruence|cbn; lia]). lia.
      * assert (0 < length (snd w1))%nat by (destruct (snd w1); [congruence|cbn; lia]). lia.
      * destruct (sep_trich m w01 w02 Hwf Hw01 Hw02) as [E|[E|E]]; unfold wend in *.
        -- subst w02. assert (0 < length (snd w1))%nat by (destruct (snd w1); [congruence|cbn; lia]).
           assert (0 < length (snd w2))%nat by (destruct (snd w2); [congruence|cbn; lia]).
           lia.
        -- lia.
        -- assert (0 < length (snd w1))%nat by (destruct (snd w1); [congruence|cbn; lia]).
           assert (0 < length (snd w2))%nat by (destruct (snd w2); [congruence|cbn; lia]). lia.
    + intros w Hw. apply Hcls in Hw as [->|(Hn & _)]; [exact Hd|exact Hn].
  - intros x b. destruct ((offset <=? x) && (x <? fin)) eqn:Ein.
    + split.
      * intros (w & Hw & Hx & E). pose proof (covers_range _ _ _ Hx E) as Hxe.
        apply Hcls in Hw as [->|(_ & w0 & _ & _ & _ & Hr & _)]; [exact E|]. lia.
      * intros E. exists (offset, data). split; [apply He; auto|]. cbn. split; [lia|exact E].
    + split.
      * intros (w & Hw & Hx & E). pose proof (covers_range _ _ _ Hx E) as Hxe.
        apply Hcls in Hw as [->|(_ & w0 & Hw0 & Hf & Hee & Hr & Hc)].
        -- unfold wend in Hxe. cbn [fst snd] in *. lia.
        -- exists w0. split; [exact Hw0|]. split; [lia|]. rewrite <- Hc by lia. exact E.
      * intros (w & Hw & Hx & E). pose proof (covers_range _ _ _ Hx E) as Hxe.
        destruct (N.le_gt_cases (wend w) offset) as [H1|H1];
          [exists w; split; [apply He; right; right; split; [exact Hw|unfold overlapping; lia]|auto]|].
        destruct (N.le_gt_cases fin (fst w)) as [H2|H2];
          [exists w; split; [apply He; right; right; split; [exact Hw|unfold overlapping; lia]|auto]|].
        destruct (N.lt_ge_cases x offset).
        -- exists (fst w, take (N.to_nat (offset - fst w)) (snd w)). split.
           ++ apply He. right. left. exists w. split; [exact Hw|]. split; [unfold overlapping; lia|]. left. split; [lia|reflexivity].
           ++ cbn [fst snd]. split; [lia|]. rewrite lookup_take by lia. exact E.
        -- exists (fin, drop (N.to_nat (fin - fst w)) (snd w)). split.
           ++ apply He. right. left. exists w. split; [exact Hw|]. split; [unfold overlapping; lia|]. right. split; [lia|reflexivity].
           ++ cbn [fst snd]. split; [lia|]. rewrite lookup_drop. rewrite <- E. f_equal. lia.
Qed.

(** ** Effect of writing entries *)
Definition wcov (w : write) (x b : N) : Prop := fst w <= x /\ snd w !! N.to_nat (x - fst w) = Some b.

Lemma wcov_dec w x : (exists b, wcov w x b) \/ (x < fst w \/ wend w <= x).
Proof.
  destruct (N.lt_ge_cases x (fst w)) as [H|H]; [right; left; exact H|].
  destruct (snd w !! N.to_nat (x - fst w)) as [b|] eqn:E.
  - left. exists b. split; assumption.
  - right. right. apply lookup_ge_None in E. unfold wend. lia.
Qed.
Lemma apply_writes_snoc d ws w : apply_writes d (ws ++ [w]) = dev_write (apply_writes d ws) (fst w) (snd w).
Proof. unfold apply_writes. rewrite fold_left_app. reflexivity. Qed.
Lemma apply_writes_app d a b : apply_writes d (a ++ b) = apply_writes (apply_writes d a) b.
Proof. unfold apply_writes. apply fold_left_app. Qed.

Lemma wcov_unique m w1 w2 x b1 b2 : wf m -> w1 ∈ m -> w2 ∈ m -> wcov w1 x b1 -> wcov w2 x b2 -> b1 = b2.
Proof.
  intros Hwf H1 H2 [C1 E1] [C2 E2].
  pose proof (covers_range _ _ _ C1 E1). pose proof (covers_range _ _ _ C2 E2).
  destruct (sep_trich m w1 w2 Hwf H1 H2) as [->|[H'|H']]; [congruence|lia|lia].
Qed.

Lemma apply_sub m l d x : wf m -> l ⊆ m ->
  (forall b, covers l x b -> apply_writes d l x = b) /\
  ((forall b, ~ covers l x b) -> apply_writes d l x = d x).
Proof.
  intros Hwf. induction l as [|w l IH] using rev_ind; intros Hsub.
  - split; [|reflexivity]. intros b (w & Hw & _). set_solver.
  - destruct IH as [IH1 IH2]; [set_solver|].
    rewrite apply_writes_snoc. split.
    + intros b (w' & Hw' & Hc).
      destruct (wcov_dec w x) as [[b' [C' E']]|Hout].
      * rewrite (dev_write_in _ _ _ _ _ C' E').
        apply (wcov_unique m w w' x b' b Hwf); [set_solver|set_solver|split; assumption|exact Hc].
      * rewrite dev_write_out by exact Hout. apply IH1. exists w'. split; [|exact Hc].
        apply elem_of_app in Hw' as [Hw'|Hw']; [exact Hw'|]. apply elem_of_list_singleton in Hw'. subst w'.
        destruct Hc as [C E]. pose proof (covers_range _ _ _ C E). lia.
    + intros Hno. destruct (wcov_dec w x) as [[b' Hc']|Hout].
      * destruct (Hno b'). exists w. split; [set_solver|exact Hc'].
      * rewrite dev_write_out by exact Hout. apply IH2. intros b (w' & Hw' & Hc). apply (Hno b).
        exists w'. split; [set_solver|exact Hc].
Qed.

Lemma wf_nil : wf [].
Proof. split; [exact I|]. split; intros w; [intros w2 H|intros H]; set_solver. Qed.

Lemma merge_fold_spec ws m d0 : wf m ->
  let r := fold_left (fun m w => merger_insert m (fst w) (snd w)) ws m in
  wf r /\ forall x,
   (forall b, covers m x b -> d0 x = b) ->
   forall d, ((forall b, ~ covers m x b) -> d0 x = d x) ->
   (forall b, covers r x b -> apply_writes d0 ws x = b) /\
   ((forall b, ~ covers r x b) -> apply_writes d0 ws x = d x).
Proof.
  revert m d0. induction ws as [|[o dat] ws IH]; intros m d0 Hwf r; subst r.
  - split; [exact Hwf|]. intros x H1 d H2. split; [exact H1|exact H2].
  - cbn [fold_left fst snd]. destruct (merger_insert_covers m o dat Hwf) as [Hwf' Hcov].
    destruct (IH (merger_insert m o dat) (dev_write d0 o dat) Hwf') as [Hw2 Hx]. split; [exact Hw2|].
    intros x H1 d H2. specialize (Hx x).
    change (apply_writes d0 ((o, dat) :: ws)) with (apply_writes (dev_write d0 o dat) ws).
    apply Hx.
    + intros b Hb. apply Hcov in Hb. destruct ((o <=? x) && (x <? o + N.of_nat (length dat))) eqn:E.
      * apply dev_write_in; [lia|exact Hb].
      * rewrite dev_write_out by lia. apply H1, Hb.
    + intros Hno. destruct ((o <=? x) && (x <? o + N.of_nat (length dat))) eqn:E.
      * destruct (lookup_lt_is_Some_2 dat (N.to_nat (x - o))) as [b Eb]; [lia|].
        destruct (Hno b). apply Hcov. rewrite E. exact Eb.
      * rewrite dev_write_out by lia. apply H2. intros b Hb. apply (Hno b). apply Hcov. rewrite E. exact Hb.
Qed.

Lemma merge_all_wf ws : wf (merge_all ws).
Proof. apply (merge_fold_spec ws [] (fun _ => 0) wf_nil). Qed.

Lemma covers_dec m x : (exists b, covers m x b) \/ (forall b, ~ covers m x b).
Proof.
  induction m as [|w m IH].
  - right. intros b (w & Hw & _). set_solver.
  - destruct (wcov_dec w x) as [[b Hc]|Hout]; [left; exists b, w; split; [set_solver|exact Hc]|].
    destruct IH as [(b & w' & Hw & Hc)|Hno]; [left; exists b, w'; split; [set_solver|exact Hc]|].
    right. intros b (w' & Hw & Hc). apply elem_of_cons in Hw as [->|Hw].
    + destruct Hc as [C E]. pose proof (covers_range _ _ _ C E). lia.
    + apply (Hno b). exists w'. split; assumption.
Qed.

(** Writing only some of the merged entries gives, at each address, either the
    old byte or the byte after all the writes. *)
Lemma merge_partial ws d l x : l ⊆ merge_all ws ->
  apply_writes d l x = d x \/ apply_writes d l x = apply_writes d ws x.
Proof.
  intros Hsub. destruct (merge_fold_spec ws [] d wf_nil) as [Hwf Hm].
  destruct (Hm x) with (d := d) as [M1 M2]; [intros b (w & Hw & _); set_solver|reflexivity|].
  destruct (apply_sub (merge_all ws) l d x Hwf Hsub) as [A1 A2].
  destruct (covers_dec l x) as [[b Hb]|Hno]; [|left; apply A2, Hno].
  right. rewrite (A1 b Hb). symmetry. apply M1. destruct Hb as (w & Hw & Hc). exists w. split; [apply Hsub, Hw|exact Hc].
Qed.

Lemma merge_total ws d l x : (forall w, w ∈ l <-> w ∈ merge_all ws) ->
  apply_writes d l x = apply_writes d ws x.
Proof.
  intros Heq. destruct (merge_fold_spec ws [] d wf_nil) as [Hwf Hm].
  destruct (Hm x) with (d := d) as [M1 M2]; [intros b (w & Hw & _); set_solver|reflexivity|].
  destruct (apply_sub (merge_all ws) l d x Hwf) as [A1 A2]; [intros w Hw; apply Heq, Hw|].
  destruct (covers_dec l x) as [[b Hb]|Hno].
  - rewrite (A1 b Hb). symmetry. apply M1. destruct Hb as (w & Hw & Hc). exists w. split; [apply Heq, Hw|exact Hc].
  - rewrite (A2 Hno). symmetry. apply M2. intros b (w & Hw & Hc). apply (Hno b). exists w. split; [apply Heq, Hw|exact Hc].
Qed.

(** ** The journal *)
Section journal.
Context (c : jconf) (d0 : device).

Definition agree (d1 d2 : device) : Prop := forall x, outside_journal c x -> d1 x = d2 x.

Definition slice (ts : list txn) (i m : nat) : list write := concat (take m (drop i ts)).
Definition rep (ts : list txn) (i m : nat) (p : pending) : Prop :=
  pj_signals p = seq i m /\ pj_entries p = merge_all (slice ts i m) /\ pj_buf_len p <= jc_cap c /\ (i + m <= length ts)%nat.
Fixpoint chain (ts : list txn) (i : nat) (ps : list pending) : Prop :=
  match ps with
  | [] => i = length ts
  | p :: ps => exists m, rep ts i m p /\ chain ts (i + m) ps
  end.

Definition fl_inv (ts : list txn) (s : jstate) (k m : nat) : Prop :=
  js_acked s = seq 0 k /\
  match js_flusher s with
  | FIdle | FSignalled => m = 0%nat /\ agree (js_dev s) (after_txns d0 ts k)
  | FGot p => rep ts k m p /\ agree (js_dev s) (after_txns d0 ts k)
  | FEntries rest sigs =>
      sigs = seq k m /\ (k + m <= length ts)%nat /\
      exists dn, Permutation (merge_all (slice ts k m)) (dn ++ rest) /\
                   agree (js_dev s) (apply_writes (after_txns d0 ts k) dn)
  end.
Definition jinv (ts : list txn) (s : jstate) : Prop :=
  js_next s = length ts /\
  exists k m, fl_inv ts s k m /\ chain ts (k + m) (js_queue s ++ [js_pending s]).

Lemma slice_app ts t i m : (i + m <= length ts)%nat -> slice (ts ++ [t]) i m = slice ts i m.
Proof. intros H. unfold slice. rewrite drop_app_le by lia. rewrite take_app_le; [reflexivity|]. rewrite drop_length. lia. Qed.
Lemma after_app ts t k : (k <= length ts)%nat -> after_txns d0 (ts ++ [t]) k = after_txns d0 ts k.
Proof. intros H. unfold after_txns. rewrite take_app_le by exact H. reflexivity. Qed.
Lemma rep_app ts t i m p : rep ts i m p -> rep (ts ++ [t]) i m p.
Proof. intros (H1 & H2 & H3 & H4). unfold rep. rewrite slice_app by exact H4. rewrite app_length. cbn. repeat split; try assumption; lia. Qed.

Lemma after_slice ts k m x : after_txns d0 ts (k + m) x = apply_writes (after_txns d0 ts k) (slice ts k m) x.
Proof.
  unfold after_txns, slice. rewrite <- apply_writes_app. rewrite <- concat_app.
  f_equal. f_equal. f_equal. symmetry. apply take_take_drop.
Qed.

Lemma merge_all_app a b : fold_left (fun m w => merger_insert m (fst w) (snd w)) b (merge_all a) = merge_all (a ++ b).
Proof. unfold merge_all. rewrite fold_left_app. reflexivity. Qed.

(** Appending [t] to the last pending journal of a chain. *)
Lemma chain_add ts t i ps p raw :
  chain ts i (ps ++ [p]) -> pj_buf_len p + N.of_nat (length raw) <= jc_cap c ->
  chain (ts ++ [t]) i (ps ++ [ {| pj_raw := pj_raw p ++ raw;
     pj_entries := fold_left (fun m w => merger_insert m (fst w) (snd w)) t (pj_entries p);
     pj_signals := pj_signals p ++ [length ts] |} ]).
Proof.
  revert i. induction ps as [|q ps IH]; intros i H Hcap; cbn [app chain] in *.
  - destruct H as (m & (H1 & H2 & H3 & H4) & Ei). exists (S m). split.
    + unfold rep. cbn [pj_signals pj_entries]. split; [|split; [|split]].
      * rewrite H1, seq_S. f_equal. f_equal. lia.
      * rewrite H2. rewrite merge_all_app. f_equal. unfold slice.
        rewrite drop_app_le by lia. rewrite (take_ge _ (S m)) by (rewrite app_length, drop_length; cbn; lia).
        rewrite take_ge by (rewrite drop_length; lia). rewrite concat_app. cbn. rewrite app_nil_r. reflexivity.
      * unfold pj_buf_len in *. cbn [pj_raw]. rewrite app_length. lia.
      * rewrite app_length. cbn. lia.
    + rewrite app_length. cbn. lia.
  - destruct H as (m & Hr & Hc). exists m. split; [apply rep_app, Hr|apply IH; assumption].
Qed.

Lemma chain_send ts i ps : chain ts i ps -> 36 <= jc_cap c -> chain ts i (ps ++ [pending_default]).
Proof.
  revert i. induction ps as [|p ps IH]; intros i H Hc; cbn [app chain] in *.
  - exists 0%nat. split; [|lia]. unfold rep, pj_buf_len. cbn. split; [reflexivity|]. split; [reflexivity|]. split; lia.
  - destruct H as (m & Hr & H). exists m. split; [exact Hr|apply IH; assumption].
Qed.

Lemma chain_le ts i ps : chain ts i ps -> (i <= length ts)%nat.
Proof.
  revert i. induction ps as [|p ps IH]; intros i H; cbn in H; [lia|].
  destruct H as (m & Hr & H). specialize (IH _ H). lia.
Qed.

Context (Hhash : forall l, length (jc_hash c l) = 32%nat).

Lemma agree_journal d buf : N.of_nat (length buf) <= jc_cap c -> agree (dev_write d (jc_off c) buf) d.
Proof. intros H x Hx. apply dev_write_out. unfold outside_journal in Hx. lia. Qed.
Lemma agree_trans a b d : agree a b -> agree b d -> agree a d.
Proof. intros H1 H2 x Hx. rewrite H1, H2 by exact Hx. reflexivity. Qed.
Lemma agree_write a b off dat : agree a b -> agree (dev_write a off dat) (dev_write b off dat).
Proof. intros H x Hx. unfold dev_write. rewrite H by exact Hx. reflexivity. Qed.

Lemma pj_buf_length p : N.of_nat (length (pj_buf c p)) = pj_buf_len p.
Proof. unfold pj_buf, pj_buf_len. rewrite !app_length, Hhash. cbn [length u32_le]. lia. Qed.

Definition txn_of (e : jevent) : list txn :=
  match e with JCommit t _ => match t with [] => [] | _ => [t] end | _ => [] end.

Lemma jinv_step ts s e s' : jinv ts s -> 36 <= jc_cap c ->
  (forall t, t ∈ txn_of e -> fits c t) -> jstep c s e = Some s' -> jinv (ts ++ txn_of e) s'.
Proof.
  intros (Hn & k & m & (Hack & Hf) & Hch) Hcap Hfit Hs.
  destruct e as [t seen| | | |i| |]; cbn [jstep txn_of] in *; rewrite ?app_nil_r.
  - (* commit *)
    apply (inj Some) in Hs. subst s'. destruct t as [|w t]; [rewrite app_nil_r; split; [exact Hn|]; exists k, m; split; [split|]; assumption|].
    assert (Hft : fits c (w :: t)) by (apply Hfit; set_solver). unfold fits in Hft. fold (txn_raw c (w :: t)) in Hft.
    cbn [commit_transaction]. remember (w :: t) as tx eqn:Etx. clear Etx w t.
    set (wo := jc_cap c <? _). set (idle := _ && _).
    assert (Hsend : forall (b : bool) s1, s1 = (if b then send_pending s else s) ->
        js_next s1 = length ts /\ js_dev s1 = js_dev s /\ js_flusher s1 = js_flusher s /\ js_acked s1 = js_acked s /\
        chain ts (k + m) (js_queue s1 ++ [js_pending s1]) /\
        (b = true -> pj_buf_len (js_pending s1) = 36) /\ (b = false -> js_pending s1 = js_pending s)).
    { intros b s1 ->. destruct b; cbn [send_pending js_next js_dev js_flusher js_acked js_queue js_pending].
      - repeat split; try assumption; try congruence. apply chain_send; assumption.
      - repeat split; try assumption; congruence. }
    destruct (Hsend (wo || idle) _ eq_refl) as (N1 & D1 & F1 & A1 & C1 & B1 & B2).
    remember (if wo || idle then send_pending s else s) as s1 eqn:Es1. clear Es1 Hsend.
    split; [cbn [js_next]; rewrite app_length, N1; cbn; lia|]. exists k, m.
    pose proof (chain_le _ _ _ Hch) as Hle. split.
    + split; cbn [js_acked js_flusher js_dev]; [congruence|]. rewrite F1, D1.
      destruct (js_flusher s).
      * rewrite after_app by lia. exact Hf.
      * rewrite after_app by lia. destruct Hf as [Hr Hf]. split; [apply rep_app, Hr|exact Hf].
      * destruct Hf as (E & Hl & Hf). split; [exact E|]. split; [rewrite app_length; lia|].
        rewrite after_app, slice_app by lia. exact Hf.
      * rewrite after_app by lia. exact Hf.
    + cbn [js_queue js_pending]. rewrite N1. apply chain_add; [exact C1|].
      destruct (wo || idle) eqn:Eb.
      * rewrite (B1 eq_refl). lia.
      * rewrite (B2 eq_refl). apply orb_false_iff in Eb as [Ewo _]. unfold wo in Ewo. lia.
  - (* tick *)
    destruct (pj_signals (js_pending s)); [destruct (js_flusher s); discriminate|].
    assert (s' = send_pending s) as -> by (destruct (js_flusher s); congruence).
    split; [exact Hn|]. exists k, m. split; [split; [exact Hack|exact Hf]|].
    cbn [send_pending js_queue js_pending]. apply chain_send; assumption.
  - (* recv *)
    destruct (js_flusher s) eqn:Ef; try discriminate. destruct (js_queue s) as [|p q] eqn:Eq; [discriminate|].
    apply (inj Some) in Hs. subst s'. split; [exact Hn|].
    destruct Hf as [-> Hf]. cbn [app chain] in Hch. destruct Hch as (m' & Hr & Hch). rewrite Nat.add_0_r in *.
    exists k, m'. split; [|exact Hch]. split; [exact Hack|]. cbn. split; assumption.
  - (* write journal *)
    destruct (js_flusher s) eqn:Ef; try discriminate. apply (inj Some) in Hs. subst s'. split; [exact Hn|].
    exists k, m. split; [|exact Hch]. split; [exact Hack|]. cbn. destruct Hf as [(R1 & R2 & R3 & R4) Hf].
    split; [exact R1|]. split; [exact R4|]. exists []. rewrite R2. split; [reflexivity|].
    eapply agree_trans; [|exact Hf]. apply agree_journal. rewrite pj_buf_length. exact R3.
  - (* entry *)
    destruct (js_flusher s) as [| |rest sigs|] eqn:Ef; try discriminate.
    destruct (rest !! i) as [w|] eqn:Ei; [|discriminate]. apply (inj Some) in Hs. subst s'. split; [exact Hn|].
    exists k, m. split; [|exact Hch]. split; [exact Hack|]. cbn. destruct Hf as (R1 & R2 & dn & Hp & Hf).
    split; [exact R1|]. split; [exact R2|]. exists (dn ++ [w]). split.
    + rewrite Hp. rewrite <- app_assoc. f_equiv. rewrite <- (take_drop_middle rest i w Ei) at 1.
      rewrite <- Permutation_middle. reflexivity.
    + rewrite apply_writes_snoc. apply agree_write, Hf.
  - (* signal *)
    destruct (js_flusher s) as [| |[|] sigs|] eqn:Ef; try discriminate. apply (inj Some) in Hs. subst s'. split; [exact Hn|].
    destruct Hf as (-> & R2 & dn & Hp & Hf). rewrite app_nil_r in Hp.
    exists (k + m)%nat, 0%nat. rewrite Nat.add_0_r. split; [|exact Hch].
    split; cbn; [rewrite Hack, seq_app; reflexivity|]. split; [reflexivity|].
    intros x Hx. rewrite (Hf x Hx), after_slice. apply merge_total. intros w. rewrite Hp. reflexivity.
  - (* blank *)
    destruct (js_flusher s) eqn:Ef; try discriminate. apply (inj Some) in Hs. subst s'. split; [exact Hn|].
    exists k, m. split; [|exact Hch]. split; [exact Hack|]. cbn. destruct Hf as [-> Hf]. split; [reflexivity|].
    eapply agree_trans; [|exact Hf]. apply agree_journal. unfold blank_state. rewrite app_length, Hhash. cbn. lia.
Qed.

Lemma committed_cons e es : committed (e :: es) = txn_of e ++ committed es.
Proof. unfold committed. cbn [omap list_omap]. destruct e as [[|w t]| | | | | |]; reflexivity. Qed.

Lemma jinv_run es ts s s' : jinv ts s -> 36 <= jc_cap c ->
  (forall t, t ∈ committed es -> fits c t) -> jrun c s es = Some s' -> jinv (ts ++ committed es) s'.
Proof.
  revert ts s. induction es as [|e es IH]; intros ts s Hi Hc Hf Hr; cbn [jrun] in Hr.
  - apply (inj Some) in Hr. subst. cbn. rewrite app_nil_r. exact Hi.
  - rewrite committed_cons in *. destruct (jstep c s e) as [s1|] eqn:Es; [|discriminate].
    rewrite app_assoc. eapply IH; [eapply jinv_step; try eassumption|exact Hc| |exact Hr].
    + intros t Ht. apply Hf. set_solver.
    + intros t Ht. apply Hf. set_solver.
Qed.

Lemma jinv_init : 36 <= jc_cap c -> jinv [] (jinit d0).
Proof.
  intros Hc. split; [reflexivity|]. exists 0%nat, 0%nat. split.
  - split; [reflexivity|]. cbn. split; [reflexivity|]. intros x _. reflexivity.
  - apply (chain_send [] 0 []); [reflexivity|exact Hc].
Qed.
End journal.
