(** The journal seen from outside: a device [A] on which every signalled
    transaction is applied, and the list [us] of the transactions not signalled
    yet. *)
From Coq Require Import ZifyBool ZifyNat ZifyN.
From stdpp Require Import base numbers option list.
From Verif Require Import Util Bytes PageIOModel JournalModel JournalSpec JournalProofs PageIOProofs.
Open Scope N_scope.
Ltac Zify.zify_post_hook ::= idtac.

Definition touches (w : write) (x : N) : Prop := fst w <= x < fst w + N.of_nat (length (snd w)).
Definition untouched (us : list txn) (x : N) : Prop := forall t w, t ∈ us -> w ∈ t -> ~ touches w x.

Lemma dev_write_in d off data x b : off <= x -> data !! N.to_nat (x - off) = Some b -> dev_write d off data x = b.
Proof. intros H E. unfold dev_write. destruct (N.leb_spec off x); [|lia]. rewrite E. reflexivity. Qed.
Lemma dev_write_other d off data x : ~ touches (off, data) x -> dev_write d off data x = d x.
Proof.
  intros H. unfold dev_write. destruct (N.leb_spec off x) as [Hle|]; [|reflexivity].
  rewrite lookup_ge_None_2; [reflexivity|]. unfold touches in H. cbn [fst snd] in H. lia.
Qed.
Lemma dev_write_ext d1 d2 off data x : d1 x = d2 x -> dev_write d1 off data x = dev_write d2 off data x.
Proof. intros H. unfold dev_write. rewrite H. reflexivity. Qed.

Lemma apply_writes_ext ws : forall d1 d2 x, d1 x = d2 x -> apply_writes d1 ws x = apply_writes d2 ws x.
Proof.
  unfold apply_writes. induction ws as [|w ws IH]; intros d1 d2 x H; cbn [fold_left]; [exact H|].
  apply IH, dev_write_ext, H.
Qed.
Lemma apply_writes_other ws : forall d x, (forall w, w ∈ ws -> ~ touches w x) -> apply_writes d ws x = d x.
Proof.
  unfold apply_writes. induction ws as [|w ws IH]; intros d x H; cbn [fold_left]; [reflexivity|].
  rewrite IH by (intros w' Hw'; apply H; now right). destruct w as [off data]. apply dev_write_other, H. now left.
Qed.
Lemma untouched_concat us x : untouched us x -> forall w, w ∈ concat us -> ~ touches w x.
Proof. intros H w Hw. apply elem_of_list_In, in_concat in Hw as (t & Ht & Hw). apply (H t w); now apply elem_of_list_In. Qed.

Section view.
Context (c : jconf).

Definition jview (s : jstate) (A : device) (us : list txn) : Prop :=
  jinv c A (replicate (A:=txn) (length (js_acked s)) [] ++ us) s.
Definition flushed (A : device) (us : list txn) : device := apply_writes A (concat us).

Lemma concat_replicate_nil n (l : list txn) : concat (replicate (A:=txn) n [] ++ l) = concat l.
Proof. induction n; cbn; auto. Qed.
Lemma take_replicate_app n us k : (n <= k)%nat ->
  take k (replicate (A:=txn) n [] ++ us) = replicate (A:=txn) n [] ++ take (k - n) us.
Proof. intros H. rewrite take_app_ge by (rewrite replicate_length; exact H). rewrite replicate_length. reflexivity. Qed.

Lemma acked_len s k : js_acked s = seq 0 k -> length (js_acked s) = k.
Proof. intros ->. apply seq_length. Qed.

Lemma after_k (A : device) us n : after_txns A (replicate (A:=txn) n [] ++ us) n = A.
Proof.
  unfold after_txns. rewrite take_replicate_app by reflexivity. rewrite Nat.sub_diag. cbn [take].
  rewrite concat_replicate_nil. reflexivity.
Qed.

(** Bytes no outstanding transaction writes. *)
Lemma jview_dev s A us x : jview s A us -> outside_journal c x -> untouched us x ->
  js_dev s x = A x /\ flushed A us x = A x.
Proof.
  intros (Hn & k & m & (Hack & Hf) & Hch) Hx Hu. pose proof (acked_len _ _ Hack) as Hk.
  split; [|apply apply_writes_other, untouched_concat, Hu].
  rewrite Hk in *. rewrite after_k in Hf.
  destruct (js_flusher s) as [|p|rest sigs|].
  - apply Hf, Hx.
  - apply Hf, Hx.
  - destruct Hf as (_ & _ & dn & Hp & Ha). rewrite (Ha x Hx).
    assert (Hsub : dn ⊆ merge_all (slice (replicate (A:=txn) k [] ++ us) k m)).
    { intros w Hw. rewrite Hp. apply elem_of_app. now left. }
    destruct (merge_partial _ A dn x Hsub) as [E|E]; [exact E|]. rewrite E. apply apply_writes_other.
    intros w Hw. apply elem_of_list_In, in_concat in Hw as (t & Ht & Hw). apply (Hu t w); [|now apply elem_of_list_In].
    apply elem_of_list_In in Ht. rewrite drop_app_ge in Ht by (rewrite replicate_length; reflexivity).
    rewrite replicate_length, Nat.sub_diag in Ht. apply elem_of_take in Ht as (?&?&_); eapply elem_of_list_lookup_2; eassumption.
  - apply Hf, Hx.
Qed.

Lemma acked_lt s A us n : jview s A us -> (n ∈ js_acked s <-> (n < length (js_acked s))%nat).
Proof.
  intros (_ & k & m & (Hack & _) & _). rewrite Hack, seq_length. rewrite elem_of_list_In, in_seq. lia.
Qed.
Lemma jview_next s A us : jview s A us -> js_next s = (length (js_acked s) + length us)%nat.
Proof. intros (Hn & _). rewrite app_length, replicate_length in Hn. exact Hn. Qed.

(** Re-basing: replace the first [k] transactions by their effect. *)
Lemma rep_rebase ts ts' i m p : (forall a b, (i <= a)%nat -> slice ts' a b = slice ts a b) -> length ts' = length ts ->
  rep c ts i m p -> rep c ts' i m p.
Proof. intros H Hl (H1 & H2 & H3 & H4). unfold rep. rewrite H by reflexivity. rewrite Hl. auto. Qed.
Lemma chain_rebase ts ts' ps : forall i, (forall a b, (i <= a)%nat -> slice ts' a b = slice ts a b) -> length ts' = length ts ->
  chain c ts i ps -> chain c ts' i ps.
Proof.
  induction ps as [|p ps IH]; intros i H Hl Hc; cbn [chain] in *; [congruence|].
  destruct Hc as (m & Hr & Hc). exists m. split; [eapply rep_rebase; eassumption|].
  apply IH; [|exact Hl|exact Hc]. intros a b Ha. apply H. lia.
Qed.

Lemma jinv_rebase d0 ts s k : jinv c d0 ts s -> js_acked s = seq 0 k ->
  jinv c (after_txns d0 ts k) (replicate (A:=txn) k [] ++ drop k ts) s.
Proof.
  intros (Hn & k' & m & (Hack & Hf) & Hch) Hk.
  assert (k' = k) as ->. { rewrite Hack in Hk. apply (f_equal length) in Hk. rewrite !seq_length in Hk. exact Hk. }
  pose proof (chain_le _ _ _ _ Hch) as Hle.
  assert (Hl : length (replicate (A:=txn) k [] ++ drop k ts) = length ts).
  { rewrite app_length, replicate_length, drop_length. unfold txn in *. lia. }
  assert (Hs : forall a b, (k <= a)%nat -> slice (replicate (A:=txn) k [] ++ drop k ts) a b = slice ts a b).
  { intros a b Ha. unfold slice. rewrite drop_app_ge by (rewrite replicate_length; exact Ha).
    rewrite replicate_length, drop_drop. replace (k + (a - k))%nat with a by lia. reflexivity. }
  split; [etransitivity; [exact Hn|symmetry; exact Hl]|]. exists k, m. split; [|].
  - split; [exact Hack|]. rewrite after_k.
    destruct (js_flusher s) as [|p|rest sigs|]; [exact Hf| | |exact Hf].
    + destruct Hf as [Hr Ha]. split; [|exact Ha]. eapply rep_rebase; [|exact Hl|exact Hr]. intros a b Hab. now apply Hs.
    + destruct Hf as (H1 & H2 & dn & H3 & H4). split; [exact H1|]. split; [unfold txn in *; lia|].
      exists dn. pose proof (Hs k m (le_n k)) as Hsk. unfold txn in *. rewrite Hsk. split; assumption.
  - eapply chain_rebase; [|exact Hl|exact Hch]. intros a b Hab. apply Hs. lia.
Qed.

Context (Hhash : forall l, length (jc_hash c l) = 32%nat) (Hcap : 36 <= jc_cap c).

Lemma jview_jstep s A us e s' : jview s A us -> (forall t, t ∈ txn_of e -> fits c t) -> jstep c s e = Some s' ->
  exists j, jview s' (apply_writes A (concat (take j us))) (drop j (us ++ txn_of e)) /\
    (j <= length us)%nat /\ length (js_acked s') = (length (js_acked s) + j)%nat.
Proof.
  intros Hv Hfit Hs. pose proof Hv as (_ & k & m & (Hack & Hfl) & Hch).
  pose proof (acked_len _ _ Hack) as Hk.
  pose proof (jinv_step c A Hhash _ _ _ _ Hv Hcap Hfit Hs) as Hv'. rewrite Hk in *.
  pose proof Hv' as (_ & k' & m' & (Hack' & _) & Hch'). pose proof (acked_len _ _ Hack') as Hk'.
  pose proof (chain_le _ _ _ _ Hch) as Hle0. rewrite app_length, replicate_length in Hle0.
  assert (Hkk : (k <= k')%nat /\ (k' <= k + length us)%nat).
  { rewrite <- Hk, <- Hk'. clear Hv' Hch' Hack' Hk'. revert Hs.
    destruct e as [t seen| | | |i| |]; cbn [jstep]; destruct (js_flusher s) as [|p|rest sigs|] eqn:Ef; try discriminate;
      repeat (case_match; try discriminate); intros [= <-]; try (cbn; lia);
      try (cbn [commit_transaction]; unfold commit_transaction; repeat case_match; cbn; lia).
    cbn [set_flusher js_acked]. rewrite app_length. destruct Hfl as (-> & Hm & _).
    rewrite app_length, replicate_length in Hm. rewrite seq_length. unfold txn in *. lia. }
  exists (k' - k)%nat. split; [|split; [lia|rewrite Hk'; lia]].
  pose proof (jinv_rebase _ _ _ k' Hv' Hack') as HR.
  unfold jview. rewrite Hk'.
  assert (E1 : after_txns A ((replicate (A:=txn) k [] ++ us) ++ txn_of e) k' = apply_writes A (concat (take (k' - k) us))).
  { unfold after_txns. rewrite <- app_assoc. rewrite take_replicate_app by lia. rewrite concat_replicate_nil.
    rewrite take_app_le by lia. reflexivity. }
  assert (E2 : drop k' ((replicate (A:=txn) k [] ++ us) ++ txn_of e) = drop (k' - k) (us ++ txn_of e)).
  { rewrite <- app_assoc. rewrite drop_app_ge by (rewrite replicate_length; lia). rewrite replicate_length. reflexivity. }
  rewrite E1, E2 in HR. exact HR.
Qed.

(** A step of the flusher. *)
Lemma jview_step s A us e s' : jview s A us -> txn_of e = [] -> jstep c s e = Some s' ->
  exists j, jview s' (apply_writes A (concat (take j us))) (drop j us) /\
    (j <= length us)%nat /\ length (js_acked s') = (length (js_acked s) + j)%nat.
Proof.
  intros Hv He Hs. destruct (jview_jstep s A us e s' Hv) as (j & H); [rewrite He; intros t Ht; inversion Ht|exact Hs|].
  rewrite He, app_nil_r in H. exists j. exact H.
Qed.
Lemma flushed_step A us j : flushed (apply_writes A (concat (take j us))) (drop j us) = flushed A us.
Proof. unfold flushed. rewrite <- apply_writes_app, <- concat_app, take_drop. reflexivity. Qed.

Lemma commit_acked s t seen : js_acked (commit_transaction c s t seen) = js_acked s.
Proof. unfold commit_transaction. destruct t; [reflexivity|]. cbn. case_match; reflexivity. Qed.
Lemma commit_dev s t seen : js_dev (commit_transaction c s t seen) = js_dev s.
Proof. unfold commit_transaction. destruct t; [reflexivity|]. cbn. case_match; reflexivity. Qed.

Lemma jview_commit s A us t seen : jview s A us -> t <> [] -> fits c t ->
  jview (commit_transaction c s t seen) A (us ++ [t]).
Proof.
  intros Hv Ht Hf. pose proof (fun s' => jinv_step c A Hhash _ s (JCommit t seen) s' Hv Hcap) as H.
  destruct t as [|w t]; [contradiction|].
  specialize (H (commit_transaction c s (w :: t) seen)). cbn [txn_of] in H. unfold jview. rewrite commit_acked, app_assoc. apply H; [|reflexivity].
  intros t' Ht'. apply elem_of_list_singleton in Ht' as ->. exact Hf.
Qed.

(** A direct change to bytes outside the journal that no outstanding transaction
    writes. *)
Definition patch (A d d' : device) : device := fun x => if d' x =? d x then A x else d' x.
Lemma jview_change s s' A us : jview s A us ->
  (forall x, js_dev s' x <> js_dev s x -> outside_journal c x /\ untouched us x) ->
  js_pending s' = js_pending s -> js_queue s' = js_queue s ->
  js_flusher s' = js_flusher s -> js_next s' = js_next s -> js_acked s' = js_acked s ->
  jview s' (patch A (js_dev s) (js_dev s')) us.
Proof.
  intros (Hn & k & m & (Hack & Hf) & Hch) Hw Ep Eq Ef En Ea.
  pose proof (acked_len _ _ Hack) as Hk. unfold jview. rewrite Ea, Hk in *. split; [rewrite En; exact Hn|].
  exists k, m. rewrite Eq, Ep. split; [|exact Hch]. split; [rewrite Ea; exact Hack|]. rewrite Ef. rewrite after_k in *.
  assert (Hag : agree c (js_dev s) A -> agree c (js_dev s') (patch A (js_dev s) (js_dev s'))).
  { intros H x Hx. unfold patch. destruct (N.eqb_spec (js_dev s' x) (js_dev s x)) as [->|]; [apply H, Hx|reflexivity]. }
  destruct (js_flusher s) as [|p|rest sigs|].
  - destruct Hf. split; auto.
  - destruct Hf. split; auto.
  - destruct Hf as (H1 & H2 & dn & H3 & H4). split; [exact H1|]. split; [exact H2|]. exists dn. split; [exact H3|].
    intros x Hx. destruct (N.eq_dec (js_dev s' x) (js_dev s x)) as [Heq|Hne].
    + rewrite Heq, (H4 x Hx). apply apply_writes_ext. unfold patch. rewrite Heq, N.eqb_refl. reflexivity.
    + destruct (Hw x Hne) as [_ Hu].
      assert (Hsub : dn ⊆ merge_all (slice (replicate (A:=txn) k [] ++ us) k m)).
      { intros w Hw'. rewrite H3. apply elem_of_app. now left. }
      transitivity (patch A (js_dev s) (js_dev s') x).
      { unfold patch. destruct (N.eqb_spec (js_dev s' x) (js_dev s x)); [contradiction|reflexivity]. }
      symmetry. destruct (merge_partial _ (patch A (js_dev s) (js_dev s')) dn x Hsub) as [E|E]; [exact E|]. rewrite E. apply apply_writes_other.
      intros w Hw'. apply elem_of_list_In, in_concat in Hw' as (t & Ht & Hw'). apply (Hu t w); [|now apply elem_of_list_In].
      apply elem_of_list_In in Ht. rewrite drop_app_ge in Ht by (rewrite replicate_length; reflexivity).
      rewrite replicate_length, Nat.sub_diag in Ht. apply elem_of_take in Ht as (?&?&_); eapply elem_of_list_lookup_2; eassumption.
  - destruct Hf. split; auto.
Qed.
Lemma flushed_patch A us d d' x : (d' x <> d x -> untouched us x) ->
  flushed (patch A d d') us x = if d' x =? d x then flushed A us x else d' x.
Proof.
  intros H. unfold flushed. destruct (N.eqb_spec (d' x) (d x)) as [E|E].
  - apply apply_writes_ext. unfold patch. rewrite E, N.eqb_refl. reflexivity.
  - rewrite apply_writes_other by (apply untouched_concat, H, E). unfold patch.
    destruct (N.eqb_spec (d' x) (d x)); [contradiction|reflexivity].
Qed.
Lemma flushed_snoc A us t : flushed A (us ++ [t]) = apply_writes (flushed A us) t.
Proof. unfold flushed. rewrite concat_app, apply_writes_app. cbn [concat]. rewrite app_nil_r. reflexivity. Qed.

Lemma jview_init d : jview (jinit d) d [].
Proof. unfold jview. cbn. apply jinv_init, Hcap. Qed.
End view.
