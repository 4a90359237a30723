(** Every reachable state of the log satisfies the invariant. *)
From stdpp Require Import base numbers list list_numbers option gmap.
From Coq Require Import ZifyBool ZifyNat ZifyN.
From Verif Require Import Util Bytes PageIOModel PageIOProofs PageIOWrite KvCodecModel KvCodecSpec KvCodecProofs KvLogModel KvLogSpec KvLogProofs KvLogSys.
Open Scope N_scope.
Ltac Zify.zify_post_hook ::= idtac.

#[global] Instance flight_eq_dec : EqDecision flight.
Proof. solve_decision. Defined.

(** Consecutive flushes between two virtual offsets, each with its start. *)
Fixpoint chain (c : lconf) (M : N) (from : N) (q : list (N * flight)) (to : N) : Prop :=
  match q with
  | [] => from = to
  | (s, f) :: q => s = from /\ flight_ok c M s f /\ chain c M (fl_newtail f) q to
  end.
Lemma flight_ok_mono c M M' s f : M <= M' -> flight_ok c M s f -> flight_ok c M' s f.
Proof. intros Hm (H1 & H2). split; [|exact H2]. intros dev dev' E. eapply laid_mono; [exact Hm|]. eapply H1; exact E. Qed.
Lemma chain_mono c M M' from q to : M <= M' -> chain c M from q to -> chain c M' from q to.
Proof. intros Hm. revert from. induction q as [|[s f] q IH]; intros from; cbn; [auto|]. intros (? & ? & ?). split; [assumption|]. split; [eapply flight_ok_mono; eassumption|auto]. Qed.
Lemma chain_le c M from q to : chain c M from q to -> from <= to.
Proof. revert from. induction q as [|[s f] q IH]; intros from; cbn; [lia|]. intros (-> & (_ & _ & H & _) & H2). apply IH in H2. lia. Qed.
Lemma chain_app c M from q1 q2 to : chain c M from (q1 ++ q2) to <-> exists m, chain c M from q1 m /\ chain c M m q2 to.
Proof.
  revert from. induction q1 as [|[s f] q1 IH]; intros from; cbn [app chain].
  - split; [intros H; exists from; auto|intros (m & -> & H); exact H].
  - rewrite IH. split; [intros (? & ? & m & ? & ?); exists m; auto|intros (m & (? & ? & ?) & ?); eauto].
Qed.
Lemma chain_aligned c M from q to : chain c M from q to -> from mod 2 ^ lc_spage c = 0 -> to mod 2 ^ lc_spage c = 0.
Proof. revert from. induction q as [|[s f] q IH]; intros from; cbn; [congruence|]. intros (-> & (_ & _ & _ & H) & H2) _. eapply IH; eassumption. Qed.
Lemma chain_lookup c M from q to k s f : chain c M from q to -> q !! k = Some (s, f) ->
  flight_ok c M s f /\ from <= s /\ fl_newtail f <= to.
Proof.
  revert from k. induction q as [|[s0 f0] q IH]; intros from k; [intros _ H; discriminate H|]. cbn [chain]. intros (-> & H1 & H2) Hk.
  pose proof H1 as (_ & _ & Hle & _). destruct k as [|k]; cbn in Hk.
  - injection Hk as -> ->. split; [exact H1|]. apply chain_le in H2. lia.
  - destruct (IH _ _ H2 Hk) as (? & ? & ?). split; [assumption|]. lia.
Qed.
Lemma chain_order c M from q to i j si fi sj fj : chain c M from q to -> q !! i = Some (si, fi) -> q !! j = Some (sj, fj) -> (i < j)%nat ->
  fl_newtail fi <= sj.
Proof.
  revert from i j. induction q as [|[s0 f0] q IH]; intros from i j; [intros _ H; discriminate H|]. cbn [chain]. intros (-> & H1 & H2) Hi Hj Hlt.
  destruct j as [|j]; [lia|]. cbn in Hj. destruct i as [|i]; cbn in Hi.
  - injection Hi as -> ->. apply (chain_lookup _ _ _ _ _ _ _ _ H2 Hj).
  - eapply IH; [exact H2|exact Hi|exact Hj|lia].
Qed.

(** The flight's writes have completed. *)
Definition completed (y : lstate) (f : flight) : Prop := (f, true) ∈ l_flights y \/ l_backlog y !! fl_id f = Some f.

Record linv (c : lconf) (y : lstate) (q : list (N * flight)) : Prop := {
  i_page : state_read (l_page y) = Some (l_head y, l_tail y);
  i_hist : Forall valid_task (l_hist y);
  i_ord : (l_nhead y <= l_ncommit y)%nat /\ (l_ncommit y <= l_ntail y)%nat /\ (l_ntail y <= length (l_hist y))%nat;
  i_commit : l_commit y = None -> l_ncommit y = l_nhead y;
  i_old : laid (lc_len c) (lc_spage c) (l_maxflush y) (l_dev y) (l_head y) (slice (l_hist y) (l_nhead y) (l_ncommit y)) (default (l_head y) (l_commit y));
  i_new : laid (lc_len c) (lc_spage c) (l_maxflush y) (l_dev y) (default (l_head y) (l_commit y)) (slice (l_hist y) (l_ncommit y) (l_ntail y)) (l_tail y);
  i_align : l_head y mod 2 ^ lc_spage c = 0 /\ (default (l_head y) (l_commit y)) mod 2 ^ lc_spage c = 0 /\ l_tail y mod 2 ^ lc_spage c = 0;
  i_chain : chain c (l_maxflush y) (l_tail y) q (w_vtail (l_writer y));
  i_room : w_vtail (l_writer y) - l_head y < lc_len c /\ w_vtail (l_writer y) < 2 ^ 64;
  i_ids : (forall k s f, q !! k = Some (s, f) -> fl_id f = (l_cnext y + k)%nat) /\ w_next (l_writer y) = (l_cnext y + length q)%nat;
  i_flights : forall f b, (f, b) ∈ l_flights y -> f ∈ (snd <$> q) /\ l_backlog y !! fl_id f = None;
  i_nodup : NoDup (fl_id ∘ fst <$> l_flights y);
  i_backlog : forall n f, l_backlog y !! n = Some f -> f ∈ (snd <$> q) /\ fl_id f = n;
  i_done : forall k s f, q !! k = Some (s, f) -> completed y f -> laid (lc_len c) (lc_spage c) (l_maxflush y) (l_dev y) s (snd <$> fl_tasks f) (fl_newtail f);
  i_writer : writer_ok (l_writer y);
  i_tasks : concat (fl_tasks ∘ snd <$> q) ++ w_pending (l_writer y) = index_from (l_ntail y) (drop (l_ntail y) (l_hist y));
  i_apply : (length (l_apply y) <= l_ntail y)%nat /\
    l_apply y = index_from (l_ntail y - length (l_apply y)) (slice (l_hist y) (l_ntail y - length (l_apply y)) (l_ntail y));
  i_acked : Forall (fun n => (n < l_ntail y - length (l_apply y))%nat) (l_acked y)
}.

Lemma state_page_read junk h t page : state_page junk h t = Some page -> h < 2 ^ 64 -> t < 2 ^ 64 -> state_read page = Some (h, t).
Proof.
  unfold state_page, state_read. intros E Hh Ht. destruct (buf_write junk 0 (le_bytes 8 h)) as [p1|] eqn:E1; [|discriminate E]. cbn [mbind option_bind] in E.
  pose proof (buf_write_length _ _ _ _ E1) as L1. pose proof (buf_write_length _ _ _ _ E) as L2.
  assert (buf_read page 0 8 = Some (le_bytes 8 h)) as ->.
  { rewrite (buf_read_other _ _ _ _ 0 8 E) by (rewrite le_bytes_length; lia). apply (buf_read_same' _ _ _ _ _ E1). rewrite le_bytes_length. reflexivity. }
  cbn [mbind option_bind]. rewrite (buf_read_same' _ _ _ _ _ E) by (rewrite le_bytes_length; reflexivity). cbn [mbind option_bind].
  rewrite !le_val_bytes by assumption. reflexivity.
Qed.

(** Positions of the ring identify virtual offsets between head and head + L. *)
Lemma ring_inj c y q v w : good_conf c -> linv c y q -> l_head y <= v < w_vtail (l_writer y) -> l_head y <= w < w_vtail (l_writer y) ->
  v mod lc_len c = w mod lc_len c -> v = w.
Proof. intros (HL & _) H Hv Hw. pose proof (i_room _ _ _ H) as [Hr _]. apply (mod_inj v w (l_head y)); [exact HL|lia|lia]. Qed.

Lemma linv_bounds c y q : linv c y q -> l_head y <= default (l_head y) (l_commit y) /\ default (l_head y) (l_commit y) <= l_tail y /\ l_tail y <= w_vtail (l_writer y).
Proof.
  intros H. pose proof (laid_le _ _ _ _ _ _ _ (i_old _ _ _ H)). pose proof (laid_le _ _ _ _ _ _ _ (i_new _ _ _ H)). pose proof (chain_le _ _ _ _ _ (i_chain _ _ _ H)). lia.
Qed.

(** What one flight's writes may change leaves everything else as it was. *)
Lemma other_ranges c y q k s f dev' : good_conf c -> linv c y q -> q !! k = Some (s, f) ->
  (forall a, flight_touches f a = false -> dev' a = l_dev y a) ->
  forall x z, l_head y <= x -> z <= w_vtail (l_writer y) -> (z <= s \/ fl_newtail f <= x) ->
  forall v, x <= v < z -> dev' (v mod lc_len c) = l_dev y (v mod lc_len c).
Proof.
  intros Hc H Hk Hd x z Hx Hz Hdis v Hv. apply Hd. destruct (flight_touches f (v mod lc_len c)) eqn:E; [|reflexivity]. exfalso.
  destruct (chain_lookup _ _ _ _ _ _ _ _ (i_chain _ _ _ H) Hk) as ((_ & Ht & _) & Hs1 & Hs2). pose proof (linv_bounds _ _ _ H) as (Hb1 & Hb2 & Hb3).
  destruct (Ht _ E) as (w & Hw & Ew). assert (v = w) as ->; [|lia]. apply (ring_inj c y q); auto; lia.
Qed.

Lemma flight_pos c y q f : linv c y q -> f ∈ (snd <$> q) -> exists k s, q !! k = Some (s, f) /\ fl_id f = (l_cnext y + k)%nat.
Proof.
  intros H Hf. apply elem_of_list_fmap in Hf as ([s f'] & -> & Hin). apply elem_of_list_lookup in Hin as [k Hk]. exists k, s. split; [exact Hk|]. eapply (i_ids _ _ _ H); exact Hk.
Qed.
Lemma same_flight c y q f f' : linv c y q -> f ∈ (snd <$> q) -> f' ∈ (snd <$> q) -> fl_id f = fl_id f' -> f = f'.
Proof.
  intros H Hf Hf' E. destruct (flight_pos _ _ _ _ H Hf) as (k & s & Hk & Ek). destruct (flight_pos _ _ _ _ H Hf') as (k' & s' & Hk' & Ek').
  assert (k = k') as -> by lia. rewrite Hk in Hk'. injection Hk' as -> ->. reflexivity.
Qed.

(** A step of the device writes: flight [f] changes [dev] to [dev']. *)
Lemma linv_device c y q k s f dev' fs' : good_conf c -> linv c y q -> q !! k = Some (s, f) ->
  (f, false) ∈ l_flights y ->
  (forall a, flight_touches f a = false -> dev' a = l_dev y a) ->
  (forall f' b, (f', b) ∈ fs' -> exists b', (f', b') ∈ l_flights y) ->
  (forall f', (f', true) ∈ fs' -> f' <> f -> (f', true) ∈ l_flights y) ->
  ((f, true) ∈ fs' -> laid (lc_len c) (lc_spage c) (l_maxflush y) dev' s (snd <$> fl_tasks f) (fl_newtail f)) ->
  NoDup (fl_id ∘ fst <$> fs') ->
  linv c (set_flights y dev' (l_writer y) fs' (l_backlog y) (l_maxflush y)) q.
Proof.
  intros Hc H Hk Hin Hd Hsub Htrue Hnew Hnd. pose proof Hc as (HL & _). pose proof (linv_bounds _ _ _ H) as (Hb1 & Hb2 & Hb3).
  destruct (chain_lookup _ _ _ _ _ _ _ _ (i_chain _ _ _ H) Hk) as (Hfok & Hs1 & Hs2).
  pose proof (other_ranges c y q k s f dev' Hc H Hk Hd) as Hext.
  constructor; unfold set_flights; cbn [l_dev l_page l_head l_tail l_writer l_flights l_backlog l_cnext l_apply l_commit l_acked l_hist l_nhead l_ncommit l_ntail l_maxflush].
  all: try (destruct H; assumption).
  - eapply laid_ext; [exact HL|exact (i_old _ _ _ H)|]. apply Hext; [lia|lia|left; lia].
  - eapply laid_ext; [exact HL|exact (i_new _ _ _ H)|]. apply Hext; [lia|lia|left; lia].
  - intros f' b Hf'. destruct (Hsub _ _ Hf') as [b' Hb']. eapply (i_flights _ _ _ H); exact Hb'.
  - intros k' s' f' Hk' Hcomp. destruct (decide (f' = f)) as [->|Hne].
    + destruct Hcomp as [Hcomp|Hcomp]; cbn in Hcomp.
      * assert (k' = k) as ->. { pose proof (proj1 (i_ids _ _ _ H) _ _ _ Hk). pose proof (proj1 (i_ids _ _ _ H) _ _ _ Hk'). lia. }
        rewrite Hk in Hk'. injection Hk' as ->. apply Hnew. exact Hcomp.
      * exfalso. pose proof (proj2 (i_flights _ _ _ H _ _ Hin)). congruence.
    + destruct (chain_lookup _ _ _ _ _ _ _ _ (i_chain _ _ _ H) Hk') as (Hfok' & Hs1' & Hs2').
      eapply laid_ext; [exact HL|apply (i_done _ _ _ H k' s' f' Hk')|].
      * destruct Hcomp as [Hcomp|Hcomp]; cbn in Hcomp; [left; apply Htrue; assumption|right; exact Hcomp].
      * apply Hext; [lia|lia|]. destruct (Nat.lt_trichotomy k k') as [Hlt|[->|Hlt]].
        -- right. eapply chain_order; [exact (i_chain _ _ _ H)|exact Hk|exact Hk'|exact Hlt].
        -- exfalso. rewrite Hk in Hk'. congruence.
        -- left. eapply chain_order; [exact (i_chain _ _ _ H)|exact Hk'|exact Hk|exact Hlt].
Qed.

(** Drain takes a prefix of the queue. *)
Lemma drain_spec fuel bl next fs bl' next' (q : list (N * flight)) : drain fuel bl next = (fs, bl', next') ->
  (forall k s f, q !! k = Some (s, f) -> fl_id f = (next + k)%nat) ->
  (forall n f, bl !! n = Some f -> f ∈ (snd <$> q) /\ fl_id f = n) ->
  exists q1 q2, q = q1 ++ q2 /\ fs = snd <$> q1 /\ next' = (next + length q1)%nat /\
    (forall s f, (s, f) ∈ q1 -> bl !! fl_id f = Some f) /\
    (forall n, bl' !! n = if decide (next <= n < next')%nat then None else bl !! n).
Proof.
  revert bl next fs q. induction fuel as [|fuel IH]; intros bl next fs q E Hid Hbl; cbn [drain] in E.
  - injection E as <- <- <-. exists [], q. split; [reflexivity|]. split; [reflexivity|]. split; [cbn; lia|]. split; [intros s f Hx; inversion Hx|].
    intros n. destruct (decide _); [lia|reflexivity].
  - destruct (bl !! next) as [f|] eqn:Ef.
    + destruct (drain fuel (delete next bl) (S next)) as [[l b] n] eqn:Ed. injection E as <- <- <-.
      destruct (Hbl _ _ Ef) as [Hin Hfid]. apply elem_of_list_fmap in Hin as ([s f'] & -> & Hin). apply elem_of_list_lookup in Hin as [k Hk]. cbn in *.
      pose proof (Hid _ _ _ Hk) as Ek. assert (k = 0%nat) as -> by lia. destruct q as [|[s0 f0] q]; [discriminate Hk|]. cbn in Hk. injection Hk as -> ->.
      destruct (IH _ _ _ q Ed) as (q1 & q2 & -> & -> & En & H1 & H2).
      * intros k s0 f0 Hk0. specialize (Hid (S k) s0 f0 Hk0). lia.
      * intros n0 f0 Hn0. apply lookup_delete_Some in Hn0 as [Hne Hn0]. destruct (Hbl _ _ Hn0) as [Hin Hi]. split; [|exact Hi].
        rewrite fmap_cons in Hin. apply elem_of_cons in Hin as [->|Hin]; [exfalso; cbn in Hi; congruence|exact Hin].
      * exists ((s, f') :: q1), q2. split; [reflexivity|]. split; [reflexivity|]. split; [cbn [length]; lia|]. split.
        -- intros s1 f1 Hx. apply elem_of_cons in Hx as [E1|Hx]; [injection E1 as -> ->; rewrite Hfid; exact Ef|].
           specialize (H1 _ _ Hx). apply lookup_delete_Some in H1 as [_ H1]. exact H1.
        -- intros m. rewrite H2. destruct (decide (S next <= m < n)%nat), (decide (next <= m < n)%nat); try lia; try reflexivity.
           ++ assert (m = next) as -> by lia. apply lookup_delete.
           ++ destruct (decide (m = next)) as [->|Hm]; [lia|]. apply lookup_delete_ne. congruence.
    + injection E as <- <- <-. exists [], q. split; [reflexivity|]. split; [reflexivity|]. split; [cbn; lia|]. split; [intros s f Hx; inversion Hx|].
      intros n. destruct (decide _); [lia|reflexivity].
Qed.

Lemma chain_laid c M dev from q to : chain c M from q to ->
  (forall k s f, q !! k = Some (s, f) -> laid (lc_len c) (lc_spage c) M dev s (snd <$> fl_tasks f) (fl_newtail f)) ->
  laid (lc_len c) (lc_spage c) M dev from (snd <$> concat (fl_tasks ∘ snd <$> q)) to.
Proof.
  revert from. induction q as [|[s f] q IH]; intros from; cbn [chain]; intros H Hl.
  - subst. constructor.
  - destruct H as (-> & _ & H). rewrite fmap_cons. cbn [concat compose snd]. rewrite fmap_app. eapply laid_app; [apply (Hl 0%nat _ _ eq_refl)|].
    apply IH; [exact H|]. intros k s' f' Hk. apply (Hl (S k)). exact Hk.
Qed.
Lemma chain_last c M from q to f : chain c M from q to -> last (snd <$> q) = Some f -> fl_newtail f = to.
Proof.
  revert from. induction q as [|[s f0] q IH]; intros from; cbn [chain]; intros H E; [discriminate E|].
  destruct H as (_ & _ & H). rewrite fmap_cons in E. destruct q as [|[s1 f1] q].
  - cbn in E. injection E as ->. exact H.
  - rewrite fmap_cons, last_cons_cons in E. eapply IH; [exact H|]. rewrite fmap_cons. exact E.
Qed.

Lemma writer_ok_recv w n t w' : writer_ok w -> valid_task t -> writer_recv w n t = Some w' ->
  writer_ok w' /\ w_pending w' = w_pending w ++ [(n, t)] /\ w_vtail w' = w_vtail w /\ w_next w' = w_next w.
Proof.
  intros (ss & Hs & Hb & Hv) Ht. unfold writer_recv. destruct (task_serialise t) as [s|] eqn:E; [|discriminate]. cbn [mbind option_bind].
  intros Ew. apply (inj Some) in Ew. subst w'. cbn [w_pending w_vtail w_next]. split; [|auto]. exists (ss ++ [s]). cbn [w_pending w_buf]. rewrite fmap_app.
  split; [|split].
  - apply mapM_Some. apply mapM_Some in Hs. apply Forall2_app; [exact Hs|]. constructor; [exact E|constructor].
  - rewrite concat_app, Hb. cbn. rewrite app_nil_r. reflexivity.
  - apply Forall_app. split; [exact Hv|]. constructor; [exact Ht|constructor].
Qed.

Ltac lcbn := cbn [l_dev l_page l_head l_tail l_writer l_flights l_backlog l_cnext l_apply l_commit l_acked l_hist l_nhead l_ncommit l_ntail l_maxflush].

Lemma nodup_insert_id (fs : list (flight * bool)) i f b b' : fs !! i = Some (f, b) -> fl_id ∘ fst <$> <[i := (f, b')]> fs = fl_id ∘ fst <$> fs.
Proof.
  intros H. rewrite list_fmap_insert. apply list_insert_id. rewrite list_lookup_fmap, H. reflexivity.
Qed.
Lemma elem_fst_id (fs : list (flight * bool)) i j f b b' f' : NoDup (fl_id ∘ fst <$> fs) -> fs !! i = Some (f, b) -> fs !! j = Some (f', b') -> fl_id f = fl_id f' -> i = j.
Proof.
  intros Hn Hi Hj E. apply (NoDup_lookup _ i j (fl_id f) Hn); rewrite list_lookup_fmap; [rewrite Hi|rewrite Hj]; cbn; congruence.
Qed.

Lemma NoDup_sublist {A} (l k : list A) : l `sublist_of` k -> NoDup k -> NoDup l.
Proof.
  induction 1 as [|x l k H IH|x l k H IH]; intros Hn; [constructor| |].
  - apply NoDup_cons in Hn as [Hx Hn]. apply NoDup_cons. split; [|auto]. intros Hin. apply Hx. eapply sublist_submseteq, elem_of_submseteq in H; [exact H|exact Hin].
  - apply NoDup_cons in Hn as [_ Hn]. auto.
Qed.
Lemma NoDup_delete {A} (l : list A) i : NoDup l -> NoDup (delete i l).
Proof. apply NoDup_sublist, sublist_delete. Qed.

Lemma lstep_linv c y q e y' : good_conf c -> valid_levent c e -> linv c y q -> lstep c y e = Some y' -> exists q', linv c y' q'.
Proof.
  intros Hc He H E. pose proof Hc as (HL & HLa & HB & HBa & Hsp). pose proof (linv_bounds _ _ _ H) as (Hb1 & Hb2 & Hb3).
  pose proof (i_room _ _ _ H) as [Hr1 Hr2].
  assert (l_head y <= w_vtail (l_writer y)) as Hhv by (clear -Hb1 Hb2 Hb3; lia). destruct e as [t|junk wjunk|i v|i|i|junk| |th|junk| ]; cbn [lstep valid_levent] in *.
  - (* ERecv *)
    destruct (writer_recv _ _ _) as [w|] eqn:Ew; [|discriminate E]. cbn [mbind option_bind] in E. apply (inj Some) in E. subst y'.
    destruct (writer_ok_recv _ _ _ _ (i_writer _ _ _ H) He Ew) as (Hw & Hpd & Hvt & Hnx).
    pose proof (i_ord _ _ _ H) as (Ho1 & Ho2 & Ho3).
    exists q. constructor; unfold set_writer; lcbn; rewrite ?Hvt, ?Hnx, ?Hpd; try (destruct H; assumption).
    + apply Forall_app. split; [apply H|]. constructor; [exact He|constructor].
    + rewrite app_length. cbn [length]. slia.
    + rewrite slice_snoc_ext by slia. apply H.
    + rewrite slice_snoc_ext by slia. apply H.
    + rewrite app_assoc, (i_tasks _ _ _ H). rewrite drop_app_le by exact Ho3. rewrite index_from_app. f_equal. cbn. rewrite drop_length. do 2 f_equal. slia.
    + rewrite slice_snoc_ext by slia. apply H.
  - (* EFlush *)
    destruct (writer_flush _ _ _ _ _) as [[w f]|] eqn:Ew; [|discriminate E]. cbn [mbind option_bind] in E. apply (inj Some) in E. subst y'.
    pose proof (i_align _ _ _ H) as (Ha1 & Ha2 & Ha3).
    pose proof (chain_aligned _ _ _ _ _ (i_chain _ _ _ H) Ha3) as Hva.
    destruct (writer_flush_ok _ _ _ _ _ _ _ Hc Hva Hhv (i_writer _ _ _ H) Ew) as (Hfok & Hnt & Hid & Hnx & Htk & Hpd & Hbf & Hrm & H64).
    set (M' := N.max (l_maxflush y) (N.of_nat (length (fl_data f)))).
    assert (l_maxflush y <= M') as HM1 by (clear; slia). assert (N.of_nat (length (fl_data f)) <= M') as HM2 by (clear; slia).
    pose proof (i_ids _ _ _ H) as (Hi1 & Hi2).
    assert (forall f' b, (f', b) ∈ l_flights y -> fl_id f' <> fl_id f) as Hnew.
    { intros f' b Hf'. apply (i_flights _ _ _ H) in Hf' as [Hf' _]. destruct (flight_pos _ _ _ _ H Hf') as (k & s & Hk & Ek). apply lookup_lt_Some in Hk. slia. }
    assert (l_backlog y !! fl_id f = None) as Hbl.
    { destruct (l_backlog y !! fl_id f) as [f'|] eqn:Eb; [|reflexivity]. destruct (i_backlog _ _ _ H _ _ Eb) as [Hf' Hfi]. destruct (flight_pos _ _ _ _ H Hf') as (k & s & Hk & Ek). apply lookup_lt_Some in Hk. slia. }
    exists (q ++ [(w_vtail (l_writer y), f)]). constructor; unfold set_flights; lcbn; rewrite ?Hnx, ?Hpd; try (destruct H; assumption).
    + eapply laid_mono; [exact HM1|apply H].
    + eapply laid_mono; [exact HM1|apply H].
    + apply chain_app. exists (w_vtail (l_writer y)). split; [eapply chain_mono; [exact HM1|apply H]|]. cbn. split; [reflexivity|]. split; [eapply flight_ok_mono; eassumption|exact Hnt].
    + auto.
    + split; [|rewrite app_length; cbn [length]; slia].
      intros k s f' Hk. apply lookup_app_Some in Hk as [Hk|[Hge Hk]]; [eapply Hi1; exact Hk|].
      destruct (k - length q)%nat as [|x] eqn:Ex; [|destruct x; discriminate Hk]. cbn in Hk. injection Hk as <- <-. slia.
    + intros f' b Hf'. rewrite fmap_app. apply elem_of_app in Hf' as [Hf'|Hf'].
      * destruct (i_flights _ _ _ H _ _ Hf') as [? ?]. split; [apply elem_of_app; auto|assumption].
      * apply elem_of_list_singleton in Hf'. injection Hf' as -> ->. split; [apply elem_of_app; right; left|exact Hbl].
    + rewrite fmap_app. apply NoDup_app. split; [apply H|]. split; [|apply NoDup_singleton].
      intros x Hx Hx'. apply elem_of_list_singleton in Hx'. apply elem_of_list_fmap in Hx as ([f' b] & -> & Hin). cbn in Hx'. eapply Hnew; [exact Hin|exact Hx'].
    + intros n f' Hf'. destruct (i_backlog _ _ _ H _ _ Hf') as [? ?]. split; [rewrite fmap_app; apply elem_of_app; auto|assumption].
    + intros k s f' Hk Hcomp. apply lookup_app_Some in Hk as [Hk|[Hge Hk]].
      * eapply laid_mono; [exact HM1|]. apply (i_done _ _ _ H k s f' Hk). destruct Hcomp as [Hcomp|Hcomp]; cbn in Hcomp; [left|right; exact Hcomp].
        apply elem_of_app in Hcomp as [Hcomp|Hcomp]; [exact Hcomp|]. apply elem_of_list_singleton in Hcomp. discriminate Hcomp.
      * destruct (k - length q)%nat as [|x] eqn:Ex; [|destruct x; discriminate Hk]. cbn in Hk. injection Hk as <- <-.
        exfalso. destruct Hcomp as [Hcomp|Hcomp]; cbn in Hcomp; [|congruence].
        apply elem_of_app in Hcomp as [Hcomp|Hcomp]; [eapply Hnew; [exact Hcomp|reflexivity]|]. apply elem_of_list_singleton in Hcomp. discriminate Hcomp.
    + exists []. rewrite Hpd, Hbf. cbn. split; [reflexivity|]. split; [reflexivity|constructor].
    + rewrite app_nil_r, fmap_app, concat_app. cbn. rewrite app_nil_r, Htk. apply H.
  - (* ETorn *)
    destruct (l_flights y !! i) as [[f fin]|] eqn:Ef; [|discriminate E]. cbn [mbind option_bind] in E. destruct fin; [discriminate E|]. apply (inj Some) in E. subst y'.
    assert ((f, false) ∈ l_flights y) as Hin by (eapply elem_of_list_lookup_2; exact Ef).
    destruct (i_flights _ _ _ H _ _ Hin) as [Hfq _]. destruct (flight_pos _ _ _ _ H Hfq) as (k & s & Hk & _).
    exists q. apply (linv_device c y q k s f _ (l_flights y) Hc H Hk Hin).
    + intros a Ha. rewrite Ha. reflexivity.
    + eauto.
    + auto.
    + intros Ht. exfalso. apply elem_of_list_lookup in Ht as [j Hj]. pose proof (elem_fst_id _ _ _ _ _ _ _ (i_nodup _ _ _ H) Ef Hj eq_refl) as ->. rewrite Ef in Hj. discriminate Hj.
    + apply H.
  - (* EFinish *)
    destruct (l_flights y !! i) as [[f fin]|] eqn:Ef; [|discriminate E]. cbn [mbind option_bind] in E. destruct fin; [discriminate E|].
    destruct (flight_write c (l_dev y) f) as [dev|] eqn:Ed; [|discriminate E]. cbn [mbind option_bind] in E. apply (inj Some) in E. subst y'.
    assert ((f, false) ∈ l_flights y) as Hin by (eapply elem_of_list_lookup_2; exact Ef).
    destruct (i_flights _ _ _ H _ _ Hin) as [Hfq _]. destruct (flight_pos _ _ _ _ H Hfq) as (k & s & Hk & _).
    destruct (chain_lookup _ _ _ _ _ _ _ _ (i_chain _ _ _ H) Hk) as ((Hfw & _) & _).
    exists q. apply (linv_device c y q k s f _ _ Hc H Hk Hin).
    + intros a Ha. eapply flight_write_out; eassumption.
    + intros f' b Hf'. apply elem_of_list_lookup in Hf' as [j Hj]. destruct (decide (i = j)) as [<-|Hne].
      * rewrite list_lookup_insert in Hj by (eapply lookup_lt_Some; exact Ef). injection Hj as <- <-. eauto.
      * rewrite list_lookup_insert_ne in Hj by exact Hne. exists b. eapply elem_of_list_lookup_2; exact Hj.
    + intros f' Hf' Hne'. apply elem_of_list_lookup in Hf' as [j Hj]. destruct (decide (i = j)) as [<-|Hne].
      * rewrite list_lookup_insert in Hj by (eapply lookup_lt_Some; exact Ef). injection Hj as <-. congruence.
      * rewrite list_lookup_insert_ne in Hj by exact Hne. eapply elem_of_list_lookup_2; exact Hj.
    + intros _. eapply Hfw. exact Ed.
    + rewrite (nodup_insert_id _ _ _ _ _ Ef). apply H.
  - (* EHand *)
    destruct (l_flights y !! i) as [[f fin]|] eqn:Ef; [|discriminate E]. cbn [mbind option_bind] in E. destruct fin; [|discriminate E]. cbn [negb] in E.
    destruct (l_backlog y !! fl_id f) eqn:Eb; [discriminate E|]. apply (inj Some) in E. subst y'.
    assert ((f, true) ∈ l_flights y) as Hin by (eapply elem_of_list_lookup_2; exact Ef).
    destruct (i_flights _ _ _ H _ _ Hin) as [Hfq _].
    assert (forall f' b, (f', b) ∈ delete i (l_flights y) -> (f', b) ∈ l_flights y /\ fl_id f' <> fl_id f) as Hdel.
    { intros f' b Hf'. apply elem_of_list_lookup in Hf' as [j Hj]. 
      destruct (decide (j < i)%nat).
      - rewrite lookup_delete_lt in Hj by assumption. split; [eapply elem_of_list_lookup_2; exact Hj|].
        intros Eid. pose proof (elem_fst_id _ _ _ _ _ _ _ (i_nodup _ _ _ H) Hj Ef Eid). slia.
      - rewrite lookup_delete_ge in Hj by slia. split; [eapply elem_of_list_lookup_2; exact Hj|].
        intros Eid. pose proof (elem_fst_id _ _ _ _ _ _ _ (i_nodup _ _ _ H) Hj Ef Eid). slia. }
    exists q. constructor; unfold set_flights; lcbn; try (destruct H; assumption).
    + intros f' b Hf'. destruct (Hdel _ _ Hf') as [Hf'' Hne]. destruct (i_flights _ _ _ H _ _ Hf'') as [? ?]. split; [assumption|]. rewrite lookup_insert_ne by congruence. assumption.
    + rewrite list_fmap_delete. apply NoDup_delete, H.
    + intros n f' Hf'. destruct (decide (n = fl_id f)) as [->|Hne].
      * rewrite lookup_insert in Hf'. injection Hf' as <-. auto.
      * rewrite lookup_insert_ne in Hf' by congruence. apply (i_backlog _ _ _ H _ _ Hf').
    + intros k s f' Hk Hcomp. apply (i_done _ _ _ H k s f' Hk). destruct Hcomp as [Hcomp|Hcomp]; cbn in Hcomp.
      * left. apply (Hdel _ _ Hcomp).
      * destruct (decide (fl_id f' = fl_id f)) as [Eid|Hne].
        -- left. rewrite Eid, lookup_insert in Hcomp. injection Hcomp as ->. exact Hin.
        -- right. rewrite lookup_insert_ne in Hcomp by congruence. exact Hcomp.
  - (* EComplete *)
    destruct (l_apply y) as [|x l] eqn:Eap; [|discriminate E]. cbn [length Nat.eqb negb] in E.
    destruct (drain _ _ _) as [[fs bl] next] eqn:Edr.
    destruct (last fs) as [f|] eqn:Elast; [|discriminate E]. cbn [mbind option_bind] in E.
    destruct (state_page junk (l_head y) (fl_newtail f)) as [page|] eqn:Epg; [|discriminate E]. cbn [mbind option_bind] in E. apply (inj Some) in E. subst y'.
    pose proof (i_ids _ _ _ H) as (Hi1 & Hi2). pose proof (i_ord _ _ _ H) as (Ho1 & Ho2 & Ho3). pose proof (i_align _ _ _ H) as (Ha1 & Ha2 & Ha3).
    destruct (drain_spec _ _ _ _ _ _ q Edr Hi1 (i_backlog _ _ _ H)) as (q1 & q2 & Eq & -> & -> & Hq1 & Hbl).
    pose proof (i_chain _ _ _ H) as Hch. rewrite Eq in Hch. apply chain_app in Hch as (m & Hc1 & Hc2).
    pose proof (chain_last _ _ _ _ _ _ Hc1 Elast) as Em. rewrite Em in *.
    pose proof (chain_le _ _ _ _ _ Hc1) as Hm1. pose proof (chain_le _ _ _ _ _ Hc2) as Hm2.
    assert (concat (fl_tasks <$> (snd <$> q1)) = concat (fl_tasks ∘ snd <$> q1)) as Etk by (rewrite <- list_fmap_compose; reflexivity).
    rewrite Etk. set (T := concat (fl_tasks ∘ snd <$> q1)) in *.
    pose proof (i_tasks _ _ _ H) as Ht. rewrite Eq, fmap_app, concat_app in Ht. fold T in Ht. rewrite <- app_assoc in Ht.
    apply index_from_split in Ht as [Ht1 Ht2]. rewrite drop_drop in Ht2.
    assert (length T <= length (l_hist y) - l_ntail y)%nat as HTl.
    { rewrite Ht1. rewrite index_from_length, take_length, drop_length. slia. }
    assert (laid (lc_len c) (lc_spage c) (l_maxflush y) (l_dev y) (l_tail y) (slice (l_hist y) (l_ntail y) (l_ntail y + length T)) m) as Hlaid.
    { assert (slice (l_hist y) (l_ntail y) (l_ntail y + length T) = snd <$> T) as ->.
      { rewrite Ht1 at 2. rewrite index_from_snd. unfold slice. f_equal. slia. }
      apply (chain_laid _ _ _ _ _ _ Hc1). intros k s f' Hk. apply (i_done _ _ _ H k s f'); [rewrite Eq; apply lookup_app_l_Some; exact Hk|].
      right. eapply Hq1. eapply elem_of_list_lookup_2; exact Hk. }
    exists q2. constructor; lcbn; try (destruct H; assumption).
    + eapply state_page_read; [exact Epg| |]; (eapply N.le_lt_trans; [|exact Hr2]); slia.
    + slia.
    + rewrite <- (slice_app _ _ (l_ntail y)) by slia. eapply laid_app; [apply H|exact Hlaid].
    + split; [exact Ha1|]. split; [exact Ha2|]. eapply chain_aligned; [exact Hc1|exact Ha3].
    + split; [|rewrite Eq, app_length in Hi2; slia]. intros k s f' Hk. rewrite (Hi1 (length q1 + k)%nat s f'); [slia|]. rewrite Eq. rewrite lookup_app_r by slia. replace (length q1 + k - length q1)%nat with k by slia. exact Hk.
    + intros f' b Hf'. destruct (i_flights _ _ _ H _ _ Hf') as [Hin Hno]. split.
      * rewrite Eq, fmap_app in Hin. apply elem_of_app in Hin as [Hin|Hin]; [|exact Hin]. apply elem_of_list_fmap in Hin as ([s f''] & -> & Hin). cbn in *. rewrite (Hq1 _ _ Hin) in Hno. discriminate Hno.
      * rewrite Hbl. destruct (decide _); [reflexivity|exact Hno].
    + intros n f' Hf'. rewrite Hbl in Hf'. destruct (decide _) as [|Hn]; [discriminate Hf'|]. destruct (i_backlog _ _ _ H _ _ Hf') as [Hin Hfi]. split; [|exact Hfi].
      destruct (flight_pos _ _ _ _ H Hin) as (k & s & Hk & Ek). rewrite Eq in Hk. apply lookup_app_Some in Hk as [Hk|[Hge Hk]].
      * apply lookup_lt_Some in Hk. slia.
      * apply elem_of_list_fmap. exists (s, f'). split; [reflexivity|]. eapply elem_of_list_lookup_2; exact Hk.
    + intros k s f' Hk Hcomp. apply (i_done _ _ _ H (length q1 + k)%nat s f').
      * rewrite Eq. rewrite lookup_app_r by slia. replace (length q1 + k - length q1)%nat with k by slia. exact Hk.
      * destruct Hcomp as [Hcomp|Hcomp]; cbn in Hcomp; [left; exact Hcomp|right]. rewrite Hbl in Hcomp. destruct (decide _); [discriminate Hcomp|exact Hcomp].
    + split; [slia|]. replace (l_ntail y + length T - length T)%nat with (l_ntail y) by slia. rewrite Ht1 at 1. f_equal. unfold slice. f_equal. slia.
    + replace (l_ntail y + length T - length T)%nat with (l_ntail y) by slia. pose proof (i_acked _ _ _ H) as Hack. rewrite Eap in Hack. cbn [length] in Hack. rewrite Nat.sub_0_r in Hack. exact Hack.
  - (* EApply *)
    destruct (l_apply y) as [|[n t] rest] eqn:Eap; [discriminate E|]. apply (inj Some) in E. subst y'.
    pose proof (i_apply _ _ _ H) as [Hal Hap]. rewrite Eap in Hal, Hap. pose proof (i_ord _ _ _ H) as (Ho1 & Ho2 & Ho3). cbn [length] in Hal, Hap.
    set (a := (l_ntail y - S (length rest))%nat) in *.
    assert (slice (l_hist y) a (l_ntail y) = slice (l_hist y) a (S a) ++ slice (l_hist y) (S a) (l_ntail y)) as Esp by (rewrite slice_app by slia; reflexivity).
    rewrite Esp in Hap. unfold slice in Hap at 1. replace (S a - a)%nat with 1%nat in Hap by slia.
    destruct (drop a (l_hist y)) as [|t0 tl] eqn:Edrop.
    { exfalso. apply (f_equal length) in Edrop. rewrite drop_length in Edrop. cbn in Edrop. slia. }
    cbn [take app index_from] in Hap. injection Hap as -> -> Hrest.
    exists q. constructor; lcbn; try (destruct H; assumption).
    + split; [slia|]. replace (l_ntail y - length rest)%nat with (S a) by slia. exact Hrest.
    + replace (l_ntail y - length rest)%nat with (S a) by slia. apply Forall_app. split; [|constructor; [slia|constructor]].
      eapply Forall_impl; [exact (i_acked _ _ _ H)|]. intros x. rewrite Eap. cbn [length]. fold a. slia.
  - (* ECommitStart *)
    destruct (l_apply y) as [|x l] eqn:Eap; [|discriminate E]. destruct (l_commit y) as [ct|] eqn:Ect; [discriminate E|].
    destruct (th <=? l_tail y - l_head y); [|discriminate E]. apply (inj Some) in E. subst y'.
    pose proof (i_ord _ _ _ H) as (Ho1 & Ho2 & Ho3). pose proof (i_align _ _ _ H) as (Ha1 & Ha2 & Ha3).
    pose proof (i_commit _ _ _ H Ect) as Enc.
    exists q. constructor; lcbn; try (destruct H; assumption).
    + slia.
    + discriminate.
    + change (default (l_head y) (Some (l_tail y))) with (l_tail y). pose proof (i_new _ _ _ H) as Hn. rewrite Ect, Enc in Hn. exact Hn.
    + change (default (l_head y) (Some (l_tail y))) with (l_tail y). rewrite slice_nil. constructor.
    + auto.
    + pose proof (i_apply _ _ _ H) as Hap. rewrite Eap in Hap. exact Hap.
    + pose proof (i_acked _ _ _ H) as Hap. rewrite Eap in Hap. exact Hap.
  - (* ECommitEnd *)
    destruct (l_commit y) as [ct|] eqn:Ect; [|discriminate E]. cbn [mbind option_bind] in E.
    destruct (state_page junk ct (l_tail y)) as [page|] eqn:Epg; [|discriminate E]. cbn [mbind option_bind] in E. apply (inj Some) in E. subst y'.
    change (default (l_head y) (Some ct)) with ct in *.
    pose proof (i_ord _ _ _ H) as (Ho1 & Ho2 & Ho3). pose proof (i_align _ _ _ H) as (Ha1 & Ha2 & Ha3). rewrite Ect in Ha2. change (default (l_head y) (Some ct)) with ct in Ha2.
    exists q. constructor; lcbn; cbn [default]; try (destruct H; assumption).
    + eapply state_page_read; [exact Epg| |]; (eapply N.le_lt_trans; [|exact Hr2]); [clear -Hb2 Hb3|clear -Hb3]; lia.
    + slia.
    + auto.
    + rewrite slice_nil. constructor.
    + pose proof (i_new _ _ _ H) as Hn. rewrite Ect in Hn. exact Hn.
    + auto.
    + split; [clear -Hr1 Hb1; slia|exact Hr2].
  - (* ECrash *)
    unfold log_open in E. destruct (log_load c (l_page y) (l_dev y)) as [[[h t] ops]|] eqn:El; [|discriminate E]. cbn [mbind option_bind] in E. apply (inj Some) in E. subst y'.
    assert (h = l_head y /\ t = l_tail y) as [-> ->].
    { unfold log_load in El. rewrite (i_page _ _ _ H) in El. cbn [mbind option_bind] in El. destruct (_ || _); [discriminate El|].
      destruct (replay _ _ _ _ _); [|discriminate El]. cbn [mbind option_bind] in El. apply (inj Some) in El. injection El as <- <- _. auto. }
    pose proof (i_ord _ _ _ H) as (Ho1 & Ho2 & Ho3). pose proof (i_align _ _ _ H) as (Ha1 & Ha2 & Ha3).
    exists []. constructor; lcbn; cbn [default w_vtail w_next w_pending].
    + apply H.
    + apply Forall_take, H.
    + rewrite take_length. slia.
    + auto.
    + rewrite slice_nil. constructor.
    + rewrite slice_take by slia. rewrite <- (slice_app _ _ (l_ncommit y)) by slia. eapply laid_app; apply H.
    + auto.
    + reflexivity.
    + split; [clear -Hr1 Hb3; lia|eapply N.le_lt_trans; [|exact Hr2]; exact Hb3].
    + split; [intros k s f Hk; discriminate Hk|reflexivity].
    + intros f b Hf. inversion Hf.
    + constructor.
    + intros n f Hf. rewrite lookup_empty in Hf. discriminate Hf.
    + intros k s f Hk. discriminate Hk.
    + exists []. cbn. split; [reflexivity|]. split; [reflexivity|constructor].
    + cbn. rewrite drop_ge by (rewrite take_length; slia). reflexivity.
    + cbn. split; [slia|]. rewrite Nat.sub_0_r, slice_nil. reflexivity.
    + cbn. eapply Forall_impl; [exact (i_acked _ _ _ H)|]. cbn. intros; slia.
Qed.

Lemma lrun_snoc c y es e : lrun c y (es ++ [e]) = (y' ← lrun c y es; lstep c y' e).
Proof. unfold lrun. rewrite foldl_app. reflexivity. Qed.

Lemma log_format_Some c dev : good_conf c -> exists y, log_format c dev = Some y /\ l_head y = 0 /\ l_tail y = 0 /\ linv c y [].
Proof.
  intros (HL & HLa & HB & HBa & Hsp). unfold log_format, log_open, log_load.
  assert (state_read (replicate (N.to_nat (2 ^ lc_spage c)) 0) = Some (0, 0)) as Er.
  { assert (16 <= 2 ^ lc_spage c) as H16.
    { change 16 with (2 ^ 4). apply N.pow_le_mono_r; [discriminate|]. clear -Hsp; lia. }
    remember (N.to_nat (2 ^ lc_spage c)) as n eqn:En. assert (16 <= n)%nat as Hn by (clear -H16 En; gpow; lia). clear -Hn.
    assert (forall o, (o + 8 <= n)%nat -> buf_read (replicate n 0) (N.of_nat o) 8 = Some (replicate 8 0)) as Hrd.
    { intros o Ho. unfold buf_read. rewrite replicate_length. destruct (N.leb_spec (N.of_nat o + 8) (N.of_nat n)) as [_|Hx]; [|lia]. rewrite drop_replicate, take_replicate. do 2 f_equal. lia. }
    unfold state_read. change (buf_read (replicate n 0) 0 8) with (buf_read (replicate n 0) (N.of_nat 0) 8). rewrite Hrd by lia. cbn [mbind option_bind]. change (buf_read (replicate n 0) 8 8) with (buf_read (replicate n 0) (N.of_nat 8) 8). rewrite Hrd by lia. reflexivity. }
  rewrite Er. cbn [mbind option_bind]. rewrite mod_pow2_spec, N.mod_0_l by apply pow2_nz. cbn [negb N.eqb orb N.ltb N.compare].
  change (N.to_nat (0 - 0)) with 0%nat. cbn [replay lb_base lb_drained]. change (0 + 0 =? 0) with true. cbv iota. cbn [mbind option_bind].
  eexists. split; [reflexivity|]. lcbn. split; [reflexivity|]. split; [reflexivity|].
  constructor; lcbn; cbn [default w_vtail w_next w_pending length concat fmap list_fmap app drop index_from].
  - exact Er.
  - constructor.
  - lia.
  - reflexivity.
  - rewrite slice_nil. constructor.
  - rewrite slice_nil. constructor.
  - rewrite N.mod_0_l by apply pow2_nz. auto.
  - reflexivity.
  - split; [exact HL|reflexivity].
  - split; [intros k s f Hk; discriminate Hk|reflexivity].
  - intros f b Hf. inversion Hf.
  - constructor.
  - intros n f Hf. rewrite lookup_empty in Hf. discriminate Hf.
  - intros k s f Hk. discriminate Hk.
  - exists []. cbn. split; [reflexivity|]. split; [reflexivity|constructor].
  - reflexivity.
  - split; [lia|]. rewrite slice_nil. reflexivity.
  - constructor.
Qed.

Theorem lrun_linv c dev y0 es y : good_conf c -> log_format c dev = Some y0 -> Forall (valid_levent c) es -> lrun c y0 es = Some y -> exists q, linv c y q.
Proof.
  intros Hc H0. revert y. induction es as [|e es IH] using rev_ind; intros y Hv Hr.
  - cbn in Hr. apply (inj Some) in Hr. subst y. destruct (log_format_Some c dev Hc) as (y1 & E & _ & _ & H). rewrite H0 in E. apply (inj Some) in E. subst y1. eauto.
  - rewrite lrun_snoc in Hr. destruct (lrun c y0 es) as [y1|] eqn:E; [|discriminate Hr]. cbn [mbind option_bind] in Hr.
    apply Forall_app in Hv as [Hv He]. inversion He as [|? ? He' _]; subst. destruct (IH y1 Hv eq_refl) as [q Hq]. exact (lstep_linv c y1 q e y Hc He' Hq Hr).
Qed.

Theorem linv_load c y q : good_conf c -> linv c y q -> l_maxflush y <= lc_bufsize c ->
  log_load c (l_page y) (l_dev y) = Some (l_head y, l_tail y, slice (l_hist y) (l_nhead y) (l_ntail y)).
Proof.
  intros Hc H HM. pose proof Hc as (HL & HLa & HB & HBa & Hsp). unfold log_load. rewrite (i_page _ _ _ H). cbn [mbind option_bind]. rewrite !mod_pow2_spec.
  pose proof (i_align _ _ _ H) as (-> & _ & ->). cbn [negb N.eqb orb]. pose proof (linv_bounds _ _ _ H) as (Hb1 & Hb2 & Hb3).
  destruct (N.ltb_spec (l_tail y) (l_head y)) as [Hx|_]; [clear -Hx Hb1 Hb2; lia|].
  rewrite (replay_laid c (l_dev y) (l_maxflush y) (l_head y) (slice (l_hist y) (l_nhead y) (l_ntail y))); [reflexivity|exact Hc|apply H|exact HM| | |].
  - pose proof (i_ord _ _ _ H) as (Ho1 & Ho2 & _). rewrite <- (slice_app _ _ (l_ncommit y)) by (split; assumption). eapply laid_app; apply H.
  - unfold bufok. cbn [lb_base lb_buf lb_drained length]. change (N.of_nat 0) with 0. rewrite !N.add_0_r.
    repeat split; [clear; lia|apply H|clear -Hb1 Hb2; lia].
  - clear; lia.
Qed.
