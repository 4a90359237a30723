(** Every batch that has been cut is acknowledged: proofs. *)
From stdpp Require Import base numbers list list_numbers option gmap.
From Coq Require Import ZifyBool ZifyNat ZifyN.
From Verif Require Import Util Bytes PageIOModel PageIOProofs PageIOWrite KvCodecModel KvCodecSpec KvCodecProofs KvLogModel KvLogSpec KvLogProofs KvLogSys KvLogInv KvLogLiveSpec.
Open Scope N_scope.
Ltac Zify.zify_post_hook ::= idtac.

(** Every batch not yet taken by the completer is on its way, and its writes fit. *)
Definition cover (y : lstate) : Prop := forall id, (l_cnext y <= id < w_next (l_writer y))%nat ->
  (exists f b, (f, b) ∈ l_flights y /\ fl_id f = id) \/ is_Some (l_backlog y !! id).
Definition place (c : lconf) (f : flight) : Prop := fl_phys f < lc_len c /\ match fl_wrap f with Some (_, page) => page <> [] | None => True end.
Definition placed (c : lconf) (y : lstate) : Prop := forall f b, (f, b) ∈ l_flights y -> place c f.
(** Everything received since is acknowledged once taken. *)
Definition told (n0 : nat) (y : lstate) : Prop := forall n, (n0 <= n < l_ntail y - length (l_apply y))%nat -> n ∈ l_acked y.

Lemma flush_place c head w junk wjunk w' f : 0 < lc_len c -> writer_flush c head w junk wjunk = Some (w', f) -> place c f /\ fl_id f = w_next w /\ w_next w' = S (w_next w).
Proof.
  intros HL E. unfold writer_flush in E. destruct (_ =? 0)%nat; [discriminate|]. cbn zeta in E. destruct (negb _ || negb _); [discriminate|]. destruct (negb _); [discriminate|].
  destruct (_ && _); [discriminate|]. destruct (_ <=? _); [discriminate|]. destruct (_ <=? _); [discriminate|]. apply (inj Some), pair_equal_spec in E as [<- <-]. unfold place. cbn [fl_phys fl_wrap fl_id w_next].
  split; [|auto]. pose proof (N.mod_lt (w_vtail w) (lc_len c) ltac:(clear -HL; lia)) as Hm. destruct (lc_len c <? _); (split; [assumption|]); [discriminate|exact I].
Qed.
Lemma finish_ids (l : list (flight * bool)) i f b b' : l !! i = Some (f, b) -> forall f' b0, (f', b0) ∈ l -> exists b1, (f', b1) ∈ <[i := (f, b')]> l.
Proof.
  intros Hi f' b0 Hin. apply elem_of_list_lookup in Hin as [k Hk]. destruct (decide (k = i)) as [->|Hn].
  - rewrite Hi in Hk. injection Hk as <- <-. exists b'. apply elem_of_list_lookup. exists i. apply list_lookup_insert. eapply lookup_lt_Some, Hi.
  - exists b0. apply elem_of_list_lookup. exists k. rewrite list_lookup_insert_ne by congruence. exact Hk.
Qed.
Lemma hand_ids (l : list (flight * bool)) i f b : l !! i = Some (f, b) -> forall f' b0, (f', b0) ∈ l -> f' = f \/ (f', b0) ∈ base.delete i l.
Proof.
  intros Hi f' b0 Hin. apply elem_of_list_lookup in Hin as [k Hk]. destruct (decide (k = i)) as [->|Hn]; [rewrite Hi in Hk; injection Hk as <- <-; auto|].
  right. apply elem_of_list_lookup. destruct (decide (k < i)%nat) as [Hlt|Hge].
  - exists k. now rewrite lookup_delete_lt.
  - exists (k - 1)%nat. rewrite lookup_delete_ge by lia. replace (S (k - 1)) with k by lia. exact Hk.
Qed.
Lemma step_cover c y q e y' : good_conf c -> linv c y q -> lstep c y e = Some y' -> cover y -> placed c y -> cover y' /\ placed c y'.
Proof.
  intros (HL & _) H E Hc Hp. destruct e as [t|junk wjunk|i v|i|i|junk| |th|junk| ]; cbn [lstep] in E.
  - destruct (writer_recv _ _ _) as [w|] eqn:Ew; [|discriminate]. cbn [mbind option_bind] in E. apply (inj Some) in E. subst y'. unfold writer_recv in Ew. destruct (task_serialise t); [|discriminate]. cbn [mbind option_bind] in Ew. apply (inj Some) in Ew. subst w. split; [exact Hc|exact Hp].
  - destruct (writer_flush _ _ _ _ _) as [[w f]|] eqn:Ew; [|discriminate]. cbn [mbind option_bind] in E. apply (inj Some) in E. subst y'. destruct (flush_place _ _ _ _ _ _ _ HL Ew) as (Hpl & Hid & Hw). split.
    + intros id Hid'. cbn [set_flights l_cnext l_writer l_flights l_backlog] in *. destruct (decide (id = w_next (l_writer y))) as [->|Hn]; [left; exists f, false; split; [apply elem_of_app; right; constructor|exact Hid]|].
      destruct (Hc id ltac:(lia)) as [(f' & b & Hin & E)|Hb]; [left; exists f', b; split; [apply elem_of_app; auto|exact E]|auto].
    + intros f' b Hin. cbn [set_flights l_flights] in Hin. apply elem_of_app in Hin as [Hin|Hin]; [eapply Hp, Hin|]. apply elem_of_list_singleton in Hin. injection Hin as -> ->. exact Hpl.
  - destruct (l_flights y !! i) as [[f fin]|]; [|discriminate]. cbn [mbind option_bind] in E. destruct fin; [discriminate|]. apply (inj Some) in E. subst y'. split; [exact Hc|exact Hp].
  - destruct (l_flights y !! i) as [[f fin]|] eqn:Ei; [|discriminate]. cbn [mbind option_bind] in E. destruct fin; [discriminate|]. destruct (flight_write _ _ _) as [d|]; [|discriminate]. cbn [mbind option_bind] in E. apply (inj Some) in E. subst y'. split.
    + intros id Hid. cbn [set_flights l_cnext l_writer l_flights l_backlog] in *. destruct (Hc id Hid) as [(f' & b & Hin & E)|Hb]; [|auto]. left. destruct (finish_ids _ _ _ _ true Ei _ _ Hin) as [b1 Hb1]. eauto.
    + intros f' b Hin. cbn [set_flights l_flights] in Hin. apply elem_of_list_lookup in Hin as [k Hk]. apply list_lookup_insert_Some in Hk as [(-> & E & _)|[_ Hk]].
      * injection E as <- <-. eapply Hp, elem_of_list_lookup_2, Ei.
      * eapply Hp, elem_of_list_lookup_2, Hk.
  - destruct (l_flights y !! i) as [[f fin]|] eqn:Ei; [|discriminate]. cbn [mbind option_bind] in E. destruct (negb fin); [discriminate|]. destruct (l_backlog y !! fl_id f) eqn:Eb; [discriminate|]. apply (inj Some) in E. subst y'. split.
    + intros id Hid. cbn [set_flights l_cnext l_writer l_flights l_backlog] in *. destruct (decide (id = fl_id f)) as [->|Hn]; [right; rewrite lookup_insert; eauto|]. rewrite lookup_insert_ne by congruence.
      destruct (Hc id Hid) as [(f' & b & Hin & E)|Hb]; [|auto]. left. destruct (hand_ids _ _ _ _ Ei _ _ Hin) as [->|Hin']; [congruence|eauto].
    + intros f' b Hin. cbn [set_flights l_flights] in Hin. eapply Hp. eapply (sublist_elem_of _ (base.delete i (l_flights y))) || eapply elem_of_submseteq; [exact Hin|apply sublist_submseteq, sublist_delete].
  - destruct (negb _); [discriminate|]. destruct (drain _ _ _) as [[fs bl] next] eqn:Ed. destruct (last fs) as [f|]; [|discriminate]. cbn [mbind option_bind] in E. destruct (state_page _ _ _); [|discriminate]. cbn [mbind option_bind] in E. apply (inj Some) in E. subst y'.
    split; [|exact Hp]. destruct (drain_spec _ _ _ _ _ _ q Ed (proj1 (i_ids _ _ _ H)) (i_backlog _ _ _ H)) as (q1 & q2 & Hq & _ & Hnext & _ & Hbl).
    intros id Hid. cbn [l_cnext l_writer l_flights l_backlog] in *. destruct (Hc id ltac:(lia)) as [Hf|Hb]; [auto|]. right. rewrite Hbl. destruct (decide _) as [Hd|_]; [lia|exact Hb].
  - destruct (l_apply y) as [|[n t] rest]; [discriminate|]. apply (inj Some) in E. subst y'. split; [exact Hc|exact Hp].
  - destruct (l_apply y); [|discriminate]. destruct (l_commit y); [discriminate|]. destruct (_ <=? _); [|discriminate]. apply (inj Some) in E. subst y'. split; [exact Hc|exact Hp].
  - destruct (l_commit y); [|discriminate]. cbn [mbind option_bind] in E. destruct (state_page _ _ _); [|discriminate]. cbn [mbind option_bind] in E. apply (inj Some) in E. subst y'. split; [exact Hc|exact Hp].
  - unfold log_open in E. destruct (log_load _ _ _) as [[[h t] ops]|]; [|discriminate]. cbn [mbind option_bind] in E. apply (inj Some) in E. subst y'. split; [intros id Hid; cbn in Hid; lia|intros f b Hin; inversion Hin].
Qed.
Lemma step_told c y q e y' n0 : linv c y q -> e <> ECrash -> lstep c y e = Some y' -> told n0 y -> told n0 y'.
Proof.
  intros H Hne E Ht. destruct e as [t|junk wjunk|i v|i|i|junk| |th|junk| ]; cbn [lstep] in E; [..|congruence].
  - destruct (writer_recv _ _ _) as [w|]; [|discriminate]. cbn [mbind option_bind] in E. apply (inj Some) in E. subst y'. exact Ht.
  - destruct (writer_flush _ _ _ _ _) as [[w f]|]; [|discriminate]. cbn [mbind option_bind] in E. apply (inj Some) in E. subst y'. exact Ht.
  - destruct (l_flights y !! i) as [[f fin]|]; [|discriminate]. cbn [mbind option_bind] in E. destruct fin; [discriminate|]. apply (inj Some) in E. subst y'. exact Ht.
  - destruct (l_flights y !! i) as [[f fin]|] eqn:Ei; [|discriminate]. cbn [mbind option_bind] in E. destruct fin; [discriminate|]. destruct (flight_write _ _ _) as [d|]; [|discriminate]. cbn [mbind option_bind] in E. apply (inj Some) in E. subst y'. exact Ht.
  - destruct (l_flights y !! i) as [[f fin]|] eqn:Ei; [|discriminate]. cbn [mbind option_bind] in E. destruct (negb fin); [discriminate|]. destruct (l_backlog y !! fl_id f) eqn:Eb; [discriminate|]. apply (inj Some) in E. subst y'. exact Ht.
  - destruct (negb _) eqn:Ea; [discriminate|]. destruct (drain _ _ _) as [[fs bl] next] eqn:Ed. destruct (last fs) as [f|]; [|discriminate]. cbn [mbind option_bind] in E. destruct (state_page _ _ _); [|discriminate]. cbn [mbind option_bind] in E. apply (inj Some) in E. subst y'.
    intros n Hn. cbn [l_ntail l_apply l_acked] in *. apply Ht. destruct (l_apply y); [cbn [length] in *; lia|discriminate].
  - destruct (i_apply _ _ _ H) as [Ha1 Ha2]. destruct (l_apply y) as [|[n t] rest] eqn:Ea; [discriminate|]. apply (inj Some) in E. subst y'. intros m Hm. cbn [l_ntail l_apply l_acked] in *. apply elem_of_app.
    assert (Hn : n = (l_ntail y - length ((n, t) :: rest))%nat). { revert Ha2. generalize (slice (l_hist y) (l_ntail y - length ((n, t) :: rest)) (l_ntail y)). intros [|x l] X; [discriminate|]. cbn [index_from] in X. injection X as X _ _. exact X. }
    destruct (decide (m = n)) as [->|Hmn]; [right; constructor|left; apply Ht]. rewrite Ea. cbn [length] in *. lia.
  - destruct (l_apply y) eqn:Ea; [|discriminate]. destruct (l_commit y); [discriminate|]. destruct (_ <=? _); [|discriminate]. apply (inj Some) in E. subst y'. intros n Hn. cbn [l_ntail l_apply l_acked length] in *. apply Ht. rewrite Ea. exact Hn.
  - destruct (l_commit y); [|discriminate]. cbn [mbind option_bind] in E. destruct (state_page _ _ _); [|discriminate]. cbn [mbind option_bind] in E. apply (inj Some) in E. subst y'. exact Ht.
Qed.

(** ** Progress *)
Lemma write_fits c f : placed c {| l_dev := fun _ => 0; l_page := []; l_head := 0; l_tail := 0; l_writer := {| w_buf := []; w_pending := []; w_vtail := 0; w_next := 0 |}; l_flights := [(f, false)]; l_backlog := ∅; l_cnext := 0; l_apply := []; l_commit := None; l_acked := []; l_hist := []; l_nhead := 0; l_ncommit := 0; l_ntail := 0; l_maxflush := 0 |} ->
  (forall a, flight_touches f a = true -> a < lc_len c) -> forall dev, is_Some (flight_write c dev f).
Proof.
  intros Hp Ht dev. destruct (Hp f false ltac:(constructor)) as [H1 H2]. unfold flight_write, flight_touches in *.
  assert (Hd : fl_phys f + N.of_nat (length (fl_data f)) <= lc_len c).
  { destruct (decide (length (fl_data f) = 0%nat)) as [E|E]; [lia|]. specialize (Ht (fl_phys f + N.of_nat (length (fl_data f)) - 1)). unfold in_range in Ht. rewrite (proj2 (orb_true_iff _ _)) in Ht; [specialize (Ht eq_refl); lia|left; lia]. }
  destruct (fl_wrap f) as [[at_ page]|].
  - assert (Hw : at_ + N.of_nat (length page) <= lc_len c).
    { assert (length page <> 0%nat) by (destruct page; [congruence|discriminate]). specialize (Ht (at_ + N.of_nat (length page) - 1)). unfold in_range in Ht. rewrite (proj2 (orb_true_iff _ _)) in Ht; [specialize (Ht eq_refl); lia|right; lia]. }
    unfold bounded_write. destruct (N.leb_spec (at_ + N.of_nat (length page)) (lc_len c)); [|lia]. cbn [mbind option_bind]. destruct (N.leb_spec (fl_phys f + N.of_nat (length (fl_data f))) (lc_len c)); [eauto|lia].
  - cbn [mbind option_bind]. unfold bounded_write. destruct (N.leb_spec (fl_phys f + N.of_nat (length (fl_data f))) (lc_len c)); [eauto|lia].
Qed.
Definition done (y : lstate) : Prop := l_flights y = [] /\ l_backlog y = ∅ /\ l_apply y = [].
Lemma log_progress c y q : good_conf c -> linv c y q -> cover y -> placed c y -> done y \/ exists e y', going_on c e /\ lstep c y e = Some y'.
Proof.
  intros Hc H Hcov Hp. pose proof Hc as (HL & _ & _ & _ & Hsp). destruct (l_apply y) as [|[n t] rest] eqn:Ea.
  2: { right. exists EApply. eexists. split; [exact I|]. cbn [lstep]. rewrite Ea. reflexivity. }
  destruct (l_flights y) as [|[f fin] fs] eqn:Ef.
  - destruct (decide (l_backlog y = ∅)) as [E|E]; [left; repeat split; assumption|]. right. apply map_choose in E as (n & f & Hn).
    destruct (i_backlog _ _ _ H _ _ Hn) as [Hin Hid]. destruct (i_ids _ _ _ H) as [Hids Hw]. apply elem_of_list_fmap in Hin as ([s f'] & -> & Hin). apply elem_of_list_lookup in Hin as [k Hk]. pose proof (lookup_lt_Some _ _ _ Hk) as Hlt.
    destruct (Hcov (l_cnext y)) as [(f1 & b & Hin & _)|[f1 Hf1]]; [lia|rewrite Ef in Hin; inversion Hin|].
    set (junk := replicate (N.to_nat (2 ^ lc_spage c)) 0). exists (EComplete junk). cbn [lstep]. rewrite Ea. cbn [length Nat.eqb negb].
    assert (Hj : N.of_nat (length junk) = 2 ^ lc_spage c) by (unfold junk; rewrite replicate_length; clear; lia).
    assert (Hsz : size (l_backlog y) <> 0%nat) by (intros X; apply map_size_empty_inv in X; rewrite X in Hf1; rewrite lookup_empty in Hf1; discriminate).
    destruct (size (l_backlog y)) as [|fuel] eqn:Esz; [congruence|]. cbn [drain]. rewrite Hf1. destruct (drain fuel _ _) as [[l bl] nx].
    destruct (last (f1 :: l)) as [f2|] eqn:El; [|apply last_None in El; discriminate]. cbn [mbind option_bind].
    assert (Hpow : 512 <= 2 ^ lc_spage c) by (change 512 with (2 ^ 9); apply N.pow_le_mono_r; [discriminate|exact Hsp]).
    unfold state_page. destruct (buf_write_Some junk 0 (le_bytes 8 (l_head y))) as (p1 & E1 & L1); [rewrite le_bytes_length, Hj; clear -Hpow; lia|]. rewrite E1. cbn [mbind option_bind].
    destruct (buf_write_Some p1 8 (le_bytes 8 (fl_newtail f2))) as (p2 & E2 & L2); [rewrite le_bytes_length, L1, Hj; clear -Hpow; lia|]. rewrite E2. cbn [mbind option_bind]. eexists. split; [exact Hj|reflexivity].
  - right. assert (Hin : (f, fin) ∈ l_flights y) by (rewrite Ef; constructor). destruct fin.
    + destruct (i_flights _ _ _ H _ _ Hin) as [_ Hb]. exists (EHand 0). eexists. split; [exact I|]. cbn [lstep]. rewrite Ef. cbn [lookup list_lookup mbind option_bind negb]. rewrite Hb. reflexivity.
    + destruct (write_fits c f) with (dev := l_dev y) as [d Ed].
      * intros f' b Hf. apply elem_of_list_singleton in Hf. injection Hf as -> ->. eapply Hp, Hin.
      * intros a Ha. destruct (i_flights _ _ _ H _ _ Hin) as [Hq _]. apply elem_of_list_fmap in Hq as ([s f'] & -> & Hq). apply elem_of_list_lookup in Hq as [k Hk].
        destruct (chain_lookup _ _ _ _ _ _ _ _ (i_chain _ _ _ H) Hk) as ((_ & Ht & _) & _). destruct (Ht a Ha) as (v & _ & <-). apply N.mod_lt. clear -HL. lia.
      * exists (EFinish 0). eexists. split; [exact I|]. cbn [lstep]. rewrite Ef. cbn [lookup list_lookup mbind option_bind]. rewrite Ed. reflexivity.
Qed.
(** ** Termination *)
Definition out (y : lstate) : nat := w_next (l_writer y) - l_cnext y.
Definition wcost (fb : flight * bool) : nat := if snd fb then 1 else 2.
Definition writes (y : lstate) : nat := sum_list_with wcost (l_flights y).
Lemma sum_set {A} (g : A -> nat) (l : list A) : forall i x z, l !! i = Some x -> (sum_list_with g (<[i := z]> l) + g x = sum_list_with g l + g z)%nat.
Proof.
  induction l as [|w l IH]; intros i x z E; [discriminate|]. destruct i as [|i]; [cbn in *; injection E as ->; lia|]. specialize (IH i x z E). change (<[S i := z]> (w :: l)) with (w :: <[i := z]> l). cbn [sum_list_with]. lia.
Qed.
Lemma sum_delete {A} (g : A -> nat) (l : list A) : forall i x, l !! i = Some x -> (sum_list_with g (base.delete i l) + g x = sum_list_with g l)%nat.
Proof.
  induction l as [|w l IH]; intros i x E; [discriminate|]. destruct i as [|i]; [cbn in *; injection E as ->; lia|]. specialize (IH i x E). change (base.delete (S i) (w :: l)) with (w :: base.delete i l). cbn [sum_list_with]. lia.
Qed.
Lemma going_less c y q e y' : linv c y q -> going_on c e -> lstep c y e = Some y' ->
  l_writer y' = l_writer y /\ l_hist y' = l_hist y /\
  ((out y' < out y)%nat \/ (out y' = out y /\ writes y' + length (l_apply y') < writes y + length (l_apply y))%nat).
Proof.
  intros H Hg E. unfold out, writes. destruct e as [|?|? ?|i|i|junk| | | |]; try contradiction; cbn [lstep] in E.
  - destruct (l_flights y !! i) as [[f fin]|] eqn:Ei; [|discriminate]. cbn [mbind option_bind] in E. destruct fin; [discriminate|]. destruct (flight_write _ _ _) as [d|]; [|discriminate]. cbn [mbind option_bind] in E. apply (inj Some) in E. subst y'. split; [reflexivity|]. split; [reflexivity|]. right.
    cbn [set_flights l_flights l_writer l_cnext l_apply]. pose proof (sum_set wcost _ _ _ (f, true) Ei) as Hs. unfold wcost in Hs at 2 4 || unfold wcost in Hs at 2; cbn [snd] in Hs. lia.
  - destruct (l_flights y !! i) as [[f fin]|] eqn:Ei; [|discriminate]. cbn [mbind option_bind] in E. destruct fin; [|discriminate]. cbn [negb] in E. destruct (l_backlog y !! fl_id f) eqn:Eb; [discriminate|]. apply (inj Some) in E. subst y'. split; [reflexivity|]. split; [reflexivity|]. right.
    cbn [set_flights l_flights l_writer l_cnext l_apply]. pose proof (sum_delete wcost _ _ _ Ei) as Hs. unfold wcost in Hs at 2 4 || unfold wcost in Hs at 2; cbn [snd] in Hs. lia.
  - destruct (negb _) eqn:Ea; [discriminate|]. destruct (drain _ _ _) as [[fs bl] next] eqn:Ed. destruct (last fs) as [f|] eqn:El; [|discriminate]. cbn [mbind option_bind] in E. destruct (state_page _ _ _); [|discriminate]. cbn [mbind option_bind] in E. apply (inj Some) in E. subst y'.
    split; [reflexivity|]. split; [reflexivity|]. left. cbn [l_writer l_cnext]. destruct (i_ids _ _ _ H) as [Hids Hw]. destruct (drain_spec _ _ _ _ _ _ q Ed Hids (i_backlog _ _ _ H)) as (q1 & q2 & Hq & Hfs & Hnext & _).
    assert (q1 <> []) by (intros ->; rewrite Hfs in El; discriminate). assert (length q1 <> 0%nat) by (destruct q1; [congruence|discriminate]). rewrite Hq, app_length in Hw. lia.
  - destruct (l_apply y) as [|[n t] rest] eqn:Ea; [discriminate|]. apply (inj Some) in E. subst y'. split; [reflexivity|]. split; [reflexivity|]. right. cbn. lia.
Qed.
Lemma log_settles c y1 n0 : good_conf c -> forall n m y q, out y = n -> (writes y + length (l_apply y))%nat = m -> linv c y q -> cover y -> placed c y -> told n0 y -> l_writer y = l_writer y1 -> l_hist y = l_hist y1 ->
  comes_to c (fun y' => done y' /\ l_writer y' = l_writer y1 /\ l_hist y' = l_hist y1 /\ forall k, (n0 <= k < length (l_hist y') - length (w_pending (l_writer y')))%nat -> k ∈ l_acked y') y.
Proof.
  intros Hc. induction n as [n IHn] using lt_wf_ind. induction m as [m IHm] using lt_wf_ind. intros y q Hn Hm H Hcov Hp Ht Hw Hh.
  destruct (log_progress c y q Hc H Hcov Hp) as [Hd|Hex].
  - apply ct_now. split; [exact Hd|]. split; [exact Hw|]. split; [exact Hh|]. intros k Hk. destruct Hd as (D1 & D2 & D3). apply Ht. rewrite D3. cbn [length].
    assert (Hq : q = []).
    { destruct q as [|x q]; [reflexivity|]. exfalso. destruct (i_ids _ _ _ H) as [_ Hx]. cbn [length] in Hx. destruct (Hcov (l_cnext y) ltac:(lia)) as [(f & b & Hin & _)|Hb]; [rewrite D1 in Hin; inversion Hin|rewrite D2, lookup_empty in Hb; destruct Hb; discriminate]. }
    subst q. pose proof (f_equal length (i_tasks _ _ _ H)) as Hl. rewrite index_from_length, drop_length in Hl. cbn in Hl. pose proof (i_ord _ _ _ H). lia.
  - apply ct_steps; [exact Hex|]. intros e y' Hg E. destruct (going_less _ _ _ _ _ H Hg E) as (Hw' & Hh' & Hlt).
    assert (Hv : valid_levent c e) by (destruct e; try contradiction; exact Hg). destruct (lstep_linv c y q e y' Hc Hv H E) as [q' H']. destruct (step_cover _ _ _ _ _ Hc H E Hcov Hp) as [Hcov' Hp'].
    assert (Ht' : told n0 y') by (apply (step_told c y q e y' n0 H); [intros X; rewrite X in Hg; contradiction|exact E|exact Ht]).
    destruct Hlt as [Hlt|[Heq Hlt]].
    + eapply (IHn (out y')); [lia|reflexivity|reflexivity|exact H'|exact Hcov'|exact Hp'|exact Ht'|congruence|congruence].
    + eapply (IHm (writes y' + length (l_apply y'))%nat); [lia|lia|reflexivity|exact H'|exact Hcov'|exact Hp'|exact Ht'|congruence|congruence].
Qed.
