(** Where every index entry on the device comes from, at any moment. *)
From Coq Require Import ZifyBool ZifyNat ZifyN.
From stdpp Require Import base numbers list_numbers option gmap sets list.
From Verif Require Import Util Bytes BuddyModel BuddySpec BuddyProofs BuddyInv LayoutModel LayoutProofs.
From Verif Require Import PageIOModel TuplesModel TuplesSpec TuplesProofs TuplesSys TuplesDurable TuplesLife.
From Verif Require Import DirectModel DirectBase DirectSteps DirectInv DirectTup DirectAlloc DirectDev DirectSys DirectRec DirectLog.
Open Scope N_scope.
Ltac Zify.zify_post_hook ::= idtac.

Lemma bind_unique {A B} (f : A -> list B) l x y b : NoDup (l ≫= f) -> x ∈ l -> y ∈ l -> b ∈ f x -> b ∈ f y -> x = y.
Proof.
  induction l as [|a l IH]; intros Hn Hx Hy Hbx Hby; [inversion Hx|]. rewrite bind_cons in Hn. apply NoDup_app in Hn as (_ & Hd & Hn).
  apply elem_of_cons in Hx as [->|Hx]; apply elem_of_cons in Hy as [->|Hy]; auto; exfalso; eapply Hd; eauto; apply elem_of_list_bind; eauto.
Qed.

Lemma after_calls_id m cs id t : (forall i x, m !! i = Some x -> t_id x = i) -> after_calls m cs !! id = Some t -> t_id t = id.
Proof.
  intros Hm. revert id t. induction cs as [|cl cs IH] using rev_ind; intros id t E; [eauto|]. rewrite after_calls_snoc in E.
  destruct cl as [o|cur new st|d]; cbn [apply_call] in E.
  - apply lookup_insert_Some in E as [[<- <-]|[_ E]]; eauto.
  - destruct (after_calls m cs !! cur) as [x|]; [|eauto]. apply lookup_insert_Some in E as [[<- <-]|[_ E]]; [reflexivity|]. apply lookup_delete_Some in E as [_ E]. eauto.
  - apply lookup_delete_Some in E as [_ E]. eauto.
Qed.

Section Source.
Context (c : dcfg) (h : shared) (ps : list pc) (sp : index) (pages : list (list N)) (t0 : tsys) (init : list (list tuple)) (cs : list tcall).
Hypothesis HS : SInv h ps.
Hypothesis HT : TInv c h ps sp false.
Hypothesis HK : KInv c t0 init h ps cs.
Hypothesis Ho : opens (dc_spage c) pages init t0.
Variable D : index.

Inductive source (id : N) (t : tuple) : nat + pc -> Prop :=
(** the entry of an object *)
| src_obj r ob st :
    r ∈ owners h ps -> h_objs h !! r = Some ob -> b_id ob = id -> t = entry_of ob st ->
    (r ∈ irefs h ps /\ st = ds_incomplete \/ r ∈ crefs h ps /\ st = ds_committed \/ exists tt n kk, PReap2 r tt n kk ∈ ps /\ st = reap_state kk) ->
    source id t (inl r)
(** the entry of an upload whose commit has not reached the device *)
| src_update r ob :
    r ∈ owners h ps -> h_objs h !! r = Some ob -> D !! b_id ob = None ->
    t = {| t_state := ds_incomplete; t_id := id; t_off := fst (b_mpage ob); t_pow2 := snd (b_mpage ob) |} ->
    ((exists e, PCommit4 id (b_id ob) e ∈ ps) \/ exists k e, PCommit5 id k (b_id ob) e ∈ ps /\ cs !! k = Some (CUpdate id (b_id ob) ds_committed)) ->
    source id t (inl r)
(** the entry of an upload whose creation has not returned *)
| src_new m msize moff k :
    PCreate4 m msize moff id k ∈ ps -> t = new_tuple c msize moff id ->
    source id t (inr (PCreate4 m msize moff id k)).

Lemma sp_eq : sp = after_calls (index_of init) cs.
Proof. apply (k_sp c pages t0 init Ho h ps cs sp HK (t_inv _ _ _ _ _ HT)). Qed.

(** The index on the device. *)
Variable J : N -> nat.
Hypothesis HJ : forall id, (J id <= length cs)%nat /\ D !! id = after_calls (index_of init) (take (J id) cs) !! id.
Hypothesis Hack : forall k cl id, cs !! k = Some cl -> k ∈ sy_acked (h_tup h) -> id ∈ touched cl -> (k < J id)%nat.
Hypothesis Hpair : forall k cur new st, cs !! k = Some (CUpdate cur new st) -> J cur = J new.
Notation acked := (sy_acked (h_tup h)).
Let Hfr : fresh_ids init cs := k_fresh _ _ _ _ _ _ HK.

Lemma D_same id t t' : D !! id = Some t -> sp !! id = Some t' -> t = t'.
Proof. rewrite sp_eq. apply (disk_same init cs Hfr D J HJ). Qed.
Lemma D_kept id t : sp !! id = Some t -> settled init cs acked id -> D !! id = Some t.
Proof. rewrite sp_eq. intros H1 H2. eapply (disk_kept init cs Hfr acked D J HJ Hack); eassumption. Qed.
Lemma D_new4 id new e : PCommit4 id new e ∈ ps -> D !! new = None.
Proof.
  intros Hp. eapply disk_unknown; [exact HJ|]. intros Hk. destruct (k_known _ _ _ _ _ _ HK new Hk) as (_ & _ & Hn). apply Hn.
  apply elem_of_list_bind. exists (PCommit4 id new e). split; [constructor|exact Hp].
Qed.
Lemma new4_pending tok new e : PCommit4 tok new e ∈ ps -> exists r ob, r ∈ crefs h ps /\ h_objs h !! r = Some ob /\ b_id ob = new /\
  sp !! tok = Some {| t_state := ds_incomplete; t_id := tok; t_off := fst (b_mpage ob); t_pow2 := snd (b_mpage ob) |}.
Proof.
  intros Hp. assert (Hin : new ∈ ps ≫= pc_new4) by (apply elem_of_list_bind; exists (PCommit4 tok new e); split; [constructor|exact Hp]).
  pose proof (t_pc _ _ _ _ _ HT _ Hp) as (Hnone & _).
  destruct (t_new _ _ _ _ _ HT) as [?|Hnew]; [discriminate|]. destruct (Hnew new Hin) as (r & ob & Hr & Eo & Hid).
  exists r, ob. split; [exact Hr|]. split; [exact Eo|]. split; [exact Hid|].
  destruct (t_c _ _ _ _ _ HT r Hr) as [(ob2 & E2 & H2)|(ob2 & tok2 & ex2 & E2 & Hp2 & H2)]; assert (ob2 = ob) as -> by congruence.
  - rewrite Hid in H2. congruence.
  - rewrite Hid in Hp2. assert (PCommit4 tok2 new ex2 = PCommit4 tok new e) as Heq.
    { eapply (bind_unique pc_new4); [exact (t_news _ _ _ _ _ HT)|exact Hp2|exact Hp| |]; constructor. }
    injection Heq as -> _. exact H2.
Qed.

Theorem has_source id t : D !! id = Some t -> exists s, source id t s.
Proof.
  intros Ed. destruct (sp !! id) as [t'|] eqn:Es.
  - assert (t = t') as <- by (eapply D_same; eassumption).
    destruct (t_dom _ _ _ _ _ HT) as [?|Hdom]; [discriminate|]. destruct (Hdom id) as [(r & ob & [Hr|Hr] & Eo & Hid)|[H|H]]; [eauto| | | |].
    + destruct (t_i _ _ _ _ _ HT r Hr) as (ob2 & E2 & H2). assert (ob2 = ob) as -> by congruence.
      exists (inl r). eapply (src_obj id t r ob ds_incomplete); [now apply irefs_owner|exact Eo|exact Hid|congruence|auto].
    + exists (inl r). eapply (src_obj id t r ob ds_committed); [now apply crefs_owner|exact Eo|exact Hid| |auto].
      destruct (t_c _ _ _ _ _ HT r Hr) as [(ob2 & E2 & H2)|(ob2 & tok2 & ex2 & E2 & Hp2 & H2)]; assert (ob2 = ob) as -> by congruence; [congruence|exfalso].
      pose proof (t_pc _ _ _ _ _ HT _ Hp2) as (Hnone & _). congruence.
    + apply elem_of_list_bind in H as (p & Hin & Hp). destruct p; try (inversion Hin; fail). cbn in Hin. apply elem_of_list_singleton in Hin as ->.
      destruct (new4_pending _ _ _ Hp) as (r & ob & Hr & Eo & Hid & H2). exists (inl r). eapply (src_update _ t r ob).
      * now apply crefs_owner.
      * exact Eo.
      * rewrite Hid. eapply D_new4, Hp.
      * congruence.
      * left. rewrite Hid. eauto.
    + apply elem_of_list_bind in H as (p & Hin & Hp). destruct p; try (inversion Hin; fail). cbn in Hin. apply elem_of_list_singleton in Hin as ->.
      pose proof (t_pc _ _ _ _ _ HT _ Hp) as Hpe. cbn in Hpe. eexists. eapply src_new; [exact Hp|congruence].
  - assert (Es' : after_calls (index_of init) cs !! id = None) by (rewrite <- sp_eq; exact Es).
    destruct (disk_gone init cs Hfr acked D J HJ Hack Hpair id t Ed Es') as (k & cl & Hle & Hcl & Hrm & Hnak).
    destruct (k_acked _ _ _ _ _ _ HK k) as [?|(p & Hp & Hw)]; [eapply lookup_lt_Some, Hcl|contradiction|].
    pose proof (k_log _ _ _ _ _ _ HK p Hp) as Hlog. destruct p; try discriminate Hw; injection Hw as Hw; subst; cbn [pc_log] in Hlog.
    + rewrite Hlog in Hcl. injection Hcl as <-. destruct Hrm as [?|(? & ? & ?)]; discriminate.
    + destruct Hlog as (t' & r & ob & H1 & H2 & H3 & H4 & H5 & H6 & H7). rewrite H1 in Hcl. injection Hcl as <-.
      destruct Hrm as [?|(new & st & Heq)]; [discriminate|]. injection Heq as -> _ _.
      assert (t = t') as <- by (eapply (disk_at init cs Hfr D J HJ k); [apply lookup_lt_Some in H1; lia|exact Ed|exact H2]).
      assert (HJn : J (b_id ob) = J id) by (symmetry; rewrite H6; eapply Hpair, H1).
      destruct H7 as [H7|(k2 & Hk2 & Hc2 & Hak2)].
      2:{ exfalso. specialize (Hack k2 _ (b_id ob) Hc2 Hak2). rewrite H6 in Hack. specialize (Hack ltac:(constructor)). rewrite <- H6 in Hack. lia. }
      exists (inl r). eapply (src_update _ t r ob).
      * exact H7.
      * exact H5.
      * eapply (disk_not_yet init cs Hfr D J HJ k); [exact H1|rewrite H6; constructor|lia].
      * assert (Hid : t_id t = id).
        { destruct (HJ id) as [_ HE]. rewrite HE in Ed. pose proof (run_inv _ _ _ _ _ _ Ho (k_runs _ _ _ _ _ _ HK)) as _.
          clear -Ed. apply (after_calls_id (index_of init)) in Ed; [exact Ed|]. intros i x Hx. unfold index_of in Hx. apply elem_of_list_to_map_2 in Hx.
          apply elem_of_list_fmap in Hx as (y & E & _). congruence. }
        destruct t as [st0 i off pw]. cbn in *. subst. now rewrite <- H4.
      * right. rewrite H6. eauto.
    + destruct Hlog as (ob & H1 & H2 & H3). rewrite H2 in Hcl. injection Hcl as <-. destruct Hrm as [Heq|(? & ? & Heq)]; [|discriminate]. injection Heq as <-.
      assert (t = entry_of ob (reap_state c0)) as -> by (eapply (disk_at init cs Hfr D J HJ k); [apply lookup_lt_Some in H2; lia|exact Ed|exact H3]).
      exists (inl r). eapply (src_obj _ _ r ob); [|exact H1|reflexivity|reflexivity|eauto 10].
      unfold owners. rewrite !elem_of_app. right. right. apply elem_of_list_bind. eexists. split; [|exact Hp]. constructor.
Qed.

(** Different entries have different sources. *)
Theorem source_unique id1 t1 id2 t2 s : D !! id1 = Some t1 -> D !! id2 = Some t2 -> source id1 t1 s -> source id2 t2 s -> id1 = id2.
Proof.
  intros E1 E2 S1 S2. destruct S1 as [r ob st Hr Eo Hid Ht Hwh|r ob Hr Eo Hn Ht Hwh|m msize moff k Hp Ht]; inversion S2; subst.
  - congruence.
  - assert (ob0 = ob) as -> by congruence. congruence.
  - assert (ob0 = ob) as -> by congruence. congruence.
  - assert (ob0 = ob) as -> by congruence.
    assert (Hkn : forall k id, cs !! k = Some (CUpdate id (b_id ob) ds_committed) -> b_id ob ∈ ps ≫= pc_new4 -> False).
    { intros k id Hk Hin. destruct (k_known _ _ _ _ _ _ HK (b_id ob)) as (_ & _ & Hnot); [|contradiction].
      unfold known. apply elem_of_app. right. apply elem_of_concat_intro. exists k. eexists. split; [exact Hk|constructor]. }
    assert (Hin4 : forall id e, PCommit4 id (b_id ob) e ∈ ps -> b_id ob ∈ ps ≫= pc_new4).
    { intros id e H. apply elem_of_list_bind. eexists. split; [|exact H]. constructor. }
    destruct Hwh as [(e & Hp)|(k & e & Hp & Hk)], H4 as [(e' & Hp')|(k' & e' & Hp' & Hk')].
    + assert (PCommit4 id1 (b_id ob) e = PCommit4 id2 (b_id ob) e') as Heq; [|congruence].
      eapply (bind_unique pc_new4); [exact (t_news _ _ _ _ _ HT)|exact Hp|exact Hp'| |]; constructor.
    + exfalso. eapply Hkn; [exact Hk'|eapply Hin4, Hp].
    + exfalso. eapply Hkn; [exact Hk|eapply Hin4, Hp'].
    + assert (k = k'); [|congruence].
      assert (Hlt : forall a b ia ib, cs !! a = Some (CUpdate ia (b_id ob) ds_committed) -> cs !! b = Some (CUpdate ib (b_id ob) ds_committed) -> (a < b)%nat -> False).
      { intros a b ia ib Ha Hb Hab. eapply (known_once init cs Hfr b b (CUpdate ib (b_id ob) ds_committed) (b_id ob)); [|lia|exact Hb|constructor].
        unfold known. apply elem_of_app. right. apply elem_of_concat_intro. exists a. eexists. split; [rewrite lookup_take by exact Hab; exact Ha|constructor]. }
      destruct (Nat.lt_trichotomy k k') as [H|[H|H]]; [exfalso; eapply (Hlt k k'); eassumption|exact H|exfalso; eapply (Hlt k' k); eassumption].
  - reflexivity.
Qed.
End Source.
