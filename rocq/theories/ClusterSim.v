(** Histories of a store with several partitions are histories of the
    specification of one. *)
From Coq Require Import ZifyBool ZifyNat ZifyN.
From stdpp Require Import base numbers option gmap sets functions list.
From Verif Require Import Util PageIOModel PageIOSpec DirectModel DirectSpec DirectSeqSpec DirectRel DirectSys DirectSeq ClusterModel.
Open Scope N_scope.
Ltac Zify.zify_post_hook ::= idtac.

Section Merge.
Variable route : list N -> nat.
Variable Own : nat -> N -> Prop.
Hypothesis Own_excl : forall p q id, Own p id -> Own q id -> p = q.

Record MS (ss : list sstate) (S : sstate) : Prop := {
  ms_up : forall tok u, ss_up S !! tok = Some u <-> exists p Sp, ss !! p = Some Sp /\ ss_up Sp !! tok = Some u;
  ms_com : forall key co, ss_com S !! key = Some co <-> exists p Sp, ss !! p = Some Sp /\ ss_com Sp !! key = Some co;
  ms_ids : forall id, id ∈ ss_ids S <-> exists p Sp, ss !! p = Some Sp /\ id ∈ ss_ids Sp;
  ms_own : forall p Sp id, ss !! p = Some Sp -> id ∈ ss_ids Sp -> Own p id;
  ms_upk : forall p Sp tok u, ss !! p = Some Sp -> ss_up Sp !! tok = Some u -> route (up_key u) = p /\ tok ∈ ss_ids Sp;
  ms_comk : forall p Sp key co, ss !! p = Some Sp -> ss_com Sp !! key = Some co -> route key = p;
}.
Definition mine (p : nat) (tok : N) : Prop := forall q, Own q tok -> q = p.
Definition mentions (s : sproc) (tok : N) : Prop :=
  match s with
  | SCall op => op_token op = Some tok
  | SWriting t _ _ _ | SCommitting t _ => t = tok
  | _ => False
  end.
Definition keyed (s : sproc) (key : list N) : Prop :=
  match s with
  | SCall op => op_key op = Some key
  | SReading k _ _ _ _ => k = key
  | _ => False
  end.
Definition proc_ok (p : nat) (s : sproc) : Prop :=
  (forall tok, mentions s tok -> mine p tok) /\ (forall key, keyed s key -> route key = p).

Lemma own_mine p id : Own p id -> mine p id.
Proof. intros H q Hq. eapply Own_excl; eassumption. Qed.
Lemma up_at ss S p Sp tok : MS ss S -> ss !! p = Some Sp -> mine p tok -> ss_up S !! tok = ss_up Sp !! tok.
Proof.
  intros [Hu _ _ Ho Hk _] Hp Hm. apply option_eq. intros u. rewrite Hu. split; [|eauto].
  intros (q & Sq & Hq & Eq). destruct (Hk _ _ _ _ Hq Eq) as [_ Hid]. rewrite (Hm q) in Hq by eauto. congruence.
Qed.
Lemma com_at ss S p Sp key : MS ss S -> ss !! p = Some Sp -> route key = p -> ss_com S !! key = ss_com Sp !! key.
Proof.
  intros [_ Hu _ _ _ Hk] Hp Hm. apply option_eq. intros u. rewrite Hu. split; [|eauto].
  intros (q & Sq & Hq & Eq). rewrite (Hk _ _ _ _ Hq Eq) in Hm. subst q. congruence.
Qed.

(** Replacing the state of partition [p]. *)
Lemma ms_set ss S p Sp Sp' S' : MS ss S -> ss !! p = Some Sp ->
  (forall tok, (ss_up S' !! tok = ss_up S !! tok /\ ss_up Sp' !! tok = ss_up Sp !! tok) \/
               (mine p tok /\ ss_up S' !! tok = ss_up Sp' !! tok)) ->
  (forall key, (ss_com S' !! key = ss_com S !! key /\ ss_com Sp' !! key = ss_com Sp !! key) \/
               (route key = p /\ ss_com S' !! key = ss_com Sp' !! key)) ->
  (exists new, ss_ids S' = new ∪ ss_ids S /\ ss_ids Sp' = new ∪ ss_ids Sp) ->
  (forall id, id ∈ ss_ids Sp' -> Own p id) ->
  (forall tok u, ss_up Sp' !! tok = Some u -> route (up_key u) = p /\ tok ∈ ss_ids Sp') ->
  MS (<[p := Sp']> ss) S'.
Proof.
  intros M Hp Hu Hc (new & Hi1 & Hi2) Ho Hk. pose proof (lookup_lt_Some _ _ _ Hp) as Hlt.
  assert (Hins : forall q Sq, <[p := Sp']> ss !! q = Some Sq <-> (q = p /\ Sq = Sp') \/ (q <> p /\ ss !! q = Some Sq)).
  { intros q Sq. destruct (decide (q = p)) as [->|Hq].
    - rewrite list_lookup_insert by exact Hlt. split; [intros [= <-]; auto|]. intros [[_ ->]|[H _]]; [reflexivity|contradiction].
    - rewrite list_lookup_insert_ne by congruence. split; [auto|]. intros [[H _]|[_ H]]; [contradiction|exact H]. }
  assert (Hkey : forall key co, ss_com Sp' !! key = Some co -> route key = p).
  { intros key co E. destruct (Hc key) as [[_ E']|[E' _]]; [|exact E']. rewrite E' in E. eapply (ms_comk _ _ M); eassumption. }
  destruct M as [M1 M2 M3 M4 M5 M6]. constructor.
  - intros tok u. destruct (Hu tok) as [[E1 E2]|[Hm E]].
    + rewrite E1, M1. split.
      * intros (q & Sq & Hq & Eq). destruct (decide (q = p)) as [->|Hne].
        -- exists p, Sp'. rewrite Hins. split; [auto|]. assert (Sq = Sp) as -> by congruence. congruence.
        -- exists q, Sq. rewrite Hins. auto.
      * intros (q & Sq & Hq & Eq). apply Hins in Hq as [[-> ->]|[Hne Hq]]; [exists p, Sp; split; [exact Hp|congruence]|eauto].
    + rewrite E. split.
      * intros Eq. exists p, Sp'. rewrite Hins. auto.
      * intros (q & Sq & Hq & Eq). apply Hins in Hq as [[-> ->]|[Hne Hq]]; [exact Eq|].
        destruct (M5 _ _ _ _ Hq Eq) as [_ Hid]. contradiction Hne. apply Hm. eauto.
  - intros key co. destruct (Hc key) as [[E1 E2]|[Hm E]].
    + rewrite E1, M2. split.
      * intros (q & Sq & Hq & Eq). destruct (decide (q = p)) as [->|Hne].
        -- exists p, Sp'. rewrite Hins. split; [auto|]. assert (Sq = Sp) as -> by congruence. congruence.
        -- exists q, Sq. rewrite Hins. auto.
      * intros (q & Sq & Hq & Eq). apply Hins in Hq as [[-> ->]|[Hne Hq]]; [exists p, Sp; split; [exact Hp|congruence]|eauto].
    + rewrite E. split.
      * intros Eq. exists p, Sp'. rewrite Hins. auto.
      * intros (q & Sq & Hq & Eq). apply Hins in Hq as [[-> ->]|[Hne Hq]]; [exact Eq|].
        contradiction Hne. rewrite <- (M6 _ _ _ _ Hq Eq). exact Hm.
  - intros id. rewrite Hi1, elem_of_union, M3. split.
    + intros [H|(q & Sq & Hq & H)].
      * exists p, Sp'. rewrite Hins, Hi2. set_solver.
      * destruct (decide (q = p)) as [->|Hne].
        -- exists p, Sp'. rewrite Hins, Hi2. assert (Sq = Sp) as -> by congruence. set_solver.
        -- exists q, Sq. rewrite Hins. auto.
    + intros (q & Sq & Hq & H). apply Hins in Hq as [[-> ->]|[Hne Hq]]; [|eauto].
      rewrite Hi2 in H. apply elem_of_union in H as [H|H]; [auto|]. right. eauto.
  - intros q Sq id Hq H. apply Hins in Hq as [[-> ->]|[Hne Hq]]; [auto|eauto].
  - intros q Sq tok u Hq H. apply Hins in Hq as [[-> ->]|[Hne Hq]]; [auto|eauto].
  - intros q Sq key co Hq H. apply Hins in Hq as [[-> ->]|[Hne Hq]]; [eauto|eauto].
Qed.
Lemma ms_same ss S p Sp : MS ss S -> ss !! p = Some Sp -> MS (<[p := Sp]> ss) S.
Proof. intros M Hp. rewrite list_insert_id by exact Hp. exact M. Qed.

Lemma sids_mono lpage S all s S' s' v : sstep lpage S all s S' s' v -> ss_ids S ⊆ ss_ids S'.
Proof. destruct 1; cbn; set_solver. Qed.

(** A step of a call of partition [p] is a step of the whole. *)
Lemma lift_sstep lpage ss S p Sp all s Sp' s' v :
  MS ss S -> ss !! p = Some Sp -> proc_ok p s -> (forall id, id ∈ ss_ids Sp' -> Own p id) ->
  sstep lpage Sp all s Sp' s' v ->
  exists S', sstep lpage S all s S' s' v /\ MS (<[p := Sp']> ss) S' /\ proc_ok p s'.
Proof.
  intros M Hp [Hmen Hkey] Hown St.
  assert (Hup : forall tok, mentions s tok -> ss_up S !! tok = ss_up Sp !! tok) by (intros tok Ht; eapply up_at; eauto).
  assert (Hcom : forall key, keyed s key -> ss_com S !! key = ss_com Sp !! key) by (intros key Ht; eapply com_at; eauto).
  assert (Hnf : forall key id, keyed s key -> (forall co, ~ sfind Sp key id co) -> forall co, ~ sfind S key id co).
  { intros key id Hk H co [H1 H2]. apply (H co). split; [|exact H2]. now rewrite <- Hcom. }
  assert (Hf : forall key id co, keyed s key -> sfind Sp key id co -> sfind S key id co).
  { intros key id co Hk [H1 H2]. split; [|exact H2]. now rewrite Hcom. }
  assert (Hno : forall tok, mentions s tok -> not_open Sp tok -> not_open S tok).
  { intros tok Ht H u [H1 H2]. apply (H u). split; [|exact H2]. now rewrite <- Hup. }
  assert (Hio : forall tok u, mentions s tok -> is_open Sp tok u -> is_open S tok u).
  { intros tok u Ht [H1 H2]. split; [|exact H2]. now rewrite Hup. }
  assert (Hdone : proc_ok p SDone) by (split; intros x Hx; contradiction Hx).
  assert (Hpart : forall tok off f, mine p tok -> MS (<[p := on_part Sp tok off f]> ss) (on_part S tok off f)).
  { intros tok off f Hm. eapply ms_set; [exact M|exact Hp| | | | |].
    - intros t. cbn [on_part set_up ss_up]. destruct (decide (t = tok)) as [->|Hne].
      + right. split; [exact Hm|]. rewrite !lookup_alter. now rewrite (up_at _ _ _ _ _ M Hp Hm).
      + left. now rewrite !lookup_alter_ne by congruence.
    - left. auto.
    - exists ∅. cbn [on_part set_up ss_ids]. split; set_solver.
    - intros id H. eapply (ms_own _ _ M); eassumption.
    - intros t u. cbn [on_part set_up ss_up ss_ids]. intros E. destruct (decide (t = tok)) as [->|Hne].
      + rewrite lookup_alter in E. destruct (ss_up Sp !! tok) as [u0|] eqn:E0; [|discriminate]. injection E as <-.
        cbn [set_part set_parts up_key]. eapply (ms_upk _ _ M); eassumption.
      + rewrite lookup_alter_ne in E by congruence. eapply (ms_upk _ _ M); eassumption. }
  assert (Hdel : forall tok, mine p tok -> MS (<[p := set_up Sp (delete tok (ss_up Sp))]> ss) (set_up S (delete tok (ss_up S)))).
  { intros tok Hm. eapply ms_set; [exact M|exact Hp| | | | |].
    - intros t. cbn [set_up ss_up]. destruct (decide (t = tok)) as [->|Hne].
      + right. split; [exact Hm|]. now rewrite !lookup_delete.
      + left. now rewrite !lookup_delete_ne by congruence.
    - left. auto.
    - exists ∅. cbn [set_up ss_ids]. split; set_solver.
    - intros id H. eapply (ms_own _ _ M); eassumption.
    - intros t u. cbn [set_up ss_up ss_ids]. intros E. apply lookup_delete_Some in E as [_ E]. eapply (ms_upk _ _ M); eassumption. }
  destruct St.
  - (* create *)
    exists (add_id (set_up S (<[tok := new_upload key size created]> (ss_up S))) tok).
    assert (Hot : Own p tok) by (apply Hown; cbn; set_solver).
    split.
    { constructor. rewrite (ms_ids _ _ M). intros (q & Sq & Hq & Hin). pose proof (ms_own _ _ M _ _ _ Hq Hin) as Hoq.
      assert (q = p) as -> by (eapply Own_excl; eassumption). congruence. }
    split; [|exact Hdone]. eapply ms_set; [exact M|exact Hp| | | | |].
    + intros t. cbn [add_id set_up ss_up]. destruct (decide (t = tok)) as [->|Hne].
      * right. split; [now apply own_mine|]. now rewrite !lookup_insert.
      * left. now rewrite !lookup_insert_ne by congruence.
    + left. auto.
    + exists {[tok]}. split; reflexivity.
    + exact Hown.
    + intros t u. cbn [add_id set_up ss_up ss_ids]. intros E. destruct (decide (t = tok)) as [->|Hne].
      * rewrite lookup_insert in E. injection E as <-. cbn. split; [apply Hkey; reflexivity|set_solver].
      * rewrite lookup_insert_ne in E by congruence. destruct (ms_upk _ _ M _ _ _ _ Hp E). split; [assumption|set_solver].
  - exists S. split; [constructor|]. split; [now apply ms_same|exact Hdone].
  - exists S. split; [constructor; apply Hno; [reflexivity|assumption]|]. split; [now apply ms_same|exact Hdone].
  - exists S. split; [econstructor; [apply Hio; [reflexivity|eassumption]|assumption]|]. split; [now apply ms_same|exact Hdone].
  - exists (on_part S tok offset part_start). split; [econstructor; [apply Hio; [reflexivity|eassumption]|assumption]|].
    split; [apply Hpart, Hmen; reflexivity|]. split; [intros t <-; apply Hmen; reflexivity|intros x []].
  - exists (on_part S tok offset (fun p => part_finish p (stream_bytes st))). split.
    { constructor; try assumption. rewrite Hup by reflexivity. assumption. }
    split; [apply Hpart, Hmen; reflexivity|]. split; intros x [].
  - exists S. split; [constructor|]. split; [now apply ms_same|exact Hdone].
  - exists (on_part S tok offset part_abort). split.
    { constructor. match goal with H : write_error _ _ _ _ _ |- _ => destruct H end; constructor; try assumption. apply Hno; [reflexivity|assumption]. }
    split; [apply Hpart, Hmen; reflexivity|exact Hdone].
  - exists (on_part S tok offset part_abort). split; [now constructor|]. split; [apply Hpart, Hmen; reflexivity|exact Hdone].
  - exists S. split; [now constructor|]. split; [now apply ms_same|exact Hdone].
  - exists S. split; [constructor; apply Hno; [reflexivity|assumption]|]. split; [now apply ms_same|exact Hdone].
  - (* take *)
    exists (set_up S (<[tok := closed u]> (ss_up S))). split; [econstructor; apply Hio; [reflexivity|assumption]|].
    assert (Hm : mine p tok) by (apply Hmen; reflexivity). split.
    2:{ split; [intros t <-; exact Hm|intros x []]. }
    eapply ms_set; [exact M|exact Hp| | | | |].
    + intros t. cbn [set_up ss_up]. destruct (decide (t = tok)) as [->|Hne].
      * right. split; [exact Hm|]. now rewrite !lookup_insert.
      * left. now rewrite !lookup_insert_ne by congruence.
    + left. auto.
    + exists ∅. cbn [set_up ss_ids]. split; set_solver.
    + intros id H1. eapply (ms_own _ _ M); eassumption.
    + intros t u1. cbn [set_up ss_up ss_ids]. intros E. destruct (decide (t = tok)) as [->|Hne].
      * rewrite lookup_insert in E. injection E as <-. cbn [closed up_key]. destruct H as [H _]. eapply (ms_upk _ _ M); eassumption.
      * rewrite lookup_insert_ne in E by congruence. eapply (ms_upk _ _ M); eassumption.
  - (* publish *)
    assert (Hm : mine p tok) by (apply Hmen; reflexivity).
    assert (Hr : route (up_key u) = p) by (eapply (ms_upk _ _ M); eassumption).
    assert (Hc : ss_com S !! up_key u = ss_com Sp !! up_key u) by (eapply com_at; eassumption).
    assert (Hot : Own p id) by (apply Hown; cbn; set_solver).
    exists (add_id (set_scom (set_up S (delete tok (ss_up S)))
      (<[up_key u := {| co_id := id; co_size := up_size u; co_created := up_created u; co_bytes := bytes |}]> (ss_com S))) id).
    rewrite <- Hc. split.
    { apply ss_publish.
      - rewrite Hup by reflexivity. assumption.
      - rewrite Hc. assumption.
      - rewrite (ms_ids _ _ M). intros (q & Sq & Hq & Hin). pose proof (ms_own _ _ M _ _ _ Hq Hin) as Hoq.
        assert (q = p) as -> by (eapply Own_excl; eassumption). congruence.
      - assumption. }
    split; [|split; intros x []]. eapply ms_set; [exact M|exact Hp| | | | |].
    + intros t. cbn [add_id set_scom set_up ss_up]. destruct (decide (t = tok)) as [->|Hne].
      * right. split; [exact Hm|]. now rewrite !lookup_delete.
      * left. now rewrite !lookup_delete_ne by congruence.
    + intros k. cbn [add_id set_scom set_up ss_com]. destruct (decide (k = up_key u)) as [->|Hne].
      * right. split; [exact Hr|]. now rewrite !lookup_insert.
      * left. now rewrite !lookup_insert_ne by congruence.
    + exists {[id]}. split; reflexivity.
    + exact Hown.
    + intros t u1. cbn [add_id set_scom set_up ss_up ss_ids]. intros E. apply lookup_delete_Some in E as [_ E].
      destruct (ms_upk _ _ M _ _ _ _ Hp E). split; [assumption|set_solver].
  - assert (Hr : route (up_key u) = p) by (eapply (ms_upk _ _ M); eassumption).
    exists (set_up S (delete tok (ss_up S))). split.
    { eapply ss_discard; [rewrite Hup by reflexivity; eassumption|rewrite (com_at _ _ _ _ _ M Hp Hr); eassumption]. }
    split; [apply Hdel, Hmen; reflexivity|split; intros x []].
  - exists S. split; [constructor|]. split; [now apply ms_same|exact Hdone].
  - exists S. split; [constructor|]. split; [now apply ms_same|exact Hdone].
  - exists S. split; [econstructor; eassumption|]. split; [now apply ms_same|exact Hdone].
  - exists S. split; [constructor; apply Hnf; [reflexivity|assumption]|]. split; [now apply ms_same|exact Hdone].
  - (* delete *)
    exists (set_scom S (delete key (ss_com S))). split; [econstructor; apply Hf; [reflexivity|assumption]|].
    assert (Hr : route key = p) by (apply Hkey; reflexivity). split; [|split; intros x []].
    eapply ms_set; [exact M|exact Hp| | | | |].
    + left. auto.
    + intros k. cbn [set_scom ss_com]. destruct (decide (k = key)) as [->|Hne].
      * right. split; [exact Hr|]. now rewrite !lookup_delete.
      * left. now rewrite !lookup_delete_ne by congruence.
    + exists ∅. cbn [set_scom ss_ids]. split; set_solver.
    + intros i H1. eapply (ms_own _ _ M); eassumption.
    + intros t u1. cbn [set_scom ss_up ss_ids]. intros E. eapply (ms_upk _ _ M); eassumption.
  - exists S. split; [constructor|]. split; [now apply ms_same|exact Hdone].
  - exists S. split; [econstructor; eassumption|]. split; [now apply ms_same|exact Hdone].
  - exists S. split; [constructor; apply Hnf; [reflexivity|assumption]|]. split; [now apply ms_same|exact Hdone].
  - exists S. split; [econstructor; apply Hf; [reflexivity|assumption]|]. split; [now apply ms_same|exact Hdone].
  - exists S. split; [constructor; apply Hnf; [reflexivity|assumption]|]. split; [now apply ms_same|exact Hdone].
  - exists S. split; [econstructor; [apply Hf; [reflexivity|eassumption]|assumption]|]. split; [now apply ms_same|exact Hdone].
  - exists S. split; [econstructor; [apply Hf; [reflexivity|eassumption]|assumption]|]. split; [now apply ms_same|].
    split; [intros x []|intros k <-; apply Hkey; reflexivity].
  - exists S. split; [constructor; try assumption; intros co i b Hc; rewrite Hcom in Hc by reflexivity; eauto|].
    split; [now apply ms_same|]. split; [intros x []|intros k <-; apply Hkey; reflexivity].
  - exists S. split; [constructor|]. split; [now apply ms_same|exact Hdone].
Qed.

(** ** Whole systems *)
Record MZ (zs : list ssys) (K : list (nat * nat)) (z : ssys) : Prop := {
  mz_st : MS (z_state <$> zs) (z_state z);
  mz_ok : forall p zp s, zs !! p = Some zp -> s ∈ z_procs zp -> proc_ok p s;
  mz_len : length K = length (z_procs z);
  mz_at : forall j p i, K !! j = Some (p, i) -> exists zp, zs !! p = Some zp /\ z_procs zp !! i = z_procs z !! j;
  mz_onto : forall p zp i s, zs !! p = Some zp -> z_procs zp !! i = Some s -> exists j, K !! j = Some (p, i);
  mz_inj : forall j j' x, K !! j = Some x -> K !! j' = Some x -> j = j';
}.
Lemma lift_step lpage zs K z p zp l zp' :
  MZ zs K z -> zs !! p = Some zp -> (forall i op, l <> LCall i op) -> spec_step lpage zp l zp' ->
  (forall id, id ∈ ss_ids (z_state zp') -> Own p id) ->
  exists l' z', spec_step lpage z l' z' /\ MZ (<[p := zp']> zs) K z' /\
    match l with LVis i v => exists j, K !! j = Some (p, i) /\ l' = LVis j v | _ => l' = LTau end.
Proof.
  intros M Hp Hnc St Hown. destruct St as [zp op|zp i s Sp' s' v Hi St]; [now exfalso; eapply Hnc|]. cbn [z_state] in Hown.
  destruct (mz_onto _ _ _ M _ _ _ _ Hp Hi) as [j Hj].
  destruct (mz_at _ _ _ M _ _ _ Hj) as (zp0 & Hp0 & Hji). assert (zp0 = zp) as -> by congruence. rewrite Hi in Hji. symmetry in Hji.
  pose proof (lookup_lt_Some _ _ _ Hp) as Hpl. pose proof (lookup_lt_Some _ _ _ Hi) as Hil. pose proof (lookup_lt_Some _ _ _ Hji) as Hjl.
  assert (Hsub : forall x, x ∈ z_procs zp -> x ∈ z_procs z).
  { intros x Hx. apply elem_of_list_lookup in Hx as [i' Hi']. destruct (mz_onto _ _ _ M _ _ _ _ Hp Hi') as [j' Hj'].
    destruct (mz_at _ _ _ M _ _ _ Hj') as (zp1 & Hp1 & E). assert (zp1 = zp) as -> by congruence. rewrite Hi' in E. symmetry in E.
    eapply elem_of_list_lookup_2, E. }
  assert (Hps : (z_state <$> zs) !! p = Some (z_state zp)) by (rewrite list_lookup_fmap, Hp; reflexivity).
  destruct (lift_sstep _ _ _ _ _ _ _ _ _ _ (mz_st _ _ _ M) Hps (mz_ok _ _ _ M _ _ _ Hp (elem_of_list_lookup_2 _ _ _ Hi)) Hown St) as (S' & HS & HM & Hok).
  exists (lab j v), {| z_state := S'; z_procs := <[j := s']> (z_procs z) |}.
  split; [apply spec_proc with (s := s); [exact Hji|]; eapply sstep_all; [exact Hsub|exact HS]|].
  split; [|destruct v; cbn; eauto]. constructor; cbn [z_state z_procs].
  - rewrite list_fmap_insert. exact HM.
  - intros q zq x Hq Hx. destruct (decide (q = p)) as [->|Hne].
    + rewrite list_lookup_insert in Hq by exact Hpl. injection Hq as <-. cbn [z_procs] in Hx.
      apply elem_of_list_lookup in Hx as [i' Hi']. destruct (decide (i' = i)) as [->|Hne'].
      * rewrite list_lookup_insert in Hi' by exact Hil. injection Hi' as <-. exact Hok.
      * rewrite list_lookup_insert_ne in Hi' by congruence. eapply (mz_ok _ _ _ M); [exact Hp|eapply elem_of_list_lookup_2, Hi'].
    + rewrite list_lookup_insert_ne in Hq by congruence. eapply (mz_ok _ _ _ M); eassumption.
  - rewrite insert_length. apply M.
  - intros j' q i' Hj'. destruct (mz_at _ _ _ M _ _ _ Hj') as (zq & Hq & E). destruct (decide (j' = j)) as [->|Hne].
    + rewrite Hj in Hj'. injection Hj' as <- <-. eexists. split; [apply list_lookup_insert; exact Hpl|]. cbn [z_procs].
      rewrite !list_lookup_insert by assumption. reflexivity.
    + assert (Ej : <[j := s']> (z_procs z) !! j' = z_procs z !! j') by (apply list_lookup_insert_ne; congruence).
      rewrite Ej. destruct (decide (q = p)) as [->|Hne'].
      * eexists. split; [apply list_lookup_insert; exact Hpl|]. cbn [z_procs]. assert (zq = zp) as -> by congruence.
        rewrite list_lookup_insert_ne; [exact E|]. intros ->. apply Hne. eapply (mz_inj _ _ _ M); eassumption.
      * exists zq. rewrite list_lookup_insert_ne by congruence. auto.
  - intros q zq i' x Hq Hx. destruct (decide (q = p)) as [->|Hne].
    + rewrite list_lookup_insert in Hq by exact Hpl. injection Hq as <-. cbn [z_procs] in Hx.
      destruct (lookup_lt_is_Some_2 (z_procs zp) i') as [y Hy]; [apply lookup_lt_Some in Hx; now rewrite insert_length in Hx|].
      eapply (mz_onto _ _ _ M); eassumption.
    + rewrite list_lookup_insert_ne in Hq by congruence. eapply (mz_onto _ _ _ M); eassumption.
  - apply M.
Qed.
Definition zids_mono lpage z l z' : spec_step lpage z l z' -> ss_ids (z_state z) ⊆ ss_ids (z_state z').
Proof. destruct 1; cbn [z_state]; [reflexivity|]. eapply sids_mono; eassumption. Qed.
Lemma zids_monos lpage z ls z' : spec_steps lpage z ls z' -> ss_ids (z_state z) ⊆ ss_ids (z_state z').
Proof. induction 1 as [|? ? ? ? ? ? IH St]; [reflexivity|]. etransitivity; [exact IH|eapply zids_mono, St]. Qed.

Fixpoint relabel (K : list (nat * nat)) (p : nat) (l : list label) (l' : list label) : Prop :=
  match l, l' with
  | [], [] => True
  | LVis i v :: l, LVis j v' :: l' => K !! j = Some (p, i) /\ v' = v /\ relabel K p l l'
  | LTau :: l, LTau :: l' => relabel K p l l'
  | _, _ => False
  end.
Lemma relabel_app K p l1 l1' l2 l2' : relabel K p l1 l1' -> relabel K p l2 l2' -> relabel K p (l1 ++ l2) (l1' ++ l2').
Proof.
  revert l1'. induction l1 as [|a l1 IH]; intros [|a' l1'] H1 H2; cbn in H1; try contradiction; [exact H2|destruct a; contradiction|].
  destruct a, a'; try contradiction; cbn; [destruct H1 as (? & ? & ?); auto|auto].
Qed.
Lemma relabel_visible K p l l' : relabel K p l l' -> relabel K p (visible l) (visible l').
Proof.
  revert l'. induction l as [|a l IH]; intros [|a' l'] H; cbn in H; try contradiction; [exact I|destruct a; contradiction|].
  destruct a, a'; try contradiction; cbn; [destruct H as (? & ? & ?); auto|auto].
Qed.
Lemma lift_steps lpage zs K z p zp ls zp' :
  MZ zs K z -> zs !! p = Some zp -> (forall i op, LCall i op ∉ ls) -> spec_steps lpage zp ls zp' ->
  (forall id, id ∈ ss_ids (z_state zp') -> Own p id) ->
  exists ls' z', spec_steps lpage z ls' z' /\ MZ (<[p := zp']> zs) K z' /\ relabel K p ls ls'.
Proof.
  intros M Hp Hnc St. induction St as [zp|zp ls z1 l z2 St IH S1]; intros Hown.
  - exists [], z. rewrite list_insert_id by exact Hp. split; [constructor|]. split; [exact M|exact I].
  - destruct (IH Hp) as (ls' & z' & H1 & H2 & H3).
    { intros i op H. apply (Hnc i op). apply elem_of_app. now left. }
    { intros id Hid. apply Hown. eapply zids_mono; eassumption. }
    destruct (lift_step lpage _ _ _ p z1 l z2 H2) as (l' & z'' & H4 & H5 & H6).
    { apply list_lookup_insert. eapply lookup_lt_Some, Hp. }
    { intros i op ->. apply (Hnc i op). apply elem_of_app. right. constructor. }
    { exact S1. }
    { exact Hown. }
    exists (ls' ++ [l']), z''. split; [econstructor; eassumption|]. rewrite list_insert_insert in H5. split; [exact H5|].
    apply relabel_app; [exact H3|]. destruct l as [i op|i v|]; [contradiction (Hnc i op); apply elem_of_app; right; constructor| |].
    + destruct H6 as (j & Hj & ->). cbn. auto.
    + subst l'. exact I.
Qed.
End Merge.
