(** The counters of a direct partition and the objects that exist. *)
From Coq Require Import ZifyBool ZifyNat ZifyN.
From stdpp Require Import base numbers list_numbers option gmap sets functions list.
From Verif Require Import Util Bytes BuddyModel PageIOModel TuplesModel.
From Verif Require Import DirectModel DirectBase DirectSteps DirectInv DirectTup DirectSpec DirectSeqSpec DirectMetricsSpec DirectSys.
Open Scope N_scope.
Ltac Zify.zify_post_hook ::= idtac.

(** How far the counters lag behind the maps because of a call. *)
Definition inc_pend (p : pc) : Z :=
  match p with
  | PCommit1 _ _ _ | PCommit2 _ _ _ | PCommit3 _ _ _ | PCommit4 _ _ _ | PCommit5 _ _ _ _ => 1
  | PReap1 _ c | PReap2 _ _ _ c | PReap3 _ c | PFinish c => - mt_incomplete (met_cont c)
  | _ => 0
  end.
Definition com_pend (p : pc) : Z :=
  match p with
  | PCommit4 _ _ None | PCommit5 _ _ _ None => -1
  | PReap1 _ c | PReap2 _ _ _ c | PReap3 _ c | PFinish c => - mt_committed (met_cont c)
  | _ => 0
  end.
Definition met_refs (p : pc) : list nat := match p with PReap3 r _ => [r] | _ => pc_refs p end.

Lemma zsum_app {A} (f : A -> Z) l k : zsum f (l ++ k) = (zsum f l + zsum f k)%Z.
Proof. induction l as [|x l IH]; cbn [app zsum]; [|rewrite IH]; lia. Qed.
Lemma zsum_perm {A} (f : A -> Z) l k : l ≡ₚ k -> zsum f l = zsum f k.
Proof. induction 1; cbn [zsum]; lia. Qed.
Lemma zsum_ext {A} (f g : A -> Z) l : (forall x, x ∈ l -> f x = g x) -> zsum f l = zsum g l.
Proof. induction l as [|x l IH]; intros H; [reflexivity|]. cbn [zsum]. rewrite (H x) by constructor. rewrite IH; [reflexivity|]. intros y Hy. apply H. now right. Qed.

Definition weight (f : dobj -> N) (h : shared) (r : nat) : Z := match h_objs h !! r with Some ob => Z.of_N (f ob) | None => 0 end.
Definition met_owners (h : shared) (ps : list pc) : list nat := vals (h_inc h) ++ vals (h_com h) ++ (ps ≫= met_refs).

Record MInv (h : shared) (ps : list pc) : Prop := {
  mi_inc : mt_incomplete (h_met h) = (Z.of_nat (length (vals (h_inc h))) + zsum inc_pend ps)%Z;
  mi_com : mt_committed (h_met h) = (Z.of_nat (length (vals (h_com h))) + zsum com_pend ps)%Z;
  mi_meta : mt_meta_bytes (h_met h) = zsum (weight b_msize h) (met_owners h ps);
  mi_data : mt_data_bytes (h_met h) = zsum (weight (fun ob => m_size (b_meta ob)) h) (met_owners h ps);
  mi_lt : forall r, r ∈ met_owners h ps -> (r < length (h_objs h))%nat;
}.

Lemma met_owners_perm h ps ps' : ps ≡ₚ ps' -> met_owners h ps ≡ₚ met_owners h ps'.
Proof. intros H. unfold met_owners. now rewrite H. Qed.
Lemma MInv_perm h ps ps' : ps ≡ₚ ps' -> MInv h ps -> MInv h ps'.
Proof.
  intros Hp [M1 M2 M3 M4 M5]. pose proof (met_owners_perm h _ _ Hp) as Ho. constructor.
  - now rewrite <- (zsum_perm _ _ _ Hp).
  - now rewrite <- (zsum_perm _ _ _ Hp).
  - now rewrite <- (zsum_perm _ _ _ Ho).
  - now rewrite <- (zsum_perm _ _ _ Ho).
  - intros r Hr. apply M5. now rewrite Ho.
Qed.
Lemma MInv_new h ps op : MInv h ps -> MInv h (PStart op :: ps).
Proof. intros [M1 M2 M3 M4 M5]. constructor; auto; cbn [zsum inc_pend com_pend]; lia. Qed.

Lemma weight_le f h h' l : (forall ob ob', same_obj ob ob' -> f ob' = f ob) -> objs_le h h' ->
  (forall r, r ∈ l -> (r < length (h_objs h))%nat) -> zsum (weight f h') l = zsum (weight f h) l.
Proof.
  intros Hf Hle Hl. apply zsum_ext. intros r Hr. apply Hl, lookup_lt_is_Some_2 in Hr as [ob E].
  destruct (Hle _ _ E) as (ob' & E' & Hs & _). unfold weight. rewrite E, E'. now rewrite (Hf _ _ Hs).
Qed.
Lemma same_size ob ob' : same_obj ob ob' -> m_size (b_meta ob') = m_size (b_meta ob).
Proof. intros (_ & E & _). now rewrite E. Qed.
Lemma same_msize ob ob' : same_obj ob ob' -> b_msize ob' = b_msize ob.
Proof. now intros (_ & _ & E & _). Qed.

(** The general step: how the maps, the counters and the references change. *)
Lemma M_gen h h' p p' rest (dm : dmetrics) (add del : list nat) :
  MInv h (p :: rest) -> objs_le h h' -> (length (h_objs h) <= length (h_objs h'))%nat ->
  h_met h' = met_add (h_met h) dm ->
  (Z.of_nat (length (vals (h_inc h'))) + inc_pend p' = Z.of_nat (length (vals (h_inc h))) + inc_pend p + mt_incomplete dm)%Z ->
  (Z.of_nat (length (vals (h_com h'))) + com_pend p' = Z.of_nat (length (vals (h_com h))) + com_pend p + mt_committed dm)%Z ->
  met_owners h' (p' :: rest) ++ del ≡ₚ add ++ met_owners h (p :: rest) ->
  (forall r, r ∈ add -> (r < length (h_objs h'))%nat) ->
  (forall r, r ∈ del -> (r < length (h_objs h))%nat) ->
  mt_meta_bytes dm = (zsum (weight b_msize h') add - zsum (weight b_msize h) del)%Z ->
  mt_data_bytes dm = (zsum (weight (fun ob => m_size (b_meta ob)) h') add - zsum (weight (fun ob => m_size (b_meta ob)) h) del)%Z ->
  MInv h' (p' :: rest).
Proof.
  intros [M1 M2 M3 M4 M5] Hle Hlen Hm Hi Hc Hp Ha Hd Hmm Hmd.
  assert (Hg : forall f, (forall ob ob', same_obj ob ob' -> f ob' = f ob) ->
    (zsum (weight f h') (met_owners h' (p' :: rest)) = zsum (weight f h) (met_owners h (p :: rest)) + zsum (weight f h') add - zsum (weight f h) del)%Z).
  { intros f Hf. apply (zsum_perm (weight f h')) in Hp. rewrite !zsum_app in Hp.
    rewrite (weight_le f h h' del Hf Hle Hd), (weight_le f h h' _ Hf Hle M5) in Hp. lia. }
  constructor; rewrite ?Hm; cbn [mt_incomplete mt_committed mt_meta_bytes mt_data_bytes met_add zsum] in *.
  - rewrite M1. lia.
  - rewrite M2. lia.
  - rewrite M3, Hmm, (Hg b_msize same_msize). lia.
  - rewrite M4, Hmd, (Hg _ same_size). lia.
  - intros r Hr. assert (r ∈ add ++ met_owners h (p :: rest)) as H.
    { rewrite <- Hp. apply elem_of_app. now left. }
    apply elem_of_app in H as [H|H]; [now apply Ha|]. apply M5 in H. lia.
Qed.
Lemma met_add_zero m : met_add m met_zero = m.
Proof. destruct m. unfold met_add, met_zero. cbn. f_equal; lia. Qed.
(** A step that changes no counter, adds no object and keeps the references. *)
Lemma M_frame h h' p p' rest :
  MInv h (p :: rest) -> objs_le h h' -> (length (h_objs h) <= length (h_objs h'))%nat ->
  h_met h' = h_met h -> h_inc h' = h_inc h -> h_com h' = h_com h -> inc_pend p' = inc_pend p -> com_pend p' = com_pend p ->
  met_refs p' = met_refs p -> MInv h' (p' :: rest).
Proof.
  intros HM Hle Hlen Hm Hi Hc Hpi Hpc Hr.
  apply (M_gen h h' p p' rest met_zero [] [] HM Hle Hlen); try (intros r Hin; now apply elem_of_nil in Hin); try reflexivity.
  - now rewrite met_add_zero.
  - rewrite Hi, Hpi. cbn. lia.
  - rewrite Hc, Hpc. cbn. lia.
  - unfold met_owners. rewrite !bind_cons, Hi, Hc, Hr, app_nil_r. reflexivity.
Qed.
(** As above, with a bump that leaves the object counters alone. *)
Lemma M_bump h h' p p' rest dm :
  MInv h (p :: rest) -> objs_le h h' -> (length (h_objs h) <= length (h_objs h'))%nat ->
  h_met h' = met_add (h_met h) dm -> mt_incomplete dm = 0%Z -> mt_committed dm = 0%Z -> mt_meta_bytes dm = 0%Z -> mt_data_bytes dm = 0%Z ->
  h_inc h' = h_inc h -> h_com h' = h_com h -> inc_pend p' = inc_pend p -> com_pend p' = com_pend p ->
  met_refs p' = met_refs p -> MInv h' (p' :: rest).
Proof.
  intros HM Hle Hlen Hm D1 D2 D3 D4 Hi Hc Hpi Hpc Hr.
  apply (M_gen h h' p p' rest dm [] [] HM Hle Hlen); try (intros r Hin; now apply elem_of_nil in Hin); try assumption.
  - rewrite Hi, Hpi, D1. lia.
  - rewrite Hc, Hpc, D2. lia.
  - unfold met_owners. rewrite !bind_cons, Hi, Hc, Hr, app_nil_r. reflexivity.
Qed.

Lemma objs_len c o h p h' p' v : pstepR c o h p h' p' v -> (length (h_objs h) <= length (h_objs h'))%nat.
Proof.
  destruct 1; cbn; rewrite ?insert_length, ?app_length; lia.
Qed.

Lemma M_step c o h p h' p' v rest :
  SInv h (p :: rest) -> MInv h (p :: rest) -> is_panic v = false -> pstepR c o h p h' p' v -> MInv h' (p' :: rest).
Proof.
  intros HS HM Hv St. pose proof (step_objs _ _ _ _ _ _ _ St) as Hle. pose proof (objs_len _ _ _ _ _ _ _ St) as Hlen.
  destruct St; try (discriminate Hv);
    try (eapply M_frame; try eassumption; reflexivity); try (eapply M_bump; try eassumption; reflexivity).
  - (* create done *)
    match goal with H : h_inc h !! id = None |- _ => rename H into Hn end.
    pose proof (vals_insert (h_inc h) id (length (h_objs h)) Hn) as Hvi.
    eapply (M_gen h _ _ _ rest (met_create_done msize (m_size m)) [length (h_objs h)] [] HM Hle Hlen); cbn; try reflexivity.
    + apply Permutation_length in Hvi. cbn in Hvi. lia.
    + lia.
    + unfold met_owners. cbn. rewrite Hvi, app_nil_r. reflexivity.
    + intros r Hr. apply elem_of_list_singleton in Hr. subst r. rewrite app_length. cbn. lia.
    + intros r Hr. now apply elem_of_nil in Hr.
    + unfold weight. cbn. rewrite list_lookup_middle by reflexivity. cbn. lia.
    + unfold weight. cbn. rewrite list_lookup_middle by reflexivity. cbn. lia.
  - (* commit begins *)
    match goal with H : h_inc h !! tok = Some r |- _ => rename H into Hn end.
    pose proof (vals_delete (h_inc h) tok r Hn) as Hvi.
    eapply (M_gen h _ _ _ rest met_zero [] [] HM Hle Hlen); cbn; try (intros q Hq; now apply elem_of_nil in Hq); try reflexivity.
    + now rewrite met_add_zero.
    + apply Permutation_length in Hvi. cbn in Hvi. lia.
    + lia.
    + unfold met_owners. cbn. rewrite Hvi, app_nil_r. perm_solve.
  - (* publish *)
    match goal with H : h_objs h !! r = Some ob |- _ => rename H into Eo end.
    match goal with H : h_com h !! m_key (b_meta ob) = existing |- _ => rename H into Hn end.
    remember (length (h_objs h)) as n eqn:En. rewrite En in Hlen at 1.
    assert (Hw : forall f, (forall ob id, f (published_obj ob id) = f ob) ->
      (zsum (weight f (use_id (set_com (add_obj h (published_obj ob (or_id o))) (<[m_key (b_meta ob) := n]> (h_com h))) (or_id o))) [n]
        - zsum (weight f h) [r] = 0)%Z).
    { intros f Hf. cbn [zsum]. unfold weight at 1. cbn. rewrite list_lookup_middle by exact En. unfold weight. rewrite Eo, Hf. lia. }
    assert (Hr : forall q, q ∈ [r] -> (q < length (h_objs h))%nat).
    { intros q Hq. apply elem_of_list_singleton in Hq. subst q. eapply lookup_lt_Some, Eo. }
    assert (Ha : forall q, q ∈ [n] -> (q < length (h_objs h ++ [published_obj ob (or_id o)]))%nat).
    { intros q Hq. apply elem_of_list_singleton in Hq. subst q. rewrite app_length. cbn. lia. }
    eapply (M_gen h _ _ _ rest met_zero [n] [r] HM Hle Hlen).
    + now rewrite met_add_zero.
    + cbn. lia.
    + cbn. destruct existing as [e|].
      * pose proof (vals_replace (h_com h) _ e n Hn) as Hvi. apply Permutation_length in Hvi. cbn in Hvi. lia.
      * pose proof (vals_insert (h_com h) _ n Hn) as Hvi. apply Permutation_length in Hvi. cbn in Hvi. lia.
    + unfold met_owners. cbn. destruct existing as [e|]; cbn.
      * pose proof (vals_replace (h_com h) _ e n Hn) as Hvi. perm_solve.
      * pose proof (vals_insert (h_com h) _ n Hn) as Hvi. perm_solve.
    + exact Ha.
    + exact Hr.
    + symmetry. apply Hw. reflexivity.
    + symmetry. apply (Hw (fun ob => m_size (b_meta ob))). reflexivity.
  - (* delete begins *)
    match goal with H : find_committed _ _ _ = _ |- _ => rename H into Hf end.
    apply find_committed_Some in Hf as (Hk & _).
    pose proof (vals_delete (h_com h) key r Hk) as Hvi.
    eapply (M_gen h _ _ _ rest met_zero [] [] HM Hle Hlen); cbn; try (intros q Hq; now apply elem_of_nil in Hq); try reflexivity.
    + now rewrite met_add_zero.
    + lia.
    + apply Permutation_length in Hvi. cbn in Hvi. lia.
    + unfold met_owners. cbn. rewrite app_nil_r. perm_solve.
  - (* reaped *)
    match goal with H : h_objs h !! r = Some ob |- _ => rename H into Eo end.
    eapply (M_gen h _ _ _ rest (met_reaped (b_msize ob) (m_size (b_meta ob))) [] [r] HM Hle Hlen); cbn; try reflexivity.
    + lia.
    + lia.
    + unfold met_owners. cbn. perm_solve.
    + intros q Hq. now apply elem_of_nil in Hq.
    + intros q Hq. apply elem_of_list_singleton in Hq. subst q. eapply lookup_lt_Some, Eo.
    + unfold weight. rewrite Eo. lia.
    + unfold weight. rewrite Eo. lia.
  - (* finished *)
    eapply (M_gen h _ _ _ rest (met_cont k) [] [] HM Hle Hlen); try (intros q Hq; now apply elem_of_nil in Hq); try reflexivity.
    + cbn [inc_pend bump h_inc]. lia.
    + cbn [com_pend bump h_com]. lia.
    + unfold met_owners. cbn. rewrite app_nil_r. reflexivity.
    + destruct k as [[]|]; reflexivity.
    + destruct k as [[]|]; reflexivity.
Qed.

Lemma M_steps c pages y0 ls y : cfg_ok c -> fresh_partition c pages y0 -> dsteps c y0 ls y -> valid_calls (dc_lpage c) ls -> no_panics ls ->
  SInv (y_sh y) (y_procs y) /\ MInv (y_sh y) (y_procs y).
Proof.
  intros Hc Hf Hs. pose proof (fresh_good _ _ _ (ck_pages _ Hc) Hf) as HG. induction Hs as [y|y ls y1 l y2 Hs IH St]; intros Hv Hn.
  - destruct HG as [(qs & sp & _ & _ & HS & _)]. split; [exact HS|]. destruct Hf. destruct y as [h ps]. cbn in *.
    constructor; unfold met_owners; rewrite ?fp_met, ?fp_inc, ?fp_com, ?fp_procs; try reflexivity.
    intros r Hr. cbn in Hr. now apply elem_of_nil in Hr.
  - assert (Hs2 : SInv (y_sh y2) (y_procs y2)).
    { destruct (good_steps _ _ _ _ _ Hc Hv HG (dsteps_snoc _ _ _ _ _ _ Hs St)) as (? & ? & ? & ? & _ & _ & [(qs & sp & _ & _ & HS & _)] & _). exact HS. }
    split; [exact Hs2|].
    destruct (IH Hf HG) as [HS HM].
    { intros i op Hin. apply (Hv i). apply elem_of_app. now left. }
    { intros i Hin. apply (Hn i). apply elem_of_app. now left. }
    clear IH Hs2. destruct St as [y1 op|y1 i p o h' p' v Hi Hid Hlt Htm Hst|y1 i p addr len f Hi Hin|y1 t' Ht]; cbn [y_sh y_procs].
    + eapply MInv_perm; [apply Permutation_cons_append|]. now apply MInv_new.
    + pose proof (delete_Permutation _ i _ Hi) as Hpm. apply pstep_R in Hst.
      eapply MInv_perm; [symmetry; eapply insert_perm, Hi|].
      eapply M_step; [eapply SInv_perm; eassumption|eapply MInv_perm; eassumption| |exact Hst].
      destruct v as [[[]| |]|]; try reflexivity. exfalso. apply (Hn i). apply elem_of_app. right. constructor.
    + destruct HM as [M1 M2 M3 M4 M5]. constructor; assumption.
    + destruct HM as [M1 M2 M3 M4 M5]. constructor; assumption.
Qed.

(** ** Counters of calls *)
Definition writing (p : pc) : Z :=
  match p with PWrite1 _ _ _ | PWrite2 _ _ _ _ _ | PWrite3 _ _ _ _ _ | PWrite4 _ _ _ _ _ | PWrite5 _ _ _ => 1 | _ => 0 end.

Lemma writing_nonneg ps : (0 <= zsum writing ps)%Z.
Proof. induction ps as [|p ps IH]; cbn [zsum]; [lia|]. destruct p; cbn [writing]; lia. Qed.

Lemma ops_step c o h p h' p' v i : pstepR c o h p h' p' v ->
  (mt_create (h_met h') = mt_create (h_met h) + count is_created [lab i v])%Z /\
  (mt_commit (h_met h') = mt_commit (h_met h) + count is_committed [lab i v])%Z /\
  (mt_delete (h_met h') = mt_delete (h_met h) + count is_deleted [lab i v])%Z /\
  (mt_inspect (h_met h') = mt_inspect (h_met h) + count is_inspected [lab i v])%Z /\
  (mt_read (h_met h') = mt_read (h_met h) + count is_reading [lab i v])%Z /\
  (mt_write (h_met h) + count is_written [lab i v] + writing p' <= mt_write (h_met h') + writing p)%Z.
Proof.
  destruct 1; try (cbn; lia).
  - match goal with H : write_ends _ _ |- _ => destruct H end; cbn; lia.
  - destruct k as [[]|]; cbn; lia.
Qed.

Lemma ops_steps c pages y0 ls y : fresh_partition c pages y0 -> dsteps c y0 ls y ->
  (mt_create (h_met (y_sh y)) = count is_created ls)%Z /\
  (mt_commit (h_met (y_sh y)) = count is_committed ls)%Z /\
  (mt_delete (h_met (y_sh y)) = count is_deleted ls)%Z /\
  (mt_inspect (h_met (y_sh y)) = count is_inspected ls)%Z /\
  (mt_read (h_met (y_sh y)) = count is_reading ls)%Z /\
  (count is_written ls + zsum writing (y_procs y) <= mt_write (h_met (y_sh y)))%Z.
Proof.
  intros Hf Hs. induction Hs as [y|y ls y1 l y2 Hs IH St].
  - destruct Hf. rewrite fp_met, fp_procs. cbn. lia.
  - specialize (IH Hf). unfold count in *. rewrite !zsum_app.
    destruct St as [y1 op|y1 i p o h' p' v Hi Hid Hlt Htm Hst|y1 i p addr len f Hi Hin|y1 t' Ht]; cbn [y_sh y_procs h_met set_dev set_tup].
    + rewrite zsum_app. cbn [zsum writing]. lia.
    + apply pstep_R in Hst. apply (ops_step _ _ _ _ _ _ _ i) in Hst. unfold count in Hst. change (match v with Some v => LVis i v | None => LTau end) with (lab i v).
      rewrite (zsum_perm writing _ _ (insert_perm _ i p p' Hi)). rewrite (zsum_perm writing _ _ (delete_Permutation _ i _ Hi)) in IH.
      cbn [zsum] in *. lia.
    + cbn [zsum]. lia.
    + cbn [zsum]. lia.
Qed.
