(** What a partition that is opened again has in common with the one that was
    abandoned. *)
From Coq Require Import ZifyBool ZifyNat ZifyN.
From stdpp Require Import base numbers list_numbers option gmap sets functions list.
From Verif Require Import Util Bytes BuddyModel BuddySpec BuddyProofs BuddyInv LayoutModel LayoutProofs.
From Verif Require Import PageIOModel PageIOSpec PageIOProofs PageIOSys TuplesModel TuplesSpec TuplesProofs TuplesSys TuplesDurable TuplesLife.
From Verif Require Import DirectModel DirectBase DirectSteps DirectInv DirectTup DirectAlloc DirectDev DirectSpec DirectRel DirectSim DirectSys.
From Verif Require Import DirectLoadModel DirectCodec DirectRec DirectLog DirectLoad DirectSource DirectSeqSpec DirectAlive DirectOld DirectRestart DirectRestart2 DirectRestartSpec.
Open Scope N_scope.
Ltac Zify.zify_post_hook ::= idtac.

Lemma introduced_touched cl id : id ∈ introduced cl -> id ∈ touched cl.
Proof. destruct cl; cbn; [auto| |]; intros H; [|inversion H]. apply elem_of_list_singleton in H as ->. right. constructor. Qed.

Section Found.
Context (c : dcfg) (y : dsys) (z : ssys) (qs : list (pc * sproc)) (lk : list page) (sp : index).
Context (pages : list (list N)) (t0 : tsys) (init : list (list tuple)) (cs : list tcall).
Notation h := (y_sh y).
Notation ps := (y_procs y).
Notation S := (z_state z).
Hypothesis Hc : cfg_ok c.
Hypothesis Hps : ps = qs.*1.
Hypothesis Hzs : z_procs z = qs.*2.
Hypothesis HS : SInv h ps.
Hypothesis HT : TInv c h ps sp false.
Hypothesis HA : AInv c h ps lk.
Hypothesis HR : Rel c h S qs.
Hypothesis HK : KInv c t0 init h ps cs.
Hypothesis HRec : RecInv c h ps.
Hypothesis HTy : TyInv h ps.
Hypothesis Hex : ~ inexact c y.
Hypothesis Ho : opens (dc_spage c) pages init t0.
Variable had : list N -> cobj -> Prop.
Hypothesis Hcur : forall key co, ss_com S !! key = Some co -> had key co.
Hypothesis HO : OldInv c h ps had.
Variable D : index.
Variable J : N -> nat.
Hypothesis HJ : forall id, (J id <= length cs)%nat /\ D !! id = after_calls (index_of init) (take (J id) cs) !! id.
Hypothesis Hack : forall k cl id, cs !! k = Some cl -> k ∈ sy_acked (h_tup h) -> id ∈ touched cl -> (k < J id)%nat.
Hypothesis Hpair : forall k cur new st, cs !! k = Some (CUpdate cur new st) -> J cur = J new.
Notation source := (source c h ps cs D).
Notation at_k k := (after_calls (index_of init) (take k cs)).
Let Hfr : fresh_ids init cs := k_fresh _ _ _ _ _ _ HK.
Let Hsp : sp = after_calls (index_of init) cs := sp_eq c h ps sp pages t0 init cs HT HK Ho.

Lemma pc_spec p : p ∈ ps -> exists s, s ∈ z_procs z /\ pc_rel c h S p s.
Proof.
  intros Hp. rewrite Hps in Hp. apply elem_of_list_fmap in Hp as ([p' s] & -> & Hin). exists s. split.
  - rewrite Hzs. apply elem_of_list_fmap. exists (p', s). auto.
  - exact (rl_pcs _ _ _ _ HR _ _ Hin).
Qed.

(** An entry removed is gone. *)
Lemma removed k cl id t : cs !! k = Some cl -> removes cl id -> at_k k !! id = Some t ->
  forall j, (k < j <= length cs)%nat -> at_k j !! id = None.
Proof.
  intros Hcl Hrm Et j [Hj Hl]. pose proof (present_known _ _ _ _ Et) as Hk.
  assert (E1 : at_k (Datatypes.S k) !! id = None).
  { rewrite (take_S_r cs k cl Hcl), after_calls_snoc. destruct Hrm as [->|(new & st & ->)]; cbn [apply_call]; [apply lookup_delete|].
    rewrite Et. pose proof (known_once init cs Hfr k k _ id Hk ltac:(lia) Hcl) as Hni. cbn [introduced] in Hni.
    rewrite lookup_insert_ne; [apply lookup_delete|]. intros ->. apply Hni. constructor. }
  destruct (life init cs Hfr (Datatypes.S k) j id) as [H|[H _]]; [|lia|congruence|exact H].
  unfold known in *. rewrite elem_of_app in *. destruct Hk as [Hk|Hk]; [now left|right]. apply elem_of_concat_intro in Hk as (i & x & Hi & Hin).
  apply elem_of_concat_intro. exists i, x. split; [|exact Hin]. apply lookup_take_Some in Hi as [Hi Hlt]. rewrite lookup_take by lia. exact Hi.
Qed.
Lemma removed_sp k cl id t : cs !! k = Some cl -> removes cl id -> at_k k !! id = Some t -> sp !! id = None.
Proof.
  intros H1 H2 H3. rewrite Hsp, <- (take_ge cs (length cs)) by lia. eapply removed; [exact H1|exact H2|exact H3|]. apply lookup_lt_Some in H1. lia.
Qed.
Lemma removed_once k1 cl1 k2 cl2 id t1 t2 : cs !! k1 = Some cl1 -> removes cl1 id -> at_k k1 !! id = Some t1 ->
  cs !! k2 = Some cl2 -> removes cl2 id -> at_k k2 !! id = Some t2 -> k1 = k2.
Proof.
  intros A1 A2 A3 B1 B2 B3. pose proof (lookup_lt_Some _ _ _ A1). pose proof (lookup_lt_Some _ _ _ B1).
  destruct (Nat.lt_trichotomy k1 k2) as [Hlt|[->|Hlt]]; [|reflexivity|].
  - rewrite (removed _ _ _ _ A1 A2 A3 k2) in B3 by lia. discriminate.
  - rewrite (removed _ _ _ _ B1 B2 B3 k1) in A3 by lia. discriminate.
Qed.
Lemma commit5_gone k new e tok st : PCommit5 tok k new e ∈ ps -> cs !! k = Some (CUpdate tok new st) ->
  sp !! tok = None /\ exists t, at_k k !! tok = Some t.
Proof.
  intros Hp Hk. destruct (k_log _ _ _ _ _ _ HK _ Hp) as (t & r & ob & H1 & H2 & _).
  split; [|eauto]. eapply removed_sp; [exact Hk|right; eauto|exact H2].
Qed.
Lemma present4 tok new e : PCommit4 tok new e ∈ ps -> is_Some (sp !! tok).
Proof. intros Hp. destruct (t_pc _ _ _ _ _ HT _ Hp) as (_ & _ & _ & _ & _ & t & H & _). eauto. Qed.

(** The source of the entry of an object that an open upload or a committed
    object refers to. *)
Lemma ref_source r ob t s : r ∈ irefs h ps \/ r ∈ crefs h ps -> h_objs h !! r = Some ob -> source (b_id ob) t s -> s = inl r.
Proof.
  intros Hr Eo Hs. assert (Hown : r ∈ owners h ps) by (destruct Hr; [now apply irefs_owner|now apply crefs_owner]).
  destruct Hs as [r1 ob1 st Hr1 Eo1 Hid Ht Hwh|r1 ob1 Hr1 Eo1 Hn Ht Hwh|m msize moff k Hp Ht].
  - f_equal. eapply id_unique; [exact HS|exact Eo1|exact Eo|exact Hid].
  - exfalso. destruct Hwh as [(e & Hp)|(k & e & Hp & Hk)].
    + apply (t_own _ _ _ _ _ HT r ob Hown Eo). apply elem_of_list_bind. eexists. split; [|exact Hp]. constructor.
    + destruct (commit5_gone _ _ _ _ _ Hp Hk) as (Hg & t' & Ht').
      destruct Hr as [Hr|Hr].
      * destruct (t_i _ _ _ _ _ HT r Hr) as (ob2 & E2 & H2). assert (ob2 = ob) as -> by congruence. congruence.
      * destruct (t_c _ _ _ _ _ HT r Hr) as [(ob2 & E2 & H2)|(ob2 & tok2 & ex2 & E2 & Hp2 & _)]; assert (ob2 = ob) as -> by congruence; [congruence|].
        destruct (k_known _ _ _ _ _ _ HK (b_id ob)) as (_ & _ & Hn4); [eapply known_take, present_known, Ht'|].
        apply Hn4. apply elem_of_list_bind. eexists. split; [|exact Hp2]. constructor.
  - exfalso. eapply (new_id_not_obj h ps r ob); [exact HS|exact Eo|exact Hp|]. constructor.
Qed.

Lemma uref_iref tok r : uref h ps tok r -> r ∈ irefs h ps.
Proof.
  intros [H|(p & Hp & Hcr)]; unfold irefs; apply elem_of_app; [left; apply elem_of_vals; eauto|right]. apply elem_of_list_bind. exists p.
  split; [|exact Hp]. destruct p; try discriminate; injection Hcr as <- _; constructor.
Qed.
Lemma iref_up r : r ∈ irefs h ps -> (exists tok ob, h_objs h !! r = Some ob /\ b_id ob = tok /\ uref h ps tok r) \/ SDiscarded ∈ z_procs z.
Proof.
  intros Hr. unfold irefs in Hr. apply elem_of_app in Hr as [Hr|Hr].
  - left. apply elem_of_vals in Hr as [tok Hk]. destruct (s_inc _ _ HS _ _ Hk) as (ob & E & Hi & _). exists tok, ob. split; [exact E|]. split; [exact Hi|]. now left.
  - apply elem_of_list_bind in Hr as (p & Hin & Hp). pose proof (s_pcs _ _ HS _ Hp) as Hok.
    destruct p; try (inversion Hin; fail).
    1-3: left; cbn in Hin; apply elem_of_list_singleton in Hin as ->; destruct Hok as (ob & E & Hi); try (apply proj1 in Hi); exists tok, ob; split; [exact E|]; split; [exact Hi|]; right; eexists; split; [exact Hp|reflexivity].
    right. destruct c0 as [[]|]; try (inversion Hin; fail). destruct (pc_spec _ Hp) as (s & Hs & Hrel). cbn in Hrel. destruct s; try contradiction. exact Hs.
Qed.
Lemma cref_com r ob : r ∈ crefs h ps -> h_objs h !! r = Some ob -> h_com h !! m_key (b_meta ob) = Some r \/ removing z (b_id ob).
Proof.
  intros Hr Eo. unfold crefs in Hr. apply elem_of_app in Hr as [Hr|Hr].
  - left. apply elem_of_vals in Hr as [key Hk]. destruct (s_com _ _ HS _ _ Hk) as (ob' & E & Hi & _). assert (ob' = ob) as -> by congruence. congruence.
  - right. apply elem_of_list_bind in Hr as (p & Hin & Hp). destruct (pc_spec _ Hp) as (s & Hs & Hrel).
    assert (Hh : forall r' v, r' = r -> has_id h r' v -> v = b_id ob) by (intros r' v -> (ob' & E & <-); congruence).
    destruct p; try (inversion Hin; fail).
    + destruct s; try contradiction. cbn in Hin, Hrel. destruct existing as [r'|]; [|inversion Hin]. apply elem_of_list_singleton in Hin as ->.
      destruct Hrel as (_ & _ & Hv). destruct replaced as [v|]; [|contradiction]. rewrite <- (Hh r' v eq_refl Hv). left. eauto.
    + destruct s; try contradiction. cbn in Hin, Hrel. destruct existing as [r'|]; [|inversion Hin]. apply elem_of_list_singleton in Hin as ->.
      destruct Hrel as (_ & _ & Hv). destruct replaced as [v|]; [|contradiction]. rewrite <- (Hh r' v eq_refl Hv). left. eauto.
    + cbn in Hrel. destruct c0 as [[new|] dl|]; cbn in Hin; [|inversion Hin|]; apply elem_of_list_singleton in Hin as ->.
      * destruct s as [| | | |tk new' [v|]| | | |]; try contradiction. destruct Hrel as [_ Hv]. rewrite <- (Hh r0 v eq_refl Hv). left. eauto.
      * destruct s; try contradiction. rewrite <- (Hh r0 _ eq_refl Hrel). now right.
Qed.
Lemma reap_removing r t n kk ob : PReap2 r t n kk ∈ ps -> h_objs h !! r = Some ob ->
  (reap_state kk = ds_committed -> removing z (b_id ob)) /\ (reap_state kk = ds_incomplete -> SDiscarded ∈ z_procs z).
Proof.
  intros Hp Eo. destruct (pc_spec _ Hp) as (s & Hs & Hrel). cbn in Hrel.
  assert (Hh : forall v, has_id h r v -> v = b_id ob) by (intros v (ob' & E & <-); congruence).
  destruct kk as [[new|] dl|]; cbn [reap_state]; (split; [intros H|intros H]; try discriminate H).
  - destruct s as [| | | |tk new' [v|]| | | |]; try contradiction. destruct Hrel as [_ Hv]. rewrite <- (Hh v Hv). left. eauto.
  - destruct s; try contradiction. exact Hs.
  - destruct s; try contradiction. rewrite <- (Hh _ Hrel). now right.
Qed.
Lemma commit_publishing_from tok new : (exists e, PCommit4 tok new e ∈ ps) \/ (exists k e, PCommit5 tok k new e ∈ ps) -> publishing_from z tok new.
Proof.
  intros [(e & Hp)|(k & e & Hp)]; destruct (pc_spec _ Hp) as (s & Hs & Hrel); destruct s; try contradiction; destruct Hrel as (-> & -> & _); eexists; exact Hs.
Qed.
Lemma commit_publishing new : (exists tok e, PCommit4 tok new e ∈ ps) \/ (exists tok k e, PCommit5 tok k new e ∈ ps) -> publishing z new.
Proof. intros [(tok & e & Hp)|(tok & k & e & Hp)]; exists tok; apply commit_publishing_from; eauto. Qed.

(** ** The entries found *)
Context (t' : tsys) (init' : list (list tuple)) (order : list tuple) (es : list entry) (ss : list (nat + pc)) (h' : shared).
Hypothesis Ho' : opens (dc_spage c) (sy_disk (h_tup h)) init' t'.
Hypothesis HD : D = index_of init'.
Hypothesis Hord : order ≡ₚ concat init'.
Hypothesis Hes : es.*1 = order.
Hypothesis Hids : NoDup (eid <$> es).
Hypothesis HF : Forall2 (from_slot c y cs D) es ss.
Hypothesis HL : LInv c (h_dev h) t' (h_used h) h' es.

Lemma es_slot e : e ∈ es -> exists s, from_slot c y cs D e s.
Proof. intros He. apply elem_of_list_lookup_1 in He as [i Hi]. destruct (Forall2_lookup_l _ _ _ _ _ HF Hi) as (s & _ & H). eauto. Qed.
Lemma es_D e : e ∈ es -> D !! eid e = Some (fst e).
Proof. intros He. eapply (order_D c y D init' t' Ho' HD order Hord). rewrite <- Hes. now apply elem_of_list_fmap_1. Qed.
Lemma D_es id t : D !! id = Some t -> exists e, e ∈ es /\ fst e = t /\ eid e = id.
Proof.
  intros E. destruct (D_order c y D init' t' Ho' HD order Hord id t E) as [H1 H2]. rewrite <- Hes in H1. apply elem_of_list_fmap in H1 as (e & -> & He).
  exists e. auto.
Qed.
Lemma es_used e : e ∈ es -> eid e ∈ h_used h.
Proof.
  intros He. pose proof (es_D e He) as E. apply (k_known _ _ _ _ _ _ HK). eapply known_take. eapply (disk_present init cs D J HJ). exact E.
Qed.
Lemma es_facts e : e ∈ es -> entry_ok c (h_dev h) e /\ ty_meta (snd e) /\ exact_meta c (msize_of (snd e)) /\
  dev_read (h_dev h) (t_off (fst e)) (msize_of (snd e)) = meta_encode (snd e).
Proof.
  intros He. destruct (es_slot e He) as (s & Hs & Hm & Hok & _ & Hin). split; [exact Hok|].
  assert (G : forall r ob, r ∈ owners h ps -> h_objs h !! r = Some ob -> snd e = b_meta ob -> t_off (fst e) = fst (b_mpage ob) ->
     ty_meta (snd e) /\ exact_meta c (msize_of (snd e)) /\ dev_read (h_dev h) (t_off (fst e)) (msize_of (snd e)) = meta_encode (snd e)).
  { intros r ob Hr Eo -> ->. destruct (a_objs _ _ _ _ HA r ob Eo) as (M1 & M2 & M3 & M4). rewrite <- M2.
    assert (Hxm : exact_meta c (b_msize ob)).
    { unfold exact_meta. destruct (N.eq_dec (metadata_page_pow2 (dc_spage c) (b_msize ob)) (alloc_pow2 (dc_spage c) (b_msize ob))) as [H|H]; [exact H|].
      exfalso. apply Hex. left. exists r, ob. split; [exact Eo|exact H]. }
    split; [exact (ty_objs _ _ HTy _ _ Eo)|]. split; [exact Hxm|]. exact (ri_own _ _ _ HRec r ob Hr Eo Hxm). }
  destruct Hs as [r ob st Hr Eo Hid Ht Hwh|r ob Hr Eo Hn Ht Hwh|m msize moff k Hp Ht].
  - destruct Hm as (ob' & E' & Hm). assert (ob' = ob) as -> by congruence. apply (G r ob Hr Eo Hm). now rewrite Ht.
  - destruct Hm as (ob' & E' & Hm). assert (ob' = ob) as -> by congruence. apply (G r ob Hr Eo Hm). now rewrite Ht.
  - destruct Hm as (msize' & moff' & id' & k' & E). injection E as Em <- <- _ <-. rewrite <- Em. destruct (a_pcs _ _ _ _ HA _ Hp) as (M1 & M2 & M3).
    assert (Hxm : exact_meta c msize).
    { unfold exact_meta. destruct (N.eq_dec (metadata_page_pow2 (dc_spage c) msize) (alloc_pow2 (dc_spage c) msize)) as [H|H]; [exact H|].
      exfalso. apply Hex. right. eexists. split; [exact Hp|exact H]. }
    subst msize. split; [exact (ty_pcs _ _ HTy _ Hp)|]. split; [exact Hxm|]. rewrite Ht. exact (ri_pcs _ _ _ HRec _ Hp Hxm).
Qed.
Lemma ref_meta r ob e : r ∈ irefs h ps \/ r ∈ crefs h ps -> h_objs h !! r = Some ob -> e ∈ es -> eid e = b_id ob -> snd e = b_meta ob.
Proof.
  intros Hr Eo He Hid. destruct (es_slot e He) as (s & Hs & Hm & _). rewrite Hid in Hs. rewrite (ref_source _ _ _ _ Hr Eo Hs) in Hm.
  destruct Hm as (ob' & E & ->). congruence.
Qed.

(** ** The state of the specification *)
Definition creating (tok : N) : bool := existsb (fun p => match p with PCreate4 _ _ _ id _ => id =? tok | _ => false end) ps.
Definition raw_up (m : dmeta) : upload :=
  {| up_key := m_key m; up_size := m_size m; up_created := m_created m; up_open := true;
     up_parts := whole_part (dc_lpage c) (m_size m) (byte_at (h_dev h) (dpages c m)) |}.
Definition rec_up (tok : N) (m : dmeta) : upload :=
  match ss_up S !! tok with
  | Some u => reopened_upload u
  | None => if creating tok then new_upload (m_key m) (m_size m) (m_created m) else raw_up m
  end.
Definition raw_com (id : N) (m : dmeta) : cobj :=
  {| co_id := id; co_size := m_size m; co_created := m_created m; co_bytes := byte_at (h_dev h) (dpages c m) |}.
Definition rec_com (key : list N) (id : N) (m : dmeta) : cobj :=
  match ss_com S !! key with Some co => if co_id co =? id then co else raw_com id m | None => raw_com id m end.
Definition S' : sstate :=
  {| ss_up := map_imap (fun tok r => ob ← h_objs h' !! r; Some (rec_up tok (b_meta ob))) (h_inc h');
     ss_com := map_imap (fun key r => ob ← h_objs h' !! r; Some (rec_com key (b_id ob) (b_meta ob))) (h_com h');
     ss_ids := ss_ids S ∪ list_to_set (eid <$> es) |}.
Lemma S'_up tok : ss_up S' !! tok = r ← h_inc h' !! tok; ob ← h_objs h' !! r; Some (rec_up tok (b_meta ob)).
Proof. cbn [S' ss_up]. rewrite map_lookup_imap. reflexivity. Qed.
Lemma S'_com key : ss_com S' !! key = r ← h_com h' !! key; ob ← h_objs h' !! r; Some (rec_com key (b_id ob) (b_meta ob)).
Proof. cbn [S' ss_com]. rewrite map_lookup_imap. reflexivity. Qed.
Lemma S'_up_inc e : e ∈ es -> is_inc e -> ss_up S' !! eid e = Some (rec_up (eid e) (snd e)).
Proof. intros He Hi. destruct (li_inc2 _ _ _ _ _ _ HL e He Hi) as (r & H1 & H2). rewrite S'_up, H1. cbn [mbind option_bind]. rewrite H2. reflexivity. Qed.
Lemma S'_up_Some tok u : ss_up S' !! tok = Some u -> exists e, e ∈ es /\ is_inc e /\ eid e = tok /\ u = rec_up tok (snd e).
Proof.
  rewrite S'_up. destruct (h_inc h' !! tok) as [r|] eqn:E; [|discriminate]. destruct (li_inc _ _ _ _ _ _ HL _ _ E) as (e & He & Er & Hi & Hid).
  cbn [mbind option_bind]. rewrite Er. cbn [mbind option_bind]. intros H. injection H as <-. exists e. auto.
Qed.
Lemma S'_com_Some key co : ss_com S' !! key = Some co -> exists e, e ∈ es /\ is_com e /\ ekey e = key /\ co = rec_com key (eid e) (snd e).
Proof.
  rewrite S'_com. destruct (h_com h' !! key) as [r|] eqn:E; [|discriminate]. destruct (li_com _ _ _ _ _ _ HL _ _ E) as (e & He & Er & Hi & Hid).
  cbn [mbind option_bind]. rewrite Er. cbn [mbind option_bind]. intros H. injection H as <-. exists e. auto.
Qed.
Lemma rec_com_id key id m : co_id (rec_com key id m) = id.
Proof. unfold rec_com. destruct (ss_com S !! key) as [co|]; [|reflexivity]. destruct (N.eqb_spec (co_id co) id); auto. Qed.

Lemma up_found tok u r : ss_up S !! tok = Some u -> uref h ps tok r -> exists ob, h_objs h !! r = Some ob /\ b_id ob = tok /\ r ∈ irefs h ps /\
  m_key (b_meta ob) = up_key u /\ m_size (b_meta ob) = up_size u /\ m_created (b_meta ob) = up_created u /\
  forall off, part_rel c (h_dev h) qs.*2 tok (b_meta ob) off (up_parts u off).
Proof.
  intros Hu Hr. rewrite Hps in Hr. destruct (rl_up _ _ _ _ HR tok r Hr) as (u' & Hu' & ob & E & A1 & A2 & A3 & A4 & A5).
  assert (u' = u) as -> by congruence. rewrite <- Hps in Hr. exists ob. split; [exact E|]. split; [exact A1|]. split; [eapply uref_iref, Hr|]. auto.
Qed.
Lemma up_ref tok u : ss_up S !! tok = Some u -> exists r, uref h ps tok r.
Proof. intros Hu. rewrite Hps. exact (rl_ref _ _ _ _ HR tok u Hu). Qed.

Lemma whole_rel tok m off : part_rel c (h_dev h) [] tok m off (whole_part (dc_lpage c) (m_size m) (byte_at (h_dev h) (dpages c m)) off).
Proof.
  unfold whole_part, part_rel. cbn [pt_writers pt_clean pt_data nact]. split; [reflexivity|]. split; [discriminate|].
  intros l Hl. split; [reflexivity|]. destruct ((off mod 2 ^ dc_lpage c =? 0) && (off <? m_size m)) eqn:E; [|discriminate].
  apply andb_true_iff in E as [E1 E2]. apply N.eqb_eq in E1. apply N.ltb_lt in E2. injection Hl as <-. split.
  - split; [exact E1|]. rewrite fmap_length, seq_length. clear -E2. generalize (2 ^ dc_lpage c). intros P. lia.
  - intros i b Hb. rewrite list_lookup_fmap in Hb. destruct (seq _ _ !! i) as [j|] eqn:Hj; [|discriminate]. apply lookup_seq in Hj as [-> _]. injection Hb as <-. f_equal.
Qed.
Lemma raw_restores m co : m_size m = co_size co -> m_created m = co_created co ->
  (forall i, i < m_size m -> byte_at (h_dev h) (dpages c m) i = co_bytes co i) -> restores (dc_lpage c) (raw_up m) (m_key m) co.
Proof.
  intros E1 E2 E3. unfold restores, raw_up. cbn [up_key up_size up_created up_open up_parts]. do 4 (split; [auto|]). intros off.
  unfold whole_part. f_equal. rewrite <- E1. destruct ((off mod 2 ^ dc_lpage c =? 0) && (off <? m_size m)) eqn:E; [|reflexivity].
  apply andb_true_iff in E as [_ E]. apply N.ltb_lt in E. f_equal. apply list_fmap_ext. intros i x Hx. apply lookup_seq in Hx as [-> Hx]. apply E3.
  clear -E Hx. lia.
Qed.
Lemma creating_spec tok : creating tok = true <-> exists m msize moff k, PCreate4 m msize moff tok k ∈ ps.
Proof.
  unfold creating. rewrite existsb_exists. split.
  - intros (p & Hin & Hp). apply elem_of_list_In in Hin. destruct p; try discriminate. apply N.eqb_eq in Hp as ->. eauto 10.
  - intros (m & msize & moff & k & Hp). eexists. split; [apply elem_of_list_In, Hp|]. apply N.eqb_refl.
Qed.
Lemma creating_obj r ob : h_objs h !! r = Some ob -> creating (b_id ob) = false.
Proof.
  intros Eo. destruct (creating (b_id ob)) eqn:E; [exfalso|reflexivity]. apply creating_spec in E as (m & msize & moff & k & Hp).
  eapply (new_id_not_obj h ps r ob); [exact HS|exact Eo|exact Hp|]. constructor.
Qed.
(** An upload a commit has replaced in the index is not being created. *)
Lemma creating_update tok new : (exists e, PCommit4 tok new e ∈ ps) \/ (exists k e, PCommit5 tok k new e ∈ ps /\ cs !! k = Some (CUpdate tok new ds_committed)) -> creating tok = false.
Proof.
  intros Hwh. destruct (creating tok) eqn:E; [exfalso|reflexivity]. apply creating_spec in E as (m & msize & moff & k & Hp2).
  destruct Hwh as [(e & Hp)|(k1 & e & Hp & Hk)].
  - destruct (t_pc _ _ _ _ _ HT _ Hp) as (_ & _ & _ & _ & (r3 & ob3 & E3 & I3) & _).
    eapply (new_id_not_obj h ps r3 ob3); [exact HS|exact E3|exact Hp2|]. rewrite I3. constructor.
  - destruct (commit5_gone _ _ _ _ _ Hp Hk) as [Hg _]. pose proof (t_pc _ _ _ _ _ HT _ Hp2) as Hpe. cbn [pc_entry] in Hpe. congruence.
Qed.
(** The object of an entry that a commit is replacing is one the key has had. *)
Lemma update_had tok r ob : r ∈ owners h ps -> h_objs h !! r = Some ob -> D !! b_id ob = None ->
  (exists e, PCommit4 tok (b_id ob) e ∈ ps) \/ (exists k e, PCommit5 tok k (b_id ob) e ∈ ps /\ cs !! k = Some (CUpdate tok (b_id ob) ds_committed)) ->
  exists co, had (m_key (b_meta ob)) co /\ com_rel c h (Some r) (Some co).
Proof.
  intros Hr Eo Hn Hwh.
  assert (Hnoi : r ∈ irefs h ps -> False).
  { intros Hi. destruct (t_i _ _ _ _ _ HT r Hi) as (ob2 & E2 & H2). assert (ob2 = ob) as -> by congruence.
    pose proof (iref_settled c pages t0 init Ho h ps cs sp false r ob HT HK Hi Eo) as Hset.
    rewrite (D_kept c h ps sp pages t0 init cs HT HK Ho D J HJ Hack Hpair _ _ H2 Hset) in Hn. discriminate. }
  assert (Hvr : r ∈ ps ≫= vref -> exists co, had (m_key (b_meta ob)) co /\ com_rel c h (Some r) (Some co)).
  { intros Hv. destruct (od_had _ _ _ _ HO r Hv) as (ob2 & co & E2 & H1 & H2). assert (ob2 = ob) as -> by congruence. eauto. }
  unfold owners in Hr. rewrite !elem_of_app in Hr. destruct Hr as [Hr|[Hr|Hr]].
  - exfalso. apply Hnoi. unfold irefs. apply elem_of_app. now left.
  - apply elem_of_vals in Hr as [key Hk]. pose proof (rl_com _ _ _ _ HR key) as Hrc. rewrite Hk in Hrc.
    destruct (ss_com S !! key) as [co|] eqn:Ec; [|contradiction]. exists co. split; [|exact Hrc].
    destruct (s_com _ _ HS _ _ Hk) as (ob2 & E2 & H2 & _). assert (ob2 = ob) as -> by congruence. rewrite H2. auto.
  - apply elem_of_list_bind in Hr as (p & Hin & Hp).
    assert (Hp1 : r ∈ pc_irefs p -> False) by (intros H; apply Hnoi; unfold irefs; apply elem_of_app; right; apply elem_of_list_bind; eauto).
    assert (Hp2 : r ∈ vref p -> exists co, had (m_key (b_meta ob)) co /\ com_rel c h (Some r) (Some co)) by (intros H; apply Hvr, elem_of_list_bind; eauto).
    destruct p; cbn [pc_refs pc_irefs vref] in Hin, Hp1, Hp2; try (inversion Hin; fail); try (exfalso; exact (Hp1 Hin)); auto.
    + destruct c0 as [[]|]; auto; exfalso; exact (Hp1 Hin).
    + destruct c0 as [[]|]; auto. exfalso. clear Hp1 Hp2 Hvr Hnoi. apply elem_of_list_singleton in Hin as ->.
      destruct (k_log _ _ _ _ _ _ HK _ Hp) as (ob3 & E3 & L1 & L2). assert (ob3 = ob) as -> by congruence. cbn [reap_state] in L2.
      pose proof (present_known _ _ _ _ L2) as Hkn.
      destruct Hwh as [(e & Hp4)|(k5 & e & Hp5 & Hk)].
      * destruct (k_known _ _ _ _ _ _ HK (b_id ob)) as (_ & _ & Hn4); [eapply known_take, Hkn|].
        apply Hn4. apply elem_of_list_bind. eexists. split; [|exact Hp4]. constructor.
      * pose proof (lookup_lt_Some _ _ _ Hk) as Hkl. pose proof (lookup_lt_Some _ _ _ L1) as Hnl.
        destruct (decide (k <= k5)%nat) as [Hle|Hgt].
        -- pose proof (known_once init cs Hfr k k5 _ (b_id ob) Hkn Hle Hk) as Hni. apply Hni. constructor.
        -- destruct (commit5_gone _ _ _ _ _ Hp5 Hk) as (_ & tt & Ht).
           assert (Ek : at_k (Datatypes.S k5) !! b_id ob = Some {| t_state := ds_committed; t_id := b_id ob; t_off := t_off tt; t_pow2 := t_pow2 tt |}).
           { rewrite (take_S_r cs k5 _ Hk), after_calls_snoc. cbn [apply_call]. rewrite Ht. apply lookup_insert. }
           destruct (life init cs Hfr (Datatypes.S k5) k (b_id ob)) as [Hx|[Hx _]]; [exact (present_known _ _ _ _ Ek)|lia| |].
           ++ rewrite Ek, L2 in Hx. discriminate Hx.
           ++ rewrite L2 in Hx. discriminate Hx.
Qed.

(** A committed entry belongs to a committed object or to one being removed. *)
Lemma com_slot e : e ∈ es -> is_com e -> exists r ob, h_objs h !! r = Some ob /\ b_id ob = eid e /\ snd e = b_meta ob /\
  (h_com h !! m_key (b_meta ob) = Some r \/ removing z (b_id ob) /\ r ∈ ps ≫= vref).
Proof.
  intros He Hi. destruct (es_slot e He) as (s & Hs & Hm & _). unfold is_com in Hi.
  destruct Hs as [r ob st Hr Eo Hid' Ht Hwh|r ob Hr Eo Hn Ht Hwh|m msize moff k Hp Ht]; [|rewrite Ht in Hi; discriminate Hi..].
  destruct Hm as (ob' & E' & Hm). assert (ob' = ob) as -> by congruence. rewrite Ht in Hi. cbn [entry_of t_state] in Hi. subst st.
  exists r, ob. split; [exact Eo|]. split; [exact Hid'|]. split; [exact Hm|].
  destruct Hwh as [[_ Hwh]|[[Hwh _]|(tt & n & kk & Hp & Hst)]]; [discriminate| |].
  - destruct (cref_com r ob Hwh Eo) as [Hcm|Hrm]; [now left|]. unfold crefs in Hwh. apply elem_of_app in Hwh as [Hwh|Hwh].
    + left. apply elem_of_vals in Hwh as [key Hk]. destruct (s_com _ _ HS _ _ Hk) as (ob2 & E2 & H2 & _). congruence.
    + right. split; [exact Hrm|]. apply elem_of_list_bind in Hwh as (p & Hin & Hp). apply elem_of_list_bind. exists p. split; [|exact Hp].
      destruct p; cbn [pc_crefs vref] in *; try (inversion Hin; fail); auto.
  - right. split; [exact (proj1 (reap_removing _ _ _ _ _ Hp Eo) (eq_sym Hst))|]. apply elem_of_list_bind. eexists. split; [|exact Hp].
    cbn [vref]. destruct kk as [[]|]; try constructor. discriminate Hst.
Qed.
Lemma vref_old r ob : r ∈ ps ≫= vref -> h_objs h !! r = Some ob -> exists co0, had (m_key (b_meta ob)) co0 /\ same_object co0 (rec_com (m_key (b_meta ob)) (b_id ob) (b_meta ob)).
Proof.
  intros Hv Eo. destruct (od_had _ _ _ _ HO r Hv) as (ob2 & co0 & E2 & Hh & Hc0). assert (ob2 = ob) as -> by congruence.
  exists co0. split; [exact Hh|]. destruct Hc0 as (ob2 & E3 & A1 & A2 & A3 & A4). assert (ob2 = ob) as -> by congruence.
  unfold same_object. rewrite rec_com_id. split; [exact A1|]. unfold rec_com. set (key := m_key (b_meta ob)).
  assert (Hraw : co_size (raw_com (b_id ob) (b_meta ob)) = co_size co0 /\ co_created (raw_com (b_id ob) (b_meta ob)) = co_created co0 /\
    forall i, i < co_size co0 -> co_bytes (raw_com (b_id ob) (b_meta ob)) i = co_bytes co0 i).
  { cbn [raw_com co_size co_created co_bytes]. split; [exact A2|]. split; [exact A3|]. intros i Hi. apply A4. congruence. }
  destruct (ss_com S !! key) as [co|] eqn:Ec; [|exact Hraw]. destruct (N.eqb_spec (co_id co) (b_id ob)) as [Hid|_]; [|exact Hraw].
  pose proof (rl_com _ _ _ _ HR key) as Hrc. rewrite Ec in Hrc. destruct (h_com h !! key) as [r2|]; [|contradiction].
  destruct Hrc as (ob2 & E4 & B1 & B2 & B3 & B4). assert (r2 = r) as -> by (eapply id_unique; [exact HS|exact E4|exact Eo|congruence]).
  assert (ob2 = ob) as -> by congruence. split; [congruence|]. split; [congruence|]. intros i Hi. rewrite <- B4, <- A4; congruence.
Qed.

Lemma found_up tok r : h_inc h' !! tok = Some r -> exists x e, ss_up S' !! tok = Some x /\ h_objs h' !! r = Some (lobj e) /\ up_open x = true /\
  m_key (snd e) = up_key x /\ m_size (snd e) = up_size x /\ m_created (snd e) = up_created x /\
  forall off, part_rel c (h_dev h) [] tok (snd e) off (up_parts x off).
Proof.
  intros E. destruct (li_inc _ _ _ _ _ _ HL _ _ E) as (e & He & Er & Hi & Hid). exists (rec_up tok (snd e)), e.
  split; [rewrite <- Hid; now apply S'_up_inc|]. split; [exact Er|]. unfold rec_up. destruct (ss_up S !! tok) as [u|] eqn:Eu.
  - destruct (up_ref tok u Eu) as [r0 Hr0]. destruct (up_found tok u r0 Eu Hr0) as (ob & E0 & A0 & A1 & A2 & A3 & A4 & A5).
    rewrite (ref_meta r0 ob e (or_introl A1) E0 He) by congruence. cbn [reopened_upload up_open up_key up_size up_created up_parts].
    split; [reflexivity|]. do 3 (split; [assumption|]). intros off. destruct (A5 off) as (B1 & B2 & B3). split; [reflexivity|]. split; [discriminate|].
    cbn [reopened_part pt_data pt_writers]. intros l Hl. destruct (B3 l Hl) as (_ & B4 & B5). auto.
  - destruct (creating tok); cbn [new_upload raw_up up_open up_key up_size up_created up_parts]; do 4 (split; [reflexivity|]); intros off.
    + split; [reflexivity|]. split; discriminate.
    + apply whole_rel.
Qed.
Lemma found_com key : com_rel c h' (h_com h' !! key) (ss_com S' !! key).
Proof.
  rewrite S'_com. destruct (h_com h' !! key) as [r|] eqn:E; cbn [mbind option_bind com_rel]; [|exact I].
  destruct (li_com _ _ _ _ _ _ HL _ _ E) as (e & He & Er & Hi & Hk). rewrite Er. cbn [mbind option_bind com_rel]. exists (lobj e). split; [first [exact Er|reflexivity]|].
  cbn [lobj b_id b_meta]. fold (eid e). rewrite rec_com_id. split; [reflexivity|]. rewrite (li_dev _ _ _ _ _ _ HL).
  unfold rec_com. destruct (ss_com S !! key) as [co|] eqn:Ec; [|auto]. destruct (N.eqb_spec (co_id co) (eid e)) as [Hid|_]; [|auto].
  pose proof (rl_com _ _ _ _ HR key) as Hrc. rewrite Ec in Hrc. destruct (h_com h !! key) as [r0|] eqn:E0; [|contradiction].
  destruct Hrc as (ob & Eo & C1 & C2 & C3 & C4).
  rewrite (ref_meta r0 ob e) by (first [right; unfold crefs; apply elem_of_app; left; apply elem_of_vals; eauto|exact Eo|exact He|congruence]). auto.
Qed.

(** The entry of a committed object is there unless its commit is under way. *)
Lemma cref_there r ob : r ∈ crefs h ps -> h_objs h !! r = Some ob -> (exists e, e ∈ es /\ is_com e /\ eid e = b_id ob /\ snd e = b_meta ob) \/
  (exists tok e, PCommit4 tok (b_id ob) e ∈ ps) \/ (exists tok k e, PCommit5 tok k (b_id ob) e ∈ ps).
Proof.
  intros Hcr Eo. assert (Hown : r ∈ owners h ps) by now apply crefs_owner.
  destruct (t_c _ _ _ _ _ HT r Hcr) as [(ob2 & E2 & Hsp2)|(ob2 & tok & ex & E2 & Hp & _)]; assert (ob2 = ob) as -> by congruence; [|right; left; eauto].
  destruct (D !! b_id ob) as [x|] eqn:Hd.
  - left. assert (x = entry_of ob ds_committed) as -> by (eapply (D_same c h ps sp pages t0 init cs HT HK Ho D J HJ); [exact Hd|exact Hsp2]).
    destruct (D_es _ _ Hd) as (e & He & Hfe & Hide). exists e. split; [exact He|]. split; [unfold is_com; now rewrite Hfe|]. split; [exact Hide|].
    exact (ref_meta r ob e (or_intror Hcr) Eo He Hide).
  - right. destruct (k_own _ _ _ _ _ _ HK r ob Hown Eo) as [Hset|H]; [exfalso|exact H].
    pose proof (D_kept c h ps sp pages t0 init cs HT HK Ho D J HJ Hack Hpair _ _ Hsp2 Hset) as Hd2. congruence.
Qed.

(** ** The relation between the two *)
Lemma found_crash : crash (dc_lpage c) had z S'.
Proof.
  constructor.
  - intros tok u Hu. destruct (up_ref tok u Hu) as [r0 Hr0]. destruct (up_found tok u r0 Hu Hr0) as (ob & E0 & A0 & A1 & _).
    destruct (t_i _ _ _ _ _ HT r0 A1) as (ob2 & E2 & H2). assert (ob2 = ob) as -> by congruence.
    pose proof (iref_settled c pages t0 init Ho h ps cs sp false r0 ob HT HK A1 E0) as Hset.
    pose proof (D_kept c h ps sp pages t0 init cs HT HK Ho D J HJ Hack Hpair _ _ H2 Hset) as Hd.
    destruct (D_es _ _ Hd) as (e & He & Hfe & Hide). assert (is_inc e) as Hi by (unfold is_inc; now rewrite Hfe).
    pose proof (S'_up_inc e He Hi) as H. rewrite Hide, A0 in H. rewrite H. unfold rec_up. now rewrite Hu.
  - intros tok u Hu Hnone. destruct (S'_up_Some tok u Hu) as (e & He & Hi & Hid & ->). unfold rec_up. rewrite Hnone.
    destruct (es_slot e He) as (s & Hs & Hm & _). rewrite Hid in Hs. pose proof (es_D e He) as HeD. rewrite Hid in HeD.
    assert (Hdis : SDiscarded ∈ z_procs z -> leftover (dc_lpage c) had z S' tok (raw_up (snd e))).
    { intros H. apply (lo_discard _ _ _ _ _ _ (raw_com tok (snd e))); [exact H|]. apply raw_restores; auto. }
    destruct Hs as [r ob st Hr Eo Hid' Ht Hwh|r ob Hr Eo Hn Ht Hwh|m msize moff k Hp Ht].
    + rewrite <- Hid', (creating_obj r ob Eo), Hid'. destruct Hwh as [[Hwh _]|[[_ ->]|(tt & n & kk & Hp & ->)]].
      * destruct (iref_up r Hwh) as [(tok' & ob' & E' & Hi' & Hu')|Hd]; [|now apply Hdis]. exfalso. assert (ob' = ob) as -> by congruence.
        rewrite Hps in Hu'. destruct (rl_up _ _ _ _ HR _ _ Hu') as (u' & E2 & _). congruence.
      * exfalso. unfold is_inc in Hi. rewrite Ht in Hi. discriminate Hi.
      * apply Hdis. unfold is_inc in Hi. rewrite Ht in Hi. cbn [entry_of t_state] in Hi. exact (proj2 (reap_removing _ _ _ _ _ Hp Eo) Hi).
    + rewrite (creating_update tok (b_id ob)) by exact Hwh. destruct (update_had tok r ob Hr Eo Hn Hwh) as (co & Hco & Hcr).
      destruct Hcr as (ob2 & E2 & C1 & C2 & C3 & C4). assert (ob2 = ob) as -> by congruence.
      destruct Hm as (ob' & E' & Hm). assert (ob' = ob) as -> by congruence.
      apply (lo_commit _ _ _ _ _ _ co).
      * rewrite <- C1. apply commit_publishing_from. destruct Hwh as [(x & Hp)|(k & x & Hp & _)]; eauto.
      * cbn [raw_up up_key]. rewrite Hm. exact Hco.
      * cbn [raw_up up_key]. rewrite Hm. now apply raw_restores.
      * intros key co2 Hco2. destruct (S'_com_Some key co2 Hco2) as (e2 & He2 & _ & _ & ->). rewrite rec_com_id, <- C1. intros Heq.
        pose proof (es_D e2 He2) as H2. rewrite Heq, Hn in H2. discriminate.
    + assert (creating tok = true) as -> by (apply creating_spec; eauto 10).
      enough (SCall (OCreate (m_key (snd e)) (m_size (snd e))) ∈ z_procs z /\ tok ∉ ss_ids S) as [? ?] by (apply lo_create; [assumption|assumption|reflexivity]).
      destruct (pc_spec _ Hp) as (s & Hs & Hrel). destruct s as [op| | | | | | | |]; try contradiction. destruct op; try contradiction.
      destruct Hrel as [<- <-]. destruct Hm as (msize' & moff' & id' & k' & Hm). injection Hm as -> _ _ _ _. split; [exact Hs|].
      intros Hin. apply (rl_ids _ _ _ _ HR) in Hin as [_ Hin]. apply Hin. rewrite <- Hps. apply elem_of_list_bind. eexists. split; [|exact Hp]. constructor.
  - intros key co Hco. destruct (S'_com_Some key co Hco) as (e & He & Hi & Hk & ->). rewrite rec_com_id.
    destruct (com_slot e He Hi) as (r & ob & Eo & Hid' & Hm & Hwh). unfold ekey in Hk. rewrite Hm in Hk.
    destruct Hwh as [Hcm|[Hrm Hv]]; [left|right].
    + pose proof (rl_com _ _ _ _ HR key) as Hrc. rewrite Hk in Hcm. rewrite Hcm in Hrc.
      destruct (ss_com S !! key) as [co|] eqn:Ec; [|contradiction]. destruct Hrc as (ob2 & E2 & C1 & _). assert (ob2 = ob) as -> by congruence.
      unfold rec_com. rewrite Ec. rewrite (proj2 (N.eqb_eq (co_id co) (eid e))) by congruence. reflexivity.
    + split; [rewrite <- Hid'; exact Hrm|]. rewrite <- Hk, Hm, <- Hid'. exact (vref_old r ob Hv Eo).
  - intros key co Hco. pose proof (rl_com _ _ _ _ HR key) as Hrc. rewrite Hco in Hrc. destruct (h_com h !! key) as [r|] eqn:Er; [|contradiction].
    destruct Hrc as (ob & Eo & C1 & C2 & C3 & C4).
    assert (Hcr : r ∈ crefs h ps) by (unfold crefs; apply elem_of_app; left; apply elem_of_vals; eauto).
    assert (Hkey : m_key (b_meta ob) = key) by (destruct (s_com _ _ HS _ _ Er) as (ob2 & E2 & H2 & _); congruence).
    assert (Hown : r ∈ owners h ps) by now apply crefs_owner.
    (* the entry is there *)
    assert (Hthere : D !! co_id co = Some (entry_of ob ds_committed) ->
      ss_com S' !! key = Some co \/ (exists co', ss_com S' !! key = Some co' /\ removing z (co_id co') /\ co_id co < co_id co')).
    { intros Hd. destruct (D_es _ _ Hd) as (e & He & Hfe & Hide).
      assert (Hm : snd e = b_meta ob) by (apply (ref_meta r ob e (or_intror Hcr) Eo He); congruence).
      assert (Hi : is_com e) by (unfold is_com; now rewrite Hfe).
      destruct (li_com2 _ _ _ _ _ _ HL e He Hi) as (r' & e' & Hr' & He' & Eo' & Hle).
      assert (Hek : ekey e = key) by (unfold ekey; now rewrite Hm). rewrite Hek in Hr'.
      assert (Hs' : ss_com S' !! key = Some (rec_com key (eid e') (snd e'))) by (rewrite S'_com, Hr'; cbn [mbind option_bind]; rewrite Eo'; reflexivity).
      destruct (S'_com_Some _ _ Hs') as (e2 & He2 & Hi2 & Hk2 & E2).
      assert (eid e2 = eid e') as Heid by (rewrite <- (rec_com_id key (eid e2) (snd e2)), <- E2, rec_com_id; reflexivity).
      destruct (N.eq_dec (eid e') (co_id co)) as [Heq|Hne].
      - left. rewrite Hs'. f_equal. unfold rec_com. rewrite Hco. rewrite (proj2 (N.eqb_eq (co_id co) (eid e'))) by congruence. reflexivity.
      - right. exists (rec_com key (eid e') (snd e')). split; [exact Hs'|]. rewrite rec_com_id.
        rewrite <- Heid in *. clear Heid. split; [|clear -Hle Hne Hide; lia].
        destruct (com_slot e2 He2 Hi2) as (r2 & ob2 & Eo2 & Hid' & Hm2 & Hwh). rewrite <- Hid'.
        destruct Hwh as [Hcm|[Hrm _]]; [exfalso|exact Hrm].
        unfold ekey in Hk2. rewrite Hm2 in Hk2. rewrite Hk2, Er in Hcm. injection Hcm as <-. congruence. }
    (* an entry of the upload *)
    assert (Hback : forall tok t, D !! tok = Some t -> t_state t = ds_incomplete ->
      (forall s, source tok t s -> s = inl r) -> (forall r0 ob0, r0 ∈ irefs h ps -> h_objs h !! r0 = Some ob0 -> b_id ob0 <> tok) ->
      creating tok = false -> exists u, ss_up S' !! tok = Some u /\ restores (dc_lpage c) u key co).
    { intros tok t Hd Hst Hsrc Hno Hncr. destruct (D_es _ _ Hd) as (e & He & Hfe & Hide).
      assert (Hi : is_inc e) by (unfold is_inc; now rewrite Hfe). pose proof (S'_up_inc e He Hi) as H. rewrite Hide in H. eexists. split; [exact H|].
      destruct (es_slot e He) as (s & Hs & Hm & _). rewrite Hide, Hfe in Hs. rewrite (Hsrc s Hs) in Hm. destruct Hm as (ob' & E' & Hm).
      assert (ob' = ob) as -> by congruence. unfold rec_up. destruct (ss_up S !! tok) as [u|] eqn:Eu.
      - exfalso. destruct (up_ref tok u Eu) as [r0 Hr0]. destruct (up_found tok u r0 Eu Hr0) as (ob0 & E0 & A0 & A1 & _). exact (Hno r0 ob0 A1 E0 A0).
      - rewrite Hncr, Hm, <- Hkey. now apply raw_restores. }
    assert (Hcase4 : forall tok e, PCommit4 tok (b_id ob) e ∈ ps -> exists tok u, publishing_from z tok (co_id co) /\ ss_up S' !! tok = Some u /\ restores (dc_lpage c) u key co).
    { intros tok e Hp. exists tok. enough (exists u, ss_up S' !! tok = Some u /\ restores (dc_lpage c) u key co) as (u0 & Hu0 & Hu1) by (exists u0; split; [rewrite <- C1; apply commit_publishing_from; eauto|auto]).
      destruct (new4_pending c h ps sp HT _ _ _ Hp) as (r1 & ob1 & Hr1 & Eo1 & Hid1 & Ht1).
      assert (r1 = r) as -> by (eapply id_unique; [exact HS|exact Eo1|exact Eo|exact Hid1]). assert (ob1 = ob) as -> by congruence.
      pose proof (k_toks _ _ _ _ _ _ HK _ Hp) as Hset. cbn [pc_settled] in Hset.
      assert (Htok4 : tok ∈ ps ≫= pc_tok4) by (apply elem_of_list_bind; eexists; split; [|exact Hp]; constructor).
      eapply (Hback tok); [exact (D_kept c h ps sp pages t0 init cs HT HK Ho D J HJ Hack Hpair _ _ Ht1 Hset)|reflexivity| | |apply (creating_update tok (b_id ob)); left; eauto].
      - intros s Hs. destruct Hs as [r2 ob2 st Hr2 Eo2 Hid' Ht Hwh|r2 ob2 Hr2 Eo2 Hn Ht Hwh|m msize moff k Hp2 Ht].
        + exfalso. apply (t_own _ _ _ _ _ HT r2 ob2 Hr2 Eo2). now rewrite Hid'.
        + f_equal. destruct Hwh as [(e2 & Hp2)|(k & e2 & Hp2 & Hk2)].
          * assert (PCommit4 tok (b_id ob2) e2 = PCommit4 tok (b_id ob) e) as Heq by (eapply (bind_unique pc_tok4); [exact (t_toks _ _ _ _ _ HT)|exact Hp2|exact Hp|constructor|constructor]).
            injection Heq as Heq _. eapply id_unique; [exact HS|exact Eo2|exact Eo|exact Heq].
          * exfalso. destruct (commit5_gone _ _ _ _ _ Hp2 Hk2) as [Hg _]. congruence.
        + exfalso. destruct (t_pc _ _ _ _ _ HT _ Hp) as (_ & _ & _ & _ & (r3 & ob3 & E3 & I3) & _).
          eapply (new_id_not_obj h ps r3 ob3); [exact HS|exact E3|exact Hp2|]. rewrite I3. constructor.
      - intros r0 ob0 Hr0 E0 Heq. apply (t_own _ _ _ _ _ HT r0 ob0 (irefs_owner _ _ _ Hr0) E0). now rewrite Heq. }
    destruct (t_c _ _ _ _ _ HT r Hcr) as [(ob2 & E2 & Hsp2)|(ob2 & tok & ex & E2 & Hp & _)]; assert (ob2 = ob) as -> by congruence; [|right; right; eapply Hcase4, Hp].
    destruct (D !! co_id co) as [x|] eqn:Hd.
    { assert (x = entry_of ob ds_committed) as -> by (eapply (D_same c h ps sp pages t0 init cs HT HK Ho D J HJ); [exact Hd|rewrite <- C1; exact Hsp2]).
      destruct (Hthere eq_refl); auto. }
    right. right. destruct (k_own _ _ _ _ _ _ HK r ob Hown Eo) as [Hset|[(tok & e & Hp)|(tok & k & e & Hp)]]; [exfalso| |].
    { pose proof (D_kept c h ps sp pages t0 init cs HT HK Ho D J HJ Hack Hpair _ _ Hsp2 Hset) as Hd2. congruence. }
    { eapply Hcase4, Hp. }
    exists tok. enough (exists u, ss_up S' !! tok = Some u /\ restores (dc_lpage c) u key co) as (u0 & Hu0 & Hu1) by (exists u0; split; [rewrite <- C1; apply commit_publishing_from; eauto|auto]).
    destruct (k_toks _ _ _ _ _ _ HK _ Hp) as (new & st & Hcl & Hset).
    destruct (k_log _ _ _ _ _ _ HK _ Hp) as (t & r1 & ob1 & G1 & G2 & G3 & G4 & G5 & G6 & _). rewrite Hcl in G1. injection G1 as -> ->.
    destruct (commit5_gone _ _ _ _ _ Hp Hcl) as [Hg _].
    pose proof (lookup_lt_Some _ _ _ Hcl) as Hkl.
    assert (Hkn : forall n id, settled init cs (sy_acked (h_tup h)) id -> n = J id -> known init (take n cs) id).
    { intros n id Hst ->. unfold known. rewrite elem_of_app. destruct Hst as [Hst|(k2 & cl2 & Hk2 & Hin & Hak)]; [now left|right].
      apply elem_of_concat_intro. exists k2, cl2. split; [|exact Hin]. rewrite lookup_take; [exact Hk2|].
      apply (Hack k2 cl2 id Hk2 Hak). now apply introduced_touched. }
    assert (HJn : (J (b_id ob) <= k)%nat).
    { destruct (decide (J (b_id ob) <= k)%nat) as [|Hgt]; [assumption|exfalso]. destruct (HJ (b_id ob)) as [Hl HE]. rewrite C1, Hd in HE.
      destruct (life init cs Hfr (J (b_id ob)) (length cs) (b_id ob)) as [Hx|[Hx _]]; [|lia| |].
      - unfold known. rewrite elem_of_app. right. apply elem_of_concat_intro. exists k. eexists. split; [rewrite lookup_take by lia; exact Hcl|constructor].
      - rewrite (take_ge cs (length cs)) in Hx by lia. rewrite <- Hsp in Hx. rewrite C1 in Hx. rewrite C1 in Hsp2. congruence.
      - rewrite (take_ge cs (length cs)) in Hx by lia. rewrite <- Hsp in Hx. congruence. }
    assert (Hdt : D !! tok = Some t).
    { destruct (HJ tok) as [Hl HE]. rewrite HE. destruct (life init cs Hfr (J tok) k tok) as [Hx|[Hx _]].
      - now apply Hkn.
      - rewrite (Hpair _ _ _ _ Hcl). lia.
      - rewrite <- Hx. exact G2.
      - rewrite G2 in Hx. discriminate Hx. }
    assert (Hnoref : forall r0 ob0, r0 ∈ irefs h ps -> h_objs h !! r0 = Some ob0 -> b_id ob0 <> tok).
    { intros r0 ob0 Hr0 E0 Heq. destruct (t_i _ _ _ _ _ HT r0 Hr0) as (ob2 & E2' & H2). assert (ob2 = ob0) as -> by congruence. rewrite Heq in H2. congruence. }
    eapply (Hback tok t Hdt G3); [|exact Hnoref|eapply (creating_update tok); right; eauto].
    intros s Hs. destruct Hs as [r2 ob2 st Hr2 Eo2 Hid' Ht Hwh|r2 ob2 Hr2 Eo2 Hn Ht Hwh|m msize moff k2 Hp2 Ht].
    + exfalso. destruct Hwh as [[Hwh _]|[[Hwh ->]|(tt & n & kk & Hp2 & ->)]].
      * exact (Hnoref _ _ Hwh Eo2 Hid').
      * rewrite Ht in G3. discriminate G3.
      * destruct (k_log _ _ _ _ _ _ HK _ Hp2) as (ob3 & E3 & L1 & L2). assert (ob3 = ob2) as -> by congruence. rewrite Hid' in L1, L2.
        assert (k = n) as -> by (eapply removed_once; [exact Hcl|right; eauto|exact G2|exact L1|now left|exact L2]). congruence.
    + f_equal. destruct Hwh as [(e2 & Hp2)|(k2 & e2 & Hp2 & Hk2)].
      * exfalso. destruct (present4 _ _ _ Hp2) as [x Hx]. congruence.
      * destruct (commit5_gone _ _ _ _ _ Hp2 Hk2) as (_ & t2 & Ht2).
        assert (k = k2) as <- by (eapply removed_once; [exact Hcl|right; eauto|exact G2|exact Hk2|right; eauto|exact Ht2]).
        rewrite Hcl in Hk2. injection Hk2 as Heq. eapply id_unique; [exact HS|exact Eo2|exact Eo|congruence].
    + exfalso. pose proof (t_pc _ _ _ _ _ HT _ Hp2) as Hpe. cbn [pc_entry] in Hpe. congruence.
  - intros key co Hco Hnone. pose proof (rl_com _ _ _ _ HR key) as Hrc. rewrite Hco in Hrc. destruct (h_com h !! key) as [r|] eqn:Er; [|contradiction].
    destruct Hrc as (ob & Eo & C1 & _).
    assert (Hcr : r ∈ crefs h ps) by (unfold crefs; apply elem_of_app; left; apply elem_of_vals; eauto).
    assert (Hkey : m_key (b_meta ob) = key) by (destruct (s_com _ _ HS _ _ Er) as (ob2 & E2 & H2 & _); congruence).
    assert (Hno : forall r2 ob2, r2 ∈ crefs h ps -> h_objs h !! r2 = Some ob2 -> m_key (b_meta ob2) = key ->
      (exists tok e, PCommit4 tok (b_id ob2) e ∈ ps) \/ (exists tok k e, PCommit5 tok k (b_id ob2) e ∈ ps)).
    { intros r2 ob2 Hr2 E2 Hk2. destruct (cref_there r2 ob2 Hr2 E2) as [(e & He & Hi & _ & Hm)|H]; [exfalso|exact H].
      destruct (li_com2 _ _ _ _ _ _ HL e He Hi) as (r3 & e3 & Hr3 & _ & E3 & _). unfold ekey in Hr3. rewrite Hm, Hk2 in Hr3.
      rewrite S'_com, Hr3 in Hnone. cbn [mbind option_bind] in Hnone. rewrite E3 in Hnone. discriminate Hnone. }
    assert (Hpr : forall p e, p ∈ ps -> (forall r2, e = Some r2 -> victim p = Some (b_id ob, r2) /\ r2 ∈ pc_crefs p) ->
      (forall s, pc_rel c h S p s -> exists tok v, s = SPublished tok (b_id ob) v /\ vic h e v) ->
      exists tok replaced, SPublished tok (co_id co) replaced ∈ z_procs z /\ forall id, replaced = Some id -> publishing z id).
    { intros p e Hp Hvic Hsp2. destruct (pc_spec p Hp) as (s & Hs & Hrel). destruct (Hsp2 s Hrel) as (tok & v & -> & Hv). exists tok, v. rewrite <- C1.
      split; [exact Hs|]. intros id ->. destruct e as [r2|]; [|contradiction]. destruct Hv as (ob2 & E2 & <-).
      destruct (Hvic r2 eq_refl) as [Hvc Hin]. destruct (od_key _ _ _ _ HO p _ _ Hp Hvc) as (ob3 & r4 & ob4 & F1 & F2 & F3 & F4).
      assert (ob3 = ob2) as -> by congruence. assert (r4 = r) as -> by (eapply id_unique; [exact HS|exact F2|exact Eo|congruence]).
      assert (ob4 = ob) as -> by congruence. apply commit_publishing. apply (Hno r2 ob2); [|exact E2|congruence].
      unfold crefs. apply elem_of_app. right. apply elem_of_list_bind. eauto. }
    destruct (Hno r ob Hcr Eo Hkey) as [(tok & e & Hp)|(tok & k & e & Hp)]; apply (Hpr _ e Hp); try (intros r2 ->; split; [reflexivity|constructor]);
      intros s Hrel; destruct s; try contradiction; destruct Hrel as (-> & -> & Hv); eauto.
  - split; [|split].
    + cbn [S' ss_ids]. set_solver.
    + intros tok [u Hu]. destruct (S'_up_Some tok u Hu) as (e & He & _ & <- & _). cbn [S' ss_ids]. apply elem_of_union. right.
      apply elem_of_list_to_set. now apply elem_of_list_fmap_1.
    + intros key co Hco. destruct (S'_com_Some key co Hco) as (e & He & _ & _ & ->). rewrite rec_com_id. cbn [S' ss_ids]. apply elem_of_union. right.
      apply elem_of_list_to_set. now apply elem_of_list_fmap_1.
Qed.

(** Without an unfinished removal no two committed entries have the same key. *)
Lemma found_one : (forall id, ~ removing z id) -> one_per_key es.
Proof.
  intros Hcalm.
  assert (G : forall e, e ∈ es -> is_com e -> exists r ob, h_com h !! ekey e = Some r /\ h_objs h !! r = Some ob /\ b_id ob = eid e).
  { intros e He Hi. destruct (es_slot e He) as (s & Hs & Hm & _). unfold is_com in Hi.
    destruct Hs as [r ob st Hr Eo Hid' Ht Hwh|r ob Hr Eo Hn Ht Hwh|m msize moff k Hp Ht]; [|rewrite Ht in Hi; discriminate Hi..].
    destruct Hm as (ob' & E' & Hm). assert (ob' = ob) as -> by congruence. rewrite Ht in Hi. cbn [entry_of t_state] in Hi. subst st.
    destruct Hwh as [[_ Hwh]|[[Hwh _]|(tt & n & kk & Hp & Hst)]]; [discriminate| |].
    - destruct (cref_com r ob Hwh Eo) as [Hcm|Hrm]; [|exfalso; exact (Hcalm _ Hrm)]. exists r, ob. unfold ekey. rewrite Hm. auto.
    - exfalso. exact (Hcalm _ (proj1 (reap_removing _ _ _ _ _ Hp Eo) (eq_sym Hst))). }
  intros e1 e2 He1 He2 H1 H2 Hk. destruct (G e1 He1 H1) as (r1 & ob1 & A1 & A2 & A3). destruct (G e2 He2 H2) as (r2 & ob2 & B1 & B2 & B3).
  assert (r1 = r2) as <- by congruence. assert (ob2 = ob1) as -> by congruence.
  eapply eid_inj; [exact Hids|exact He1|exact He2|congruence].
Qed.
(** What the committed entries are, wherever the process was killed. *)
Lemma com_entry e : e ∈ es -> is_com e -> opg c (snd e) /\
  exists co, (ss_com S !! ekey e = Some co \/ removing z (co_id co) /\ had (ekey e) co) /\
    co_id co = eid e /\ co_size co = m_size (snd e) /\ co_created co = m_created (snd e) /\
    forall i, i < m_size (snd e) -> byte_at (h_dev h) (dpages c (snd e)) i = co_bytes co i.
Proof.
  intros He Hi. destruct (com_slot e He Hi) as (r & ob & Eo & Hid & Hm & Hwh). split; [rewrite Hm; exact (rl_obj _ _ _ _ HR _ _ Eo)|].
  unfold ekey. rewrite Hm. destruct Hwh as [Hcm|[Hrm Hv]].
  - pose proof (rl_com _ _ _ _ HR (m_key (b_meta ob))) as Hrc. rewrite Hcm in Hrc.
    destruct (ss_com S !! m_key (b_meta ob)) as [co|]; [|contradiction]. destruct Hrc as (ob2 & E2 & C1 & C2 & C3 & C4).
    assert (ob2 = ob) as -> by congruence. exists co. split; [now left|]. split; [congruence|]. auto.
  - destruct (od_had _ _ _ _ HO r Hv) as (ob2 & co & E2 & Hh & ob3 & E3 & C1 & C2 & C3 & C4). assert (ob2 = ob) as -> by congruence.
    assert (ob3 = ob) as -> by congruence. exists co. split; [right; split; [rewrite <- C1; exact Hrm|exact Hh]|]. split; [congruence|]. auto.
Qed.
Lemma com_there key co : ss_com S !! key = Some co -> (exists e, e ∈ es /\ is_com e /\ eid e = co_id co /\ ekey e = key /\ co_size co = m_size (snd e) /\ co_created co = m_created (snd e) /\
    forall i, i < m_size (snd e) -> byte_at (h_dev h) (dpages c (snd e)) i = co_bytes co i) \/ publishing z (co_id co).
Proof.
  intros Hco. pose proof (rl_com _ _ _ _ HR key) as Hrc. rewrite Hco in Hrc. destruct (h_com h !! key) as [r|] eqn:Er; [|contradiction].
  destruct Hrc as (ob & Eo & C1 & C2 & C3 & C4).
  assert (Hcr : r ∈ crefs h ps) by (unfold crefs; apply elem_of_app; left; apply elem_of_vals; eauto).
  assert (Hkey : m_key (b_meta ob) = key) by (destruct (s_com _ _ HS _ _ Er) as (ob2 & E2 & H2 & _); congruence).
  assert (Hown : r ∈ owners h ps) by now apply crefs_owner.
  destruct (t_c _ _ _ _ _ HT r Hcr) as [(ob2 & E2 & Hsp2)|(ob2 & tok & ex & E2 & Hp & _)]; assert (ob2 = ob) as -> by congruence.
  2:{ right. rewrite <- C1. apply commit_publishing. eauto. }
  destruct (D !! co_id co) as [x|] eqn:Hd.
  - left. assert (x = entry_of ob ds_committed) as -> by (eapply (D_same c h ps sp pages t0 init cs HT HK Ho D J HJ); [exact Hd|rewrite <- C1; exact Hsp2]).
    destruct (D_es _ _ Hd) as (e & He & Hfe & Hide). exists e. split; [exact He|]. split; [unfold is_com; now rewrite Hfe|]. split; [exact Hide|].
    unfold ekey. rewrite (ref_meta r ob e (or_intror Hcr) Eo He) by congruence. auto.
  - right. rewrite <- C1. destruct (k_own _ _ _ _ _ _ HK r ob Hown Eo) as [Hset|[(tok & e & Hp)|(k & e & Hp)]]; [exfalso|apply commit_publishing; eauto..].
    pose proof (D_kept c h ps sp pages t0 init cs HT HK Ho D J HJ Hack Hpair _ _ Hsp2 Hset) as Hd2. congruence.
Qed.
End Found.
