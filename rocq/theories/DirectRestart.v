(** Opening a partition again, at any moment: it succeeds, and what it finds. *)
From Coq Require Import ZifyBool ZifyNat ZifyN.
From stdpp Require Import base numbers list_numbers option gmap sets functions list.
From Verif Require Import Util Bytes BuddyModel BuddySpec BuddyProofs BuddyInv LayoutModel LayoutProofs.
From Verif Require Import PageIOModel PageIOSpec TuplesModel TuplesSpec TuplesProofs TuplesSys TuplesDurable TuplesLife.
From Verif Require Import DirectModel DirectBase DirectSteps DirectInv DirectTup DirectAlloc DirectDev DirectSpec DirectRel DirectSim DirectSys.
From Verif Require Import DirectLoadModel DirectCodec DirectRec DirectLog DirectLoad DirectSource DirectSeqSpec DirectAlive.
Open Scope N_scope.
Ltac Zify.zify_post_hook ::= idtac.

Definition slot_pages (c : dcfg) (h : shared) (s : nat + pc) : list page :=
  match s with inl r => opages c h r | inr p => pc_pages c p end.
Definition slots (h : shared) (ps : list pc) : list (nat + pc) := (inl <$> owners h ps) ++ (inr <$> ps).
Definition slot_meta (h : shared) (s : nat + pc) (m : dmeta) : Prop :=
  match s with
  | inl r => exists ob, h_objs h !! r = Some ob /\ m = b_meta ob
  | inr p => exists msize moff id k, p = PCreate4 m msize moff id k
  end.
Lemma slots_pages c h ps : slots h ps ≫= slot_pages c h = held c h ps.
Proof. unfold slots, held. rewrite bind_app_l, !bind_fmap. reflexivity. Qed.

Lemma opens_det spage pages init y init' y' : opens spage pages init y -> opens spage pages init' y' -> init = init' /\ y = y'.
Proof.
  intros (_ & H1 & H2 & H3 & H4 & H5 & H6) (_ & G1 & G2 & G3 & G4 & G5 & G6).
  assert (init = init') as <- by congruence. split; [reflexivity|].
  destruct y as [s fl d n a], y' as [s' fl' d' n' a']; cbn in *. subst. f_equal. congruence.
Qed.

Lemma pick {A B} (P : A -> B -> Prop) l : (forall x, x ∈ l -> exists y, P x y) -> exists k, Forall2 P l k.
Proof.
  induction l as [|x l IH]; intros H; [exists []; constructor|].
  destruct (H x ltac:(constructor)) as [y Hy]. destruct IH as [k Hk]; [intros z Hz; apply H; now constructor|]. exists (y :: k). now constructor.
Qed.

Lemma record_reads c d m moff : typed_meta m -> msize_of m <= 2 ^ metadata_page_pow2 (dc_spage c) (msize_of m) ->
  dev_read d moff (msize_of m) = meta_encode m ->
  meta_decode (dev_read d moff (2 ^ metadata_page_pow2 (dc_spage c) (msize_of m))) = Some (m, msize_of m).
Proof.
  intros Ht Hle Hr. set (P := 2 ^ metadata_page_pow2 (dc_spage c) (msize_of m)) in *. clearbody P.
  assert (E : exists r, dev_read d moff P = dev_read d moff (msize_of m) ++ r).
  { unfold dev_read. replace (N.to_nat P) with (N.to_nat (msize_of m) + (N.to_nat P - N.to_nat (msize_of m)))%nat by (clear -Hle; lia).
    rewrite seq_app, fmap_app. eexists. reflexivity. }
  destruct E as [r ->]. rewrite Hr. now apply meta_decode_ok.
Qed.

Section Restart.
Context (c : dcfg) (y : dsys) (lk : list page) (sp : index) (pages : list (list N)) (t0 : tsys) (init : list (list tuple)) (cs : list tcall).
Notation h := (y_sh y).
Notation ps := (y_procs y).
Hypothesis Hc : cfg_ok c.
Hypothesis HS : SInv h ps.
Hypothesis HT : TInv c h ps sp false.
Hypothesis HA : AInv c h ps lk.
Hypothesis HK : KInv c t0 init h ps cs.
Hypothesis HRec : RecInv c h ps.
Hypothesis HTy : TyInv h ps.
Hypothesis Hex : ~ inexact c y.
Hypothesis Ho : opens (dc_spage c) pages init t0.
Variable D : index.
Notation source := (source c h ps cs D).

Lemma own_entry r ob t : r ∈ owners h ps -> h_objs h !! r = Some ob -> (t_state t = ds_incomplete \/ t_state t = ds_committed) ->
  (t_off t, t_pow2 t) = b_mpage ob -> entry_ok c (h_dev h) (t, b_meta ob) /\ epages c (t, b_meta ob) = opages c h r.
Proof.
  intros Hr Eo Hst Hmp. destruct (a_objs _ _ _ _ HA r ob Eo) as (M1 & M2 & M3 & M4).
  assert (Hxm : exact_meta c (b_msize ob)).
  { unfold exact_meta. destruct (N.eq_dec (metadata_page_pow2 (dc_spage c) (b_msize ob)) (alloc_pow2 (dc_spage c) (b_msize ob))) as [H|H]; [exact H|].
    exfalso. apply Hex. left. exists r, ob. split; [exact Eo|exact H]. }
  assert (Hpg : epages c (t, b_meta ob) = opages c h r).
  { unfold opages. rewrite Eo. unfold epages, obj_pages. cbn [lobj b_meta b_mpage fst snd]. now rewrite Hmp. }
  split; [|exact Hpg]. split; [|split; [|exact Hst]].
  - cbn [fst snd]. assert (t_off t = fst (b_mpage ob) /\ t_pow2 t = snd (b_mpage ob)) as [-> ->] by now rewrite <- Hmp. rewrite M4, M2.
    apply record_reads.
    + destruct (a_alloc _ _ _ _ HA) as [f HI]. apply elem_of_list_split in Hr as (l1 & l2 & Hl).
      eapply (typed_meta_ok c (h_alloc h) (b_meta ob)); [exact Hc|exact M1|rewrite <- M2; exact M3| |exact (ty_objs _ _ HTy _ _ Eo)].
      eapply inv_perm; [exact HI|]. unfold held. rewrite Hl, bind_app_l, bind_cons. unfold opages at 2. rewrite Eo. unfold obj_pages.
      rewrite <- !app_assoc. apply Permutation_app_swap_app.
    + apply msize_page. rewrite <- M2. exact Hxm.
    + rewrite <- M2. exact (ri_own _ _ _ HRec r ob Hr Eo Hxm).
  - unfold obj_ok. cbn [lobj b_meta b_msize b_mpage fst snd]. split; [exact M1|]. split; [reflexivity|]. rewrite M2 in M3, M4. split; [exact M3|].
    rewrite <- M4, <- Hmp. reflexivity.
Qed.
Lemma new_entry m msize moff id k : PCreate4 m msize moff id k ∈ ps ->
  entry_ok c (h_dev h) (new_tuple c msize moff id, m) /\ epages c (new_tuple c msize moff id, m) = pc_pages c (PCreate4 m msize moff id k).
Proof.
  intros Hp. destruct (a_pcs _ _ _ _ HA _ Hp) as (M1 & M2 & M3).
  assert (Hxm : exact_meta c msize).
  { unfold exact_meta. destruct (N.eq_dec (metadata_page_pow2 (dc_spage c) msize) (alloc_pow2 (dc_spage c) msize)) as [H|H]; [exact H|].
    exfalso. apply Hex. right. eexists. split; [exact Hp|exact H]. }
  split; [|reflexivity]. subst msize. split; [|split; [|left; reflexivity]].
  - cbn [fst snd new_tuple t_off t_pow2]. apply record_reads.
    + destruct (a_alloc _ _ _ _ HA) as [f HI]. apply elem_of_list_split in Hp as (l1 & l2 & Hl).
      eapply (typed_meta_ok c (h_alloc h) m); [exact Hc|exact M1|exact M3| |].
      * eapply inv_perm; [exact HI|]. unfold held. rewrite Hl, (bind_app_l (pc_pages c)), (bind_cons (pc_pages c)). cbn [pc_pages].
        rewrite <- !app_assoc. rewrite (app_assoc (owners _ _ ≫= _)). apply Permutation_app_swap_app.
      * assert (Hp' : PCreate4 m (msize_of m) moff id k ∈ ps) by (rewrite Hl; apply elem_of_app; right; constructor).
        exact (ty_pcs _ _ HTy _ Hp').
    + now apply msize_page.
    + exact (ri_pcs _ _ _ HRec _ Hp Hxm).
  - unfold obj_ok. cbn [lobj b_meta b_msize b_mpage fst snd new_tuple t_pow2]. auto.
Qed.

Lemma source_entry id t s : source id t s -> exists m, slot_meta h s m /\ entry_ok c (h_dev h) (t, m) /\ epages c (t, m) = slot_pages c h s /\ s ∈ slots h ps /\ t_id t = id.
Proof.
  intros [r ob st Hr Eo Hid Ht Hwh|r ob Hr Eo Hn Ht Hwh|m msize moff k Hp Ht].
  - exists (b_meta ob). destruct (own_entry r ob t Hr Eo) as [H1 H2].
    + subst t. cbn. destruct Hwh as [[_ ->]|[[_ ->]|(tt & n & kk & _ & ->)]]; [now left|now right|]. destruct kk as [[]|]; cbn; auto.
    + subst t. unfold entry_of. cbn [t_off t_pow2]. now rewrite <- surjective_pairing.
    + split; [exists ob; auto|]. split; [exact H1|]. split; [exact H2|]. split; [|now subst].
      unfold slots. apply elem_of_app. left. now apply elem_of_list_fmap_1.
  - exists (b_meta ob). destruct (own_entry r ob t Hr Eo) as [H1 H2].
    + subst t. now left.
    + subst t. cbn [t_off t_pow2]. now rewrite <- surjective_pairing.
    + split; [exists ob; auto|]. split; [exact H1|]. split; [exact H2|]. split; [|now subst].
      unfold slots. apply elem_of_app. left. now apply elem_of_list_fmap_1.
  - exists m. subst t. destruct (new_entry _ _ _ _ _ Hp) as [H1 H2]. split; [cbn; eauto|]. split; [exact H1|]. split; [exact H2|]. split; [|reflexivity].
    unfold slots. apply elem_of_app. right. now apply elem_of_list_fmap_1.
Qed.

Variable J : N -> nat.
Hypothesis HJ : forall id, (J id <= length cs)%nat /\ D !! id = after_calls (index_of init) (take (J id) cs) !! id.
Hypothesis Hack : forall k cl id, cs !! k = Some cl -> k ∈ sy_acked (h_tup h) -> id ∈ touched cl -> (k < J id)%nat.
Hypothesis Hpair : forall k cur new st, cs !! k = Some (CUpdate cur new st) -> J cur = J new.
Variable init' : list (list tuple).
Variable t' : tsys.
Hypothesis Ho' : opens (dc_spage c) (sy_disk (h_tup h)) init' t'.
Hypothesis HD : D = index_of init'.
Variable order : list tuple.
Hypothesis Hord : order ≡ₚ concat init'.
Hypothesis Hal : exists a, allocator_new (dc_base c) (dc_heap c) (dc_spage c) (dc_lpage c) (2 ^ 32) DirRight = Ok a.

Definition from_slot (e : entry) (s : nat + pc) : Prop :=
  source (eid e) (fst e) s /\ slot_meta h s (snd e) /\ entry_ok c (h_dev h) e /\ epages c e = slot_pages c h s /\ s ∈ slots h ps.

Lemma init_nodup : NoDup (t_id <$> concat init').
Proof. destruct Ho' as (_ & _ & H & _). apply new_loaded in H. exact (l_nodup _ _ _ H). Qed.
Lemma order_D t : t ∈ order -> D !! t_id t = Some t.
Proof. intros Ht. rewrite HD. apply index_of_lookup; [exact init_nodup|]. split; [|reflexivity]. now rewrite <- Hord. Qed.
Lemma D_order id t : D !! id = Some t -> t ∈ order /\ t_id t = id.
Proof. rewrite HD. intros E. apply index_of_lookup in E as [E1 E2]; [|exact init_nodup]. split; [now rewrite Hord|exact E2]. Qed.

Lemma restart_entries : exists es ss k, es.*1 = order /\ NoDup (eid <$> es) /\ Forall2 from_slot es ss /\ slots h ps ≡ₚ ss ++ k.
Proof.
  destruct (pick (fun t es => from_slot (t, es.1) es.2) order) as [ms Hms].
  { intros t Ht. pose proof (order_D t Ht) as E. destruct (has_source c h ps sp pages t0 init cs HT HK Ho D J HJ Hack Hpair (t_id t) t E) as [s Hs].
    destruct (source_entry _ _ _ Hs) as (m & H1 & H2 & H3 & H4 & _). exists (m, s). repeat (split; [assumption|]). assumption. }
  exists (zip order ms.*1), ms.*2.
  assert (Hlen : length order = length ms) by (eapply Forall2_length, Hms).
  assert (Hz1 : (zip order ms.*1).*1 = order) by (apply fst_zip; rewrite fmap_length; lia).
  assert (Hids : NoDup (eid <$> zip order ms.*1)).
  { assert (E : eid <$> zip order ms.*1 = t_id <$> (zip order ms.*1).*1) by (rewrite <- list_fmap_compose; reflexivity).
    rewrite E, Hz1, Hord. exact init_nodup. }
  assert (HF : Forall2 from_slot (zip order ms.*1) ms.*2).
  { clear -Hms. induction Hms as [|t es order ms H Hms IH]; [constructor|]. cbn [fmap list_fmap zip zip_with]. constructor; [exact H|exact IH]. }
  assert (Hnd : NoDup ms.*2).
  { apply NoDup_alt. intros i j s Hi Hj.
    destruct (Forall2_lookup_r _ _ _ _ _ HF Hi) as (e1 & E1 & S1 & _). destruct (Forall2_lookup_r _ _ _ _ _ HF Hj) as (e2 & E2 & S2 & _).
    assert (Hd : forall n e, zip order ms.*1 !! n = Some e -> D !! eid e = Some (fst e)).
    { intros n e E. apply order_D. rewrite <- Hz1. apply elem_of_list_fmap_1. eapply elem_of_list_lookup_2, E. }
    assert (Heq : eid e1 = eid e2) by (eapply (source_unique c h ps sp t0 init cs HT HK D J HJ Hack Hpair); [eapply Hd, E1|eapply Hd, E2|exact S1|exact S2]).
    eapply (NoDup_lookup _ i j (eid e1)); [exact Hids| |]; rewrite list_lookup_fmap; [rewrite E1|rewrite E2]; cbn; congruence. }
  assert (Hsub : ms.*2 ⊆+ slots h ps).
  { apply NoDup_submseteq; [exact Hnd|]. intros s Hs. apply elem_of_list_lookup_1 in Hs as [i Hi].
    destruct (Forall2_lookup_r _ _ _ _ _ HF Hi) as (e1 & E1 & _ & _ & _ & _ & H). exact H. }
  apply submseteq_Permutation in Hsub as [k Hk]. exists k. auto.
Qed.

Theorem restart_loads : exists es ss h', es.*1 = order /\ NoDup (eid <$> es) /\ Forall2 from_slot es ss /\
  opening c y t' order = Some {| y_sh := bump h' (met_counts h'); y_procs := [] |} /\
  LInv c (h_dev h) t' (h_used h) h' es /\ (exists L f, dinv c (h_alloc h) ((es ≫= epages c) ++ L) f).
Proof.
  destruct restart_entries as (es & ss & k & H1 & H2 & H3 & H4). exists es, ss.
  assert (Hpg : es ≫= epages c = ss ≫= slot_pages c h).
  { clear -H3. induction H3 as [|e s es ss He H3 IH]; [reflexivity|]. rewrite !bind_cons, IH. f_equal. apply He. }
  destruct (a_alloc _ _ _ _ HA) as [f HI].
  assert (HI' : dinv c (h_alloc h) ((es ≫= epages c) ++ (k ≫= slot_pages c h) ++ lk) f).
  { eapply inv_perm; [exact HI|]. rewrite <- slots_pages. pose proof (bind_perm (slot_pages c h) _ _ H4) as Hb. rewrite bind_app_l in Hb.
    rewrite Hb, Hpg, <- app_assoc. reflexivity. }
  destruct Hal as [a Ha].
  destruct (load_all_ok c (h_dev h) t' (h_used h) es (h_alloc h) ((k ≫= slot_pages c h) ++ lk) f H2) with (l := es) (h := load_start (h_dev h) a t' (h_used h)) (done := @nil entry) as (h' & E & HL).
  - intros e He. apply elem_of_list_lookup_1 in He as [i Hi]. destruct (Forall2_lookup_l _ _ _ _ _ H3 Hi) as (s & _ & _ & _ & H & _). exact H.
  - exact HI'.
  - reflexivity.
  - constructor; cbn [load_start h_dev h_tup h_used h_objs h_inc h_com h_alloc]; try reflexivity.
    + exists []. auto.
    + intros tok r E. rewrite lookup_empty in E. discriminate.
    + intros e He. inversion He.
    + intros key r E. rewrite lookup_empty in E. discriminate.
    + intros e He. inversion He.
    + exists 0. eapply new_inv; [|exact Ha]. destruct Hc. lia.
    + intros r e E. rewrite lookup_nil in E. discriminate.
  - exists h'. split; [exact H1|]. split; [exact H2|]. split; [exact H3|]. split; [|split; [exact HL|eauto]].
    unfold opening. rewrite Ha. rewrite <- H1. rewrite E. reflexivity.
Qed.
End Restart.
