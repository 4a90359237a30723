(** Every step of a lite store is a step of the abstract store: creating,
    returning, journal steps. *)
From Coq Require Import ZifyBool ZifyNat ZifyN.
From stdpp Require Import base numbers list_numbers option gmap sets list.
From Verif Require Import Util Bytes BuddyModel BuddySpec BuddyProofs BuddyInv LayoutModel LayoutProofs MetaModel MetaSpec MetaProofs PropertiesMeta.
From Verif Require Import PageIOModel PageIOSpec PageIOProofs DirectModel DirectBase.
From Verif Require Import JournalModel JournalSpec JournalProofs LiteModel LiteSpec LiteJournal LiteNode LiteRecord LiteInv LiteSteps LiteSteps2 LiteLin.
Open Scope N_scope.
Ltac Zify.zify_post_hook ::= idtac.

Lemma ssteps_one lpage st o st' : sstep lpage st o st' -> ssteps lpage st [o] st'.
Proof. intros H. eapply ssteps_cons; [exact H|constructor]. Qed.

Section sim.
Context (c : liconf) (Hc : conf_sizes c).
Notation spage := (li_spage c).
Notation lpage := (li_lpage c).
Notation dpg := (dpages spage lpage).
Notation core := (core c).
Notation live := (live c).
Notation bchain := (bchain c).
Notation linv := (linv c).
Notation srel := (srel c).
Implicit Types (us : list txn) (calls : list lcall) (objs : list lobj) (A F : device).

Definition sim (s : lstate) (st : sstore) (obs : list lobs) : Prop :=
  exists A us objs leak st', linv s A us objs leak /\ srel (flushed A us) objs st' /\ ssteps lpage st obs st'.

(** ... and pages are lost only by a creation that fails for lack of space. *)
Definition failed_create (o : lobs) : bool := match o with OFull _ _ => true | _ => false end.
Definition simk (leak0 : list page) (s : lstate) (st : sstore) (obs : list lobs) : Prop :=
  exists A us objs leak st', linv s A us objs leak /\ srel (flushed A us) objs st' /\ ssteps lpage st obs st' /\
    (existsb failed_create obs = false -> leak = leak0).
Lemma simk_sim leak0 s st obs : simk leak0 s st obs -> sim s st obs.
Proof. intros (A & us & objs & leak & st' & H1 & H2 & H3 & _). exists A, us, objs, leak, st'. auto. Qed.
Lemma simk_keep leak0 s st obs A us objs st' :
  linv s A us objs leak0 /\ srel (flushed A us) objs st' /\ ssteps lpage st obs st' -> simk leak0 s st obs.
Proof. intros (H1 & H2 & H3). exists A, us, objs, leak0, st'. auto. Qed.

Section step.
Context (s : lstate) (A : device) (us : list txn) (objs : list lobj) (leak : list page) (HL : linv s A us objs leak)
  (st : sstore) (HS : srel (flushed A us) objs st).

Lemma sim_stay o : sstep lpage st o st -> simk leak s st [o].
Proof. intros H. apply (simk_keep _ _ _ _ A us objs st). split; [exact HL|]. split; [exact HS|now apply ssteps_one]. Qed.

(** ** The journal *)
Lemma sim_journal e j' : txn_of e = [] -> jstep (li_jc c) (ls_j s) e = Some j' ->
  simk leak (mk j' (ls_alloc s) (ls_ov s) (ls_calls s) (ls_used s)) st [].
Proof.
  intros He Hj. destruct HL as [HV HK].
  destruct (jview_step (li_jc c) (co_hash _ Hc) (co_cap _ Hc) _ _ _ _ _ HV He Hj) as (j & HV' & _ & Hn).
  apply (simk_keep _ _ _ _ (apply_writes A (concat (take j us))) (drop j us) objs st). split; [|split].
  - split; [exact HV'|]. cbn [mk ls_j ls_alloc ls_ov ls_calls ls_used]. rewrite flushed_step, Hn. apply core_flush, HK.
  - rewrite flushed_step. exact HS.
  - constructor.
Qed.

(** ** Returning *)
Lemma sim_finish i b sig tks free s' obs : ls_calls s !! i = Some (LWait b sig tks free) ->
  do_finish s i sig tks free = Some (s', obs) -> simk leak s' st obs.
Proof.
  intros Hi E. destruct HL as [HV HK]. unfold do_finish in E.
  destruct (insert_perm _ _ _ Hi) as (rest & Hp & Hins).
  pose proof (core_perm c _ _ _ _ _ _ _ _ _ _ Hp HK) as HK1.
  assert (Hs : forall n, sig = Some n -> bool_decide (n ∈ js_acked (ls_j s)) = true -> (n < length (js_acked (ls_j s)))%nat).
  { intros n _ Hb. apply bool_decide_eq_true in Hb. eapply acked_lt; [exact HV|exact Hb]. }
  destruct (match sig with Some n => bool_decide (n ∈ js_acked (ls_j s)) | None => true end) eqn:Eb; [|discriminate].
  eapply core_finish in HK1 as (a' & Ea & HK1).
  - rewrite Ea in E. injection E as <- <-. apply (simk_keep _ _ _ _ A us objs st). split; [|split; [exact HS|constructor]].
    split; [exact HV|]. cbn [mk ls_j ls_alloc ls_ov ls_calls ls_used]. eapply core_perm; [symmetry; apply Hins|exact HK1].
  - intros n ->. apply Hs; [reflexivity|exact Eb].
Qed.

(** ** Creating *)
Lemma sim_create key size assoc id ms s' obs : event_ok c (LCreate key size assoc id ms) ->
  do_create c s key size assoc id ms = Some (s', obs) -> simk leak s' st obs.
Proof.
  intros (Hk & Has & Hsz & Hid & Hms) E. destruct HL as [HV HK]. unfold do_create in E.
  destruct (bool_decide_reflect (id ∈ ls_used s)) as [|Hfresh]; [discriminate|].
  assert (Hlim : size / 2 ^ lpage < 2 ^ 64) by exact (layout_lim spage lpage (co_pages _ Hc) (co_lpage _ Hc) (co_ratio _ Hc) _ Hsz).
  destruct (calc_layout_spec spage lpage (2 ^ 64) size (co_pages _ Hc) (co_lpage _ Hc) (co_ratio _ Hc) Hlim)
    as (t & tails & Ec & Hrep & Hlay).
  cbv zeta in E. rewrite Ec in E.
  pose proof (create_record_nil spage lpage (co_pages _ Hc) (co_lpage _ Hc) (co_ratio _ Hc) key size assoc id ms _ t Hk Has Ec) as Hnil. cbv zeta in Hnil. unfold mkreq in Hnil.
  destruct Hnil as [[Hbig E0]|(Hsmall & raw0 & p0 & E0 & Hl0)].
  { rewrite E0 in E. injection E as <- <-. apply sim_stay. constructor. revert Hbig. unfold off_total. offs. pose proof (tps_rep_len _ _ Hrep) as Htl.
    assert (Ht24 : (length tails <= 24)%nat) by apply Hlay. intros Hbig. clear -Hbig Htl Ht24. generalize dependent (2 ^ lpage). intros. lia. }
  rewrite E0 in E. rewrite (tps_rep_collect _ _ Hrep) in E.
  destruct (k_alloc _ _ _ _ _ _ _ _ _ _ HK) as [f HI].
  set (sizes := replicate (N.to_nat (size / 2 ^ lpage)) (N.shiftl 1 lpage) ++ map (fun '(_, sz) => N.shiftl 1 sz) (enumerate tails) ++ [N.of_nat (length raw0)]) in *.
  destruct (alloc_list (ls_alloc s) sizes) as [a [offs|]] eqn:Ea.
  - pose proof (lite_create_layout spage lpage (co_pages _ Hc) (co_lpage _ Hc) (co_ratio _ Hc) (li_base c) (li_heap c)
      key size assoc id ms _ t (enumerate tails) _ _ _ _ _ _ Hk Has Hsz Hid Hms (co_end _ Hc) HI Ec (tps_rep_collect _ _ Hrep) Ea) as HC.
    cbv zeta in HC. unfold mkreq in HC.
    set (r := {| cr_key := key; cr_size := size; cr_assoc := assoc; cr_id := id; cr_created_ms := ms;
      cr_lpages := take (N.to_nat (size / 2 ^ lpage)) offs; cr_tails := take (length (enumerate tails)) (drop (N.to_nat (size / 2 ^ lpage)) offs) |}) in *.
    destruct HC as (Hv & Hn1 & Hn2 & off & f' & Ed & HI').
    rewrite Ed in E.
    assert (Hrb : record_bytes r = N.of_nat (length raw0)).
    { rewrite Hl0. unfold record_bytes. rewrite Hn1, Hn2, (enumerate_length spage lpage (co_pages _ Hc) (co_lpage _ Hc) (co_ratio _ Hc)). pose proof (tps_rep_len _ _ Hrep) as Htl. cbn [r cr_key cr_assoc].
      unfold off_total. offs. lia. }
    assert (Hro : req_ok spage lpage r) by (split; [exact Hv|]; rewrite Hrb, Hl0; exact Hsmall).
    destruct (C07_created_record_decodes spage lpage r (co_pages _ Hc) Hv (proj2 Hro)) as (raw & p & Ecr & Hlr & Hp & Hlp & Hlow & _).
    rewrite Ecr in E. injection E as <- <-.
    assert (p = alloc_pow2 spage (N.of_nat (length raw0))) as Hpe.
    { eapply (fits_unique spage). rewrite <- Hrb, <- Hlr. unfold fits_exactly. split; [lia|]. split; [exact Hlp|].
      intros q Hq Hs. destruct Hlow as [->|Hlow]; [exact Hq|]. destruct (N.le_gt_cases p q) as [|Hqp]; [assumption|]. exfalso.
      assert (2 ^ q <= 2 ^ (p - 1)) by (apply N.pow_le_mono_r; lia). clear -H Hs Hlow. lia. }
    rewrite <- Hpe in HI'.
    apply (simk_keep _ _ _ _ A us objs st). split; [|split; [exact HS|constructor]]. split; [exact HV|].
    cbn [mk ls_j ls_alloc ls_ov ls_calls ls_used]. change id with (cr_id r).
    eapply core_perm with (calls := LNew r raw p off :: ls_calls s); [apply Permutation_cons_append|].
    eapply core_new; eauto.
  - injection E as <- <-. destruct (alloc_list_inv _ _ _ _ _ _ HI Ea) as (f' & got & HI' & _).
    exists A, us, objs, (got ++ leak), st. split; [|split; [exact HS|split; [apply ssteps_one; constructor|intros H; discriminate H]]].
    split; [exact HV|]. cbn [mk ls_j ls_alloc ls_ov ls_calls ls_used]. eapply core_leak; [exact HK|exact HI'].
Qed.

(** ** Direct changes of the device *)
Lemma patch_view d' : (forall x, d' x <> ls_dev s x -> outside_journal (li_jc c) x /\ untouched us x) ->
  let A' := patch A (ls_dev s) d' in
  jview (li_jc c) (set_dev (ls_j s) d') A' us /\
  (forall x, d' x = ls_dev s x -> flushed A' us x = flushed A us x /\ A' x = A x) /\
  (forall x, outside_journal (li_jc c) x -> untouched us x -> flushed A' us x = d' x).
Proof.
  intros Hd A'. destruct HL as [HV HK]. split; [|split].
  - unfold A'. change (patch A (ls_dev s) d') with (patch A (js_dev (ls_j s)) (js_dev (set_dev (ls_j s) d'))). eapply jview_change; [exact HV|exact Hd|..]; reflexivity.
  - intros x E. split.
    + unfold A'. rewrite flushed_patch by (intros H; now apply Hd). rewrite E, N.eqb_refl. reflexivity.
    + unfold A', patch. rewrite E, N.eqb_refl. reflexivity.
  - intros x Ho Hu. unfold A'. rewrite flushed_patch by (intros H; now apply Hd). destruct (N.eqb_spec (d' x) (ls_dev s x)) as [E|E]; [|reflexivity].
    rewrite E. symmetry. eapply lin_dev; eassumption.
Qed.
Lemma patch_write off data : (forall x, off <= x < off + N.of_nat (length data) -> outside_journal (li_jc c) x /\ untouched us x) ->
  let d' := dev_write (ls_dev s) off data in
  (forall x, d' x <> ls_dev s x -> outside_journal (li_jc c) x /\ untouched us x) /\
  forall z, flushed (patch A (ls_dev s) d') us z = dev_write (flushed A us) off data z.
Proof.
  intros Hr d'.
  assert (Hd : forall x, d' x <> ls_dev s x -> off <= x < off + N.of_nat (length data)).
  { intros x Hx. destruct (decide (off <= x < off + N.of_nat (length data))) as [|Hn]; [assumption|]. exfalso. apply Hx.
    apply dev_write_other. exact Hn. }
  split; [intros x Hx; apply Hr, Hd, Hx|].
  destruct (patch_view d' ltac:(intros x Hx; apply Hr, Hd, Hx)) as (_ & P1 & P2).
  intros z. destruct (decide (off <= z < off + N.of_nat (length data))) as [Hz|Hz].
  - destruct (Hr z Hz) as [H1 H2]. rewrite (P2 z H1 H2).
    destruct (lookup_lt_is_Some_2 data (N.to_nat (z - off))) as [v Hv]; [lia|].
    unfold d'. rewrite !(dev_write_in _ _ _ _ _ (proj1 Hz) Hv). reflexivity.
  - rewrite dev_write_other by exact Hz. apply P1. unfold d'. apply dev_write_other. exact Hz.
Qed.

Lemma sim_cwrite i r raw p off : ls_calls s !! i = Some (LNew r raw p off) ->
  simk leak (mk (set_dev (ls_j s) (dev_write (ls_dev s) off raw)) (ls_alloc s) (ls_ov s) (<[i := LRec r raw p off]> (ls_calls s)) (ls_used s)) st [].
Proof.
  intros Hi. pose proof HL as [HV HK]. destruct (insert_perm _ _ _ Hi) as (rest & Hp & Hins).
  pose proof (core_perm c _ _ _ _ _ _ _ _ _ _ Hp HK) as HK1.
  set (d' := dev_write (ls_dev s) off raw).
  assert (Hr : forall x, off <= x < off + N.of_nat (length raw) -> outside_journal (li_jc c) x /\ untouched us x).
  { intros x Hx. destruct (core_record c Hc _ _ (dev_write (flushed A us) off raw) _ _ _ _ _ _ _ _ _ _ _ HK1 (fun _ => eq_refl)) as [G _].
    destruct (G x Hx) as [G1 G2]. split; [apply (heap_outside c Hc), G2|exact G1]. }
  destruct (patch_write off raw Hr) as [Hd Hw]. destruct (patch_view d' Hd) as (HV' & P1 & _).
  apply (simk_keep _ _ _ _ (patch A (ls_dev s) d') us objs st). split; [|split; [|constructor]].
  - split; [exact HV'|]. cbn [mk ls_j ls_alloc ls_ov ls_calls ls_used set_dev js_acked].
    eapply core_perm; [symmetry; apply Hins|].
    eapply (core_record c Hc); [exact HK1|exact Hw].
  - eapply srel_keep; [|exact HS]. intros o pg x Ho Hpg Hx. apply P1. unfold d'. apply dev_write_other. intros Ht. unfold touches in Ht. cbn [fst snd] in Ht.
    pose proof (k_calls _ _ _ _ _ _ _ _ _ _ HK1 _ (elem_of_list_here _ _)) as (Hreq & Hcr & _).
    pose proof (raw_len c Hc r raw p Hreq Hcr) as [Hl _].
    assert (Hcl : LNew r raw p off ∈ ls_calls s) by (eapply elem_of_list_lookup_2, Hi).
    eapply (data_call c HL o _ pg (off, p) x Ho Hcl Hpg); [|exact Hx|].
    + cbn [cpages]. apply elem_of_app. right. constructor.
    + unfold in_page. cbn [fst snd]. lia.
Qed.

(** ** Transactions *)
Lemma do_txn_eq j t seen : t <> [] -> do_txn c j t seen = (commit_transaction (li_jc c) j t seen, Some (js_next j)).
Proof. intros H. unfold do_txn. destruct t; [contradiction|reflexivity]. Qed.

Lemma sim_link i r raw p off seen s' obs : ls_calls s !! i = Some (LRec r raw p off) ->
  do_link c s i r off seen = (s', obs) -> simk leak s' st obs.
Proof.
  intros Hi E. pose proof HL as [HV HK]. destruct (insert_perm _ _ _ Hi) as (rest & Hp & Hins).
  pose proof (core_perm c _ _ _ _ _ _ _ _ _ _ Hp HK) as HK1.
  unfold do_link in E. rewrite (lin_head c Hc HL _ (bucket_lt c Hc (cr_key r))) in E.
  set (b := bucket_of c (cr_key r)) in *. set (cur := first_off (bchain objs b)) in *.
  destruct (update_head (ls_ov s) [] b off) as [[ov1 t1] tk1] eqn:E1.
  destruct (ov_set_next ov1 (cr_id r) cur) as [ov2 tk2] eqn:E2.
  set (t := txn_write t1 (off + off_next) (be_bytes 6 cur)) in *.
  assert (Et : t = [(bucket_off b, be_bytes 5 (N.shiftr off 8)); (off + off_next, be_bytes 6 cur)]).
  { unfold update_head, ov_set_head in E1. injection E1 as _ <- _. reflexivity. }
  assert (Hne : t <> []) by (rewrite Et; discriminate).
  rewrite (do_txn_eq _ _ _ Hne) in E. injection E as <- <-.
  pose proof (core_link c Hc _ _ _ _ _ _ _ _ _ _ _ _ _ _ _ _ _ _ _ _ t HK1 eq_refl eq_refl E1 E2 eq_refl) as HK2.
  assert (Hfit : fits (li_jc c) t).
  { apply (co_fits _ Hc); rewrite Et; [cbn; lia|]. intros w Hw. rewrite !elem_of_cons in Hw.
    destruct Hw as [->|[->|Hw]]; [| |inversion Hw]; cbn [snd]; rewrite be_bytes_length; lia. }
  pose proof (jview_commit (li_jc c) (co_hash _ Hc) (co_cap _ Hc) (ls_j s) A us t seen HV Hne Hfit) as HV'.
  rewrite <- flushed_snoc in HK2.
  pose proof (core_call_page c HK1 r raw p off (or_intror (elem_of_list_here _ _))) as (_ & Hidc & _).
  pose proof (fresh_id c HK1) as Hfi.
  apply (simk_keep _ _ _ _ A (us ++ [t]) (new_obj r off p :: objs)
    {| ss_inc := <[cr_id r := (cr_key r, {| so_id := cr_id r; so_size := cr_size r; so_bytes := fun _ => None |})]> (ss_inc st); ss_com := ss_com st |}).
  split; [|split].
  - split; [exact HV'|]. cbn [mk ls_j ls_alloc ls_ov ls_calls ls_used]. rewrite commit_acked. rewrite (jview_next _ _ _ _ HV).
    eapply core_perm; [symmetry; apply Hins|]. exact HK2.
  - assert (HS' : srel (flushed A (us ++ [t])) objs st).
    { eapply srel_keep; [|exact HS]. intros o pg x Ho Hpg Hx. rewrite (data_base c Hc HK2 o pg x) by (try assumption; now constructor).
      symmetry. eapply (data_base c Hc HK); eassumption. }
    destruct HS' as [S1 S2 S3 S4]. split; cbn [ss_inc ss_com].
    + intros o Ho Hst. apply elem_of_cons in Ho as [->|Ho].
      * cbn [new_obj lo_req]. eexists. rewrite lookup_insert. split; [reflexivity|]. split; [reflexivity|]. split; [reflexivity|]. intros i' v' Hb. discriminate Hb.
      * destruct (S1 o Ho Hst) as (so & Eo & R). exists so. rewrite lookup_insert_ne by (intros Ex; symmetry in Ex; revert Ex; apply Hfi; assumption). auto.
    + intros id k so. rewrite lookup_insert_Some. intros [[<- [= <- <-]]|[_ H]].
      * exists (new_obj r off p). split; [constructor|auto].
      * destruct (S2 id k so H) as (o & Ho & Hx). exists o. split; [now constructor|exact Hx].
    + intros o Ho Hst. apply elem_of_cons in Ho as [->|Ho]; [discriminate Hst|]. now apply S3.
    + intros k so H. destruct (S4 k so H) as (o & Ho & Hx). exists o. split; [now constructor|exact Hx].
  - apply ssteps_one. constructor.
    + destruct (ss_inc st !! cr_id r) as [[k so]|] eqn:Ei; [|reflexivity]. exfalso.
      destruct (sr_inc2 _ _ _ _ HS _ _ _ Ei) as (o & Ho & Eo & _). revert Eo. apply Hfi; assumption.
    + intros k so Hk Eid. destruct (sr_com2 _ _ _ _ HS _ _ Hk) as (o & Ho & Eo & Hst).
      destruct (sr_com _ _ _ _ HS o Ho Hst) as (so' & Es & (R & _)). rewrite Eo, Hk in Es. injection Es as <-.
      rewrite R in Eid. revert Eid. apply Hfi; assumption.
Qed.
End step.
End sim.
