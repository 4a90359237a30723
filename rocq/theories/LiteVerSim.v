(** With [versioning] on, every step of a lite store is a step of the store with
    versions (LiteVerSpec.v). *)
From Coq Require Import ZifyBool ZifyNat ZifyN.
From stdpp Require Import base numbers list_numbers option gmap sets list.
From Verif Require Import Util Bytes BuddyModel BuddySpec BuddyProofs BuddyInv LayoutModel LayoutProofs MetaModel MetaSpec MetaProofs PropertiesMeta.
From Verif Require Import PageIOModel PageIOSpec PageIOProofs PageIOWrite PageIOSys PropertiesPageIO DirectModel DirectBase.
From Verif Require Import JournalModel JournalSpec JournalProofs LiteModel LiteSpec LiteVerSpec LiteJournal LiteNode LiteRecord LiteInv LiteSteps LiteSteps2 LiteLin LiteSim LiteSim2 LiteSim3.
Open Scope N_scope.
Ltac Zify.zify_post_hook ::= idtac.

Lemma vsteps_one lpage vs o vs' : vstep lpage vs o vs' -> vsteps lpage vs [o] vs'.
Proof. intros H. eapply vsteps_cons; [exact H|constructor]. Qed.

(** ** Lists *)
Lemma find_first {X} (p : X -> bool) l x : List.find p l = Some x <-> exists l1 l2, l = l1 ++ x :: l2 /\ p x = true /\ forall y, y ∈ l1 -> p y = false.
Proof.
  induction l as [|a l IH]; cbn [List.find].
  - split; [discriminate|]. intros (l1 & l2 & E & _). destruct l1; discriminate.
  - destruct (p a) eqn:Ea.
    + split.
      * intros [= ->]. exists [], l. split; [reflexivity|]. split; [exact Ea|]. intros y Hy. inversion Hy.
      * intros (l1 & l2 & E & Hx & Hl). destruct l1 as [|b l1]; [injection E as -> _; reflexivity|]. injection E as -> _.
        rewrite (Hl b) in Ea by constructor. discriminate.
    + rewrite IH. split.
      * intros (l1 & l2 & -> & Hx & Hl). exists (a :: l1), l2. split; [reflexivity|]. split; [exact Hx|].
        intros y Hy. apply elem_of_cons in Hy as [->|Hy]; auto.
      * intros (l1 & l2 & E & Hx & Hl). destruct l1 as [|b l1]; [injection E as -> _; congruence|]. injection E as -> ->.
        exists l1, l2. split; [reflexivity|]. split; [exact Hx|]. intros y Hy. apply Hl. now constructor.
Qed.
Lemma find_no {X} (p : X -> bool) l : List.find p l = None <-> forall y, y ∈ l -> p y = false.
Proof.
  induction l as [|a l IH]; cbn [List.find].
  - split; [intros _ y Hy; inversion Hy|reflexivity].
  - destruct (p a) eqn:Ea.
    + split; [discriminate|]. intros H. rewrite (H a) in Ea by constructor. discriminate.
    + rewrite IH. split; [intros H y Hy; apply elem_of_cons in Hy as [->|Hy]; auto|intros H y Hy; apply H; now constructor].
Qed.
(** The first of a sublist is the first of the list. *)
Lemma filter_first {X} (P : X -> Prop) `{forall x, Decision (P x)} (M : X -> Prop) l l1 o l2 :
  filter P l = l1 ++ o :: l2 -> (forall x, M x -> P x) -> (forall x, x ∈ l1 -> ~ M x) ->
  exists x y, l = x ++ o :: y /\ forall z, z ∈ x -> ~ M z.
Proof.
  revert l1. induction l as [|a l IH]; intros l1 E HP Hl; [destruct l1; discriminate|]. rewrite filter_cons in E. destruct (decide (P a)) as [Ha|Ha].
  - destruct l1 as [|b l1].
    + injection E as -> _. exists [], l. split; [reflexivity|]. intros z Hz. inversion Hz.
    + injection E as -> E. destruct (IH l1 E HP) as (x & y & -> & Hx); [intros z Hz; apply Hl; now constructor|].
      exists (b :: x), y. split; [reflexivity|]. intros z Hz. apply elem_of_cons in Hz as [->|Hz]; [apply Hl; constructor|auto].
  - destruct (IH l1 E HP Hl) as (x & y & -> & Hx). exists (a :: x), y. split; [reflexivity|].
    intros z Hz. apply elem_of_cons in Hz as [->|Hz]; [intros Hm; exact (Ha (HP _ Hm))|auto].
Qed.

Section sim.
Context (c : liconf) (Hc : conf_sizes c).
Notation spage := (li_spage c).
Notation lpage := (li_lpage c).
Notation dpg := (dpages spage lpage).
Notation core := (core c).
Notation live := (live c).
Notation bchain := (bchain c).
Notation linv := (linv c).
Notation orel := (orel c).
Notation all_pages := (all_pages c).
Implicit Types (us : list txn) (calls : list lcall) (objs : list lobj) (A F : device).

Definition vrel1 F (o : lobj) (v : version) : Prop :=
  v_key v = lo_key o /\ v_com v = (lo_st o =? st_committed) /\ orel F (lo_req o) (v_obj v).
Definition vrel F objs (vs : vstore) : Prop := Forall2 (vrel1 F) objs vs.
Definition vsim (s : lstate) (vs : vstore) (obs : list lobs) : Prop :=
  exists A us objs leak vs', linv s A us objs leak /\ vrel (flushed A us) objs vs' /\ vsteps lpage vs obs vs'.

Lemma vrel_keep F F' objs vs : (forall o pg x, o ∈ objs -> pg ∈ dpg (lo_req o) -> in_page pg x -> F' x = F x) ->
  vrel F objs vs -> vrel F' objs vs.
Proof.
  intros H HS. induction HS as [|o v objs vs (H1 & H2 & H3) HS IH]; constructor.
  - split; [exact H1|]. split; [exact H2|]. eapply orel_keep; [|exact H3]. intros pg x. apply H. constructor.
  - apply IH. intros o' pg x Ho'. apply H. now constructor.
Qed.
Lemma vrel_split F x o y vs : vrel F (x ++ o :: y) vs ->
  exists vx v vy, vs = vx ++ v :: vy /\ vrel F x vx /\ vrel1 F o v /\ vrel F y vy.
Proof.
  intros H. apply Forall2_app_inv_l in H as (vx & l & Hx & Hl & ->). apply Forall2_cons_inv_l in Hl as (v & vy & Hv & Hy & ->).
  exists vx, v, vy. auto.
Qed.
Lemma vrel_elem F objs vs v : vrel F objs vs -> v ∈ vs -> exists o, o ∈ objs /\ vrel1 F o v.
Proof.
  intros H Hv. apply elem_of_list_lookup in Hv as [i Hi]. destruct (Forall2_lookup_r _ _ _ _ _ H Hi) as (o & Ho & R). exists o.
  split; [eapply elem_of_list_lookup_2, Ho|exact R].
Qed.
Lemma vids_of F objs vs : vrel F objs vs -> (v_id <$> vs) = (fun o => lo_id o) <$> objs.
Proof.
  intros H. induction H as [|o v l vs (_ & _ & (E & _)) _ IH]; [reflexivity|]. rewrite !fmap_cons, IH. f_equal. exact E.
Qed.
Definition cst (com : bool) : N := if com then st_committed else st_incomplete.
Lemma is_matches F o v key com oid : vrel1 F o v -> (lo_st o = st_incomplete \/ lo_st o = st_committed) ->
  v_is key com oid v = true <-> matches key (cst com) oid o.
Proof.
  intros (H1 & H2 & (H3 & _)) Hst. unfold v_is, matches, v_id. rewrite !andb_true_iff, H1, H2, bool_decide_eq_true, eqb_true_iff, H3.
  assert (E : (lo_st o =? st_committed) = com <-> lo_st o = cst com).
  { unfold cst. destruct Hst as [-> | ->], com; vm_compute; split; intros; congruence. }
  rewrite E. unfold lo_id. tauto.
Qed.

Section step.
Context (s : lstate) (A : device) (us : list txn) (objs : list lobj) (leak : list page) (HL : linv s A us objs leak)
  (st : vstore) (HS : vrel (flushed A us) objs st).

Lemma obj_states o : o ∈ objs -> lo_st o = st_incomplete \/ lo_st o = st_committed.
Proof.
  intros Ho. pose proof (k_chain _ _ _ _ _ _ _ _ _ _ (lin_core c HL) (bkt c o)) as Hch.
  assert (Hin : o ∈ bchain objs (bkt c o)) by (apply bchain_elem; auto). apply elem_of_list_split in Hin as (l1 & l2 & E).
  rewrite E in Hch. apply chain_app in Hch as [_ Hch]. cbn [chain] in Hch. apply Hch.
Qed.
Lemma id_unique : NoDup ((fun o => lo_id o) <$> objs).
Proof. exact (ids_objs c (lin_core c HL)). Qed.
Lemma vids : (v_id <$> st) = (fun o => lo_id o) <$> objs.
Proof.
  exact (vids_of _ _ _ HS).
Qed.

(** Lookups. *)
Lemma find_some key com oid l1 o l2 : bchain objs (bucket_of c key) = l1 ++ o :: l2 ->
  (forall o', o' ∈ l1 -> ~ matches key (cst com) oid o') -> matches key (cst com) oid o ->
  exists x y vx v vy, objs = x ++ o :: y /\ st = vx ++ v :: vy /\ vrel (flushed A us) x vx /\ vrel1 (flushed A us) o v /\
    vrel (flushed A us) y vy /\ List.find (v_is key com oid) st = Some v.
Proof.
  intros E Hno Hm.
  destruct (filter_first (fun o => bkt c o = bucket_of c key) (matches key (cst com) oid) objs l1 o l2 E) as (x & y & Eo & Hx); [|exact Hno|].
  { intros z (Hk & _). unfold bkt. now rewrite Hk. }
  pose proof HS as HS'. rewrite Eo in HS'. apply vrel_split in HS' as (vx & v & vy & Ev & R1 & R2 & R3).
  exists x, y, vx, v, vy. split; [exact Eo|]. split; [exact Ev|]. split; [exact R1|]. split; [exact R2|]. split; [exact R3|].
  apply find_first. exists vx, vy. split; [exact Ev|].
  assert (Hob : forall o', o' ∈ x -> o' ∈ objs) by (intros o' H; rewrite Eo, elem_of_app; auto).
  split.
  - eapply is_matches; [exact R2| |exact Hm]. apply obj_states. rewrite Eo, elem_of_app, elem_of_cons. auto.
  - intros w Hw. destruct (vrel_elem _ _ _ _ R1 Hw) as (o' & Ho' & Rw). destruct (v_is key com oid w) eqn:Ew; [|reflexivity]. exfalso.
    apply (Hx o' Ho'). eapply is_matches; [exact Rw|apply obj_states, Hob, Ho'|exact Ew].
Qed.
Lemma find_none key com oid : (forall o, o ∈ objs -> ~ matches key (cst com) oid o) -> List.find (v_is key com oid) st = None.
Proof.
  intros H. apply find_no. intros v Hv. destruct (vrel_elem _ _ _ _ HS Hv) as (o & Ho & R). destruct (v_is key com oid v) eqn:Ew; [|reflexivity].
  exfalso. apply (H o Ho). eapply is_matches; [exact R|apply obj_states, Ho|exact Ew].
Qed.
(** An incomplete object is the only one with its id. *)
Lemma find_id key com id o : o ∈ objs -> matches key (cst com) (Some id) o ->
  exists x y vx v vy, objs = x ++ o :: y /\ st = vx ++ v :: vy /\ vrel (flushed A us) x vx /\ vrel1 (flushed A us) o v /\
    vrel (flushed A us) y vy /\ List.find (v_is key com (Some id)) st = Some v.
Proof.
  intros Ho Hm. assert (Hin : o ∈ bchain objs (bucket_of c key)).
  { apply bchain_elem. split; [exact Ho|]. destruct Hm as (Hk & _). unfold bkt. now rewrite Hk. }
  apply elem_of_list_split in Hin as (l1 & l2 & E). eapply find_some; [exact E| |exact Hm].
  intros o' Ho' (_ & _ & Hi'). destruct Hm as (_ & _ & Hi). cbn [id_ok] in Hi, Hi'. apply N.eqb_eq in Hi, Hi'.
  assert (Hn : NoDup (bchain objs (bucket_of c key))) by (apply NoDup_filter, (objs_nodup c (lin_core c HL))).
  rewrite E in Hn. apply NoDup_app in Hn as (_ & Hd & _). apply (Hd o' Ho').
  assert (o' = o) as ->; [|constructor]. eapply (same_id c (lin_core c HL)); [|exact Ho|congruence].
  assert (Hb : o' ∈ bchain objs (bucket_of c key)) by (rewrite E, elem_of_app; auto). now apply bchain_elem in Hb.
Qed.
(** Splitting by id. *)
Lemma split_ids x o y vx v vy : objs = x ++ o :: y -> st = vx ++ v :: vy -> vrel1 (flushed A us) o v ->
  v_id v = lo_id o /\ (forall w, w ∈ vx -> v_id w <> lo_id o) /\ (forall w, w ∈ vy -> v_id w <> lo_id o).
Proof.
  intros Eo Ev (_ & _ & (Ei & _)). split; [exact Ei|]. pose proof id_unique as Hn. rewrite <- vids, Ev, fmap_app, fmap_cons in Hn.
  apply NoDup_app in Hn as (_ & Hd & Hn). apply NoDup_cons in Hn as [Hn _].
  assert (Ei2 : v_id v = lo_id o) by exact Ei. split; intros w Hw E.
  - apply (Hd (v_id w)); [now apply elem_of_list_fmap_1|]. rewrite E, Ei2. constructor.
  - apply Hn. rewrite Ei2, <- E. now apply elem_of_list_fmap_1.
Qed.
Lemma update_split x o y vx v vy f : objs = x ++ o :: y -> st = vx ++ v :: vy -> vrel1 (flushed A us) o v ->
  v_update st (lo_id o) f = vx ++ f v :: vy.
Proof.
  intros Eo Ev R. destruct (split_ids _ _ _ _ _ _ Eo Ev R) as (E0 & H1 & H2). unfold v_update. rewrite Ev, fmap_app, fmap_cons, E0, N.eqb_refl.
  assert (G : forall l : list version, (forall w, w ∈ l -> v_id w <> lo_id o) -> (fun w => if v_id w =? lo_id o then f w else w) <$> l = l).
  { clear. induction l as [|a l IH]; intros H; [reflexivity|]. rewrite fmap_cons, IH by (intros w Hw; apply H; now constructor).
    destruct (N.eqb_spec (v_id a) (lo_id o)) as [E|]; [|reflexivity]. exfalso. revert E. apply H. constructor. }
  rewrite !G by assumption. reflexivity.
Qed.
Lemma remove_split x o y vx v vy : objs = x ++ o :: y -> st = vx ++ v :: vy -> vrel1 (flushed A us) o v ->
  filter (fun w => v_id w <> v_id v) st = vx ++ vy.
Proof.
  intros Eo Ev R. destruct (split_ids _ _ _ _ _ _ Eo Ev R) as (E0 & H1 & H2). rewrite Ev, filter_app, filter_cons, decide_False by (intros H; now apply H).
  assert (G : forall l : list version, (forall w, w ∈ l -> v_id w <> lo_id o) -> filter (fun w => v_id w <> v_id v) l = l).
  { clear -E0. induction l as [|a l IH]; intros H; [reflexivity|]. rewrite filter_cons, decide_True by (rewrite E0; apply H; constructor).
    rewrite IH; [reflexivity|]. intros w Hw. apply H. now constructor. }
  rewrite !G by assumption. reflexivity.
Qed.

Lemma vsim_stay o : vstep lpage st o st -> vsim s st [o].
Proof. intros H. exists A, us, objs, leak, st. split; [exact HL|]. split; [exact HS|now apply vsteps_one]. Qed.

Lemma vsim_journal e j' : txn_of e = [] -> jstep (li_jc c) (ls_j s) e = Some j' ->
  vsim (mk j' (ls_alloc s) (ls_ov s) (ls_calls s) (ls_used s)) st [].
Proof.
  intros He Hj. destruct HL as [HV HK].
  destruct (jview_step (li_jc c) (co_hash _ Hc) (co_cap _ Hc) _ _ _ _ _ HV He Hj) as (j & HV' & _ & Hn).
  exists (apply_writes A (concat (take j us))), (drop j us), objs, leak, st. split; [|split].
  - split; [exact HV'|]. cbn [mk ls_j ls_alloc ls_ov ls_calls ls_used]. rewrite flushed_step, Hn. apply core_flush, HK.
  - rewrite flushed_step. exact HS.
  - constructor.
Qed.

Lemma vsim_finish i b sig tks free s' obs : ls_calls s !! i = Some (LWait b sig tks free) ->
  do_finish s i sig tks free = Some (s', obs) -> vsim s' st obs.
Proof.
  intros Hi E. destruct HL as [HV HK]. unfold do_finish in E.
  destruct (insert_perm _ _ _ Hi) as (rest & Hp & Hins).
  pose proof (core_perm c _ _ _ _ _ _ _ _ _ _ Hp HK) as HK1.
  assert (Hs : forall n, sig = Some n -> bool_decide (n ∈ js_acked (ls_j s)) = true -> (n < length (js_acked (ls_j s)))%nat).
  { intros n _ Hb. apply bool_decide_eq_true in Hb. eapply acked_lt; [exact HV|exact Hb]. }
  destruct (match sig with Some n => bool_decide (n ∈ js_acked (ls_j s)) | None => true end) eqn:Eb; [|discriminate].
  eapply core_finish in HK1 as (a' & Ea & HK1).
  - rewrite Ea in E. injection E as <- <-. exists A, us, objs, leak, st. split; [|split; [exact HS|constructor]].
    split; [exact HV|]. cbn [mk ls_j ls_alloc ls_ov ls_calls ls_used]. eapply core_perm; [symmetry; apply Hins|exact HK1].
  - intros n ->. apply Hs; [reflexivity|exact Eb].
Qed.

Lemma vsim_create key size assoc id ms s' obs : event_ok c (LCreate key size assoc id ms) ->
  do_create c s key size assoc id ms = Some (s', obs) -> vsim s' st obs.
Proof.
  intros (Hk & Has & Hsz & Hid & Hms) E. destruct HL as [HV HK]. unfold do_create in E.
  destruct (bool_decide_reflect (id ∈ ls_used s)) as [|Hfresh]; [discriminate|].
  assert (Hlim : size / 2 ^ lpage < 2 ^ 64) by exact (layout_lim spage lpage (co_pages _ Hc) (co_lpage _ Hc) (co_ratio _ Hc) _ Hsz).
  destruct (calc_layout_spec spage lpage (2 ^ 64) size (co_pages _ Hc) (co_lpage _ Hc) (co_ratio _ Hc) Hlim)
    as (t & tails & Ec & Hrep & Hlay).
  cbv zeta in E. rewrite Ec in E.
  pose proof (create_record_nil spage lpage (co_pages _ Hc) (co_lpage _ Hc) (co_ratio _ Hc) key size assoc id ms _ t Hk Has Ec) as Hnil. cbv zeta in Hnil. unfold mkreq in Hnil.
  destruct Hnil as [[Hbig E0]|(Hsmall & raw0 & p0 & E0 & Hl0)].
  { rewrite E0 in E. injection E as <- <-. apply vsim_stay. constructor. revert Hbig. unfold off_total. offs. pose proof (tps_rep_len _ _ Hrep) as Htl.
    assert (Ht24 : (length tails <= 24)%nat) by apply Hlay. intros Hbig. clear -Hbig Htl Ht24. generalize dependent (2 ^ lpage). intros. lia. }
  rewrite E0 in E. rewrite (tps_rep_collect _ _ Hrep) in E.
  destruct (k_alloc _ _ _ _ _ _ _ _ _ _ HK) as [f HI].
  set (sizes := replicate (N.to_nat (size / 2 ^ lpage)) (N.shiftl 1 lpage) ++ map (fun '(_, sz) => N.shiftl 1 sz) (enumerate tails) ++ [N.of_nat (length raw0)]) in *.
  destruct (alloc_list (ls_alloc s) sizes) as [a [offs|]] eqn:Ea.
  - pose proof (lite_create_layout spage lpage (co_pages _ Hc) (co_lpage _ Hc) (co_ratio _ Hc) (li_base c) (li_heap c)
      key size assoc id ms _ t (enumerate tails) _ _ _ _ _ _ Hk Has Hsz Hid Hms (co_end _ Hc) HI Ec (tps_rep_collect _ _ Hrep) Ea) as HC.
    cbv zeta in HC. unfold mkreq in HC.
    set (r := {| cr_key := key; cr_size := size; cr_assoc := assoc; cr_id := id; cr_created_ms := ms;
      cr_lpages := take (N.to_nat (size / 2 ^ lpage)) offs; cr_tails := take (length (enumerate tails)) (drop (N.to_nat (size / 2 ^ lpage)) offs) |}) in *.
    destruct HC as (Hv & Hn1 & Hn2 & off & f' & Ed & HI').
    rewrite Ed in E.
    assert (Hrb : record_bytes r = N.of_nat (length raw0)).
    { rewrite Hl0. unfold record_bytes. rewrite Hn1, Hn2, (enumerate_length spage lpage (co_pages _ Hc) (co_lpage _ Hc) (co_ratio _ Hc)). pose proof (tps_rep_len _ _ Hrep) as Htl. cbn [r cr_key cr_assoc].
      unfold off_total. offs. lia. }
    assert (Hro : req_ok spage lpage r) by (split; [exact Hv|]; rewrite Hrb, Hl0; exact Hsmall).
    destruct (C07_created_record_decodes spage lpage r (co_pages _ Hc) Hv (proj2 Hro)) as (raw & p & Ecr & Hlr & Hp & Hlp & Hlow & _).
    rewrite Ecr in E. injection E as <- <-.
    assert (p = alloc_pow2 spage (N.of_nat (length raw0))) as Hpe.
    { eapply (fits_unique spage). rewrite <- Hrb, <- Hlr. unfold fits_exactly. split; [lia|]. split; [exact Hlp|].
      intros q Hq Hs. destruct Hlow as [->|Hlow]; [exact Hq|]. destruct (N.le_gt_cases p q) as [|Hqp]; [assumption|]. exfalso.
      assert (2 ^ q <= 2 ^ (p - 1)) by (apply N.pow_le_mono_r; lia). clear -H Hs Hlow. lia. }
    rewrite <- Hpe in HI'.
    exists A, us, objs, leak, st. split; [|split; [exact HS|constructor]]. split; [exact HV|].
    cbn [mk ls_j ls_alloc ls_ov ls_calls ls_used]. change id with (cr_id r).
    eapply core_perm with (calls := LNew r raw p off :: ls_calls s); [apply Permutation_cons_append|].
    eapply core_new; eauto.
  - injection E as <- <-. destruct (alloc_list_inv _ _ _ _ _ _ HI Ea) as (f' & got & HI' & _).
    exists A, us, objs, (got ++ leak), st. split; [|split; [exact HS|apply vsteps_one; constructor]].
    split; [exact HV|]. cbn [mk ls_j ls_alloc ls_ov ls_calls ls_used]. eapply core_leak; [exact HK|exact HI'].
Qed.

Lemma vsim_cwrite i r raw p off : ls_calls s !! i = Some (LNew r raw p off) ->
  vsim (mk (set_dev (ls_j s) (dev_write (ls_dev s) off raw)) (ls_alloc s) (ls_ov s) (<[i := LRec r raw p off]> (ls_calls s)) (ls_used s)) st [].
Proof.
  intros Hi. pose proof HL as [HV HK]. destruct (insert_perm _ _ _ Hi) as (rest & Hp & Hins).
  pose proof (core_perm c _ _ _ _ _ _ _ _ _ _ Hp HK) as HK1.
  set (d' := dev_write (ls_dev s) off raw).
  assert (Hr : forall x, off <= x < off + N.of_nat (length raw) -> outside_journal (li_jc c) x /\ untouched us x).
  { intros x Hx. destruct (core_record c Hc _ _ (dev_write (flushed A us) off raw) _ _ _ _ _ _ _ _ _ _ _ HK1 (fun _ => eq_refl)) as [G _].
    destruct (G x Hx) as [G1 G2]. split; [apply (heap_outside c Hc), G2|exact G1]. }
  destruct (patch_write c s A us objs leak HL off raw Hr) as [Hd Hw]. destruct (patch_view c s A us objs leak HL d' Hd) as (HV' & P1 & _).
  exists (patch A (ls_dev s) d'), us, objs, leak, st. split; [|split; [|constructor]].
  - split; [exact HV'|]. cbn [mk ls_j ls_alloc ls_ov ls_calls ls_used set_dev js_acked].
    eapply core_perm; [symmetry; apply Hins|].
    eapply (core_record c Hc); [exact HK1|exact Hw].
  - eapply vrel_keep; [|exact HS]. intros o pg x Ho Hpg Hx. apply P1. unfold d'. apply dev_write_other. intros Ht. unfold touches in Ht. cbn [fst snd] in Ht.
    pose proof (k_calls _ _ _ _ _ _ _ _ _ _ HK1 _ (elem_of_list_here _ _)) as (Hreq & Hcr & _).
    pose proof (raw_len c Hc r raw p Hreq Hcr) as [Hl _].
    assert (Hcl : LNew r raw p off ∈ ls_calls s) by (eapply elem_of_list_lookup_2, Hi).
    eapply (data_call c HL o _ pg (off, p) x Ho Hcl Hpg); [|exact Hx|].
    + cbn [cpages]. apply elem_of_app. right. constructor.
    + unfold in_page. cbn [fst snd]. lia.
Qed.

Lemma vsim_link i r raw p off seen s' obs : ls_calls s !! i = Some (LRec r raw p off) ->
  do_link c s i r off seen = (s', obs) -> vsim s' st obs.
Proof.
  intros Hi E. pose proof HL as [HV HK]. destruct (insert_perm _ _ _ Hi) as (rest & Hp & Hins).
  pose proof (core_perm c _ _ _ _ _ _ _ _ _ _ Hp HK) as HK1.
  unfold do_link in E. rewrite (lin_head c Hc HL _ (bucket_lt c Hc (cr_key r))) in E.
  set (b := bucket_of c (cr_key r)) in *. set (cur := first_off (bchain objs b)) in *.
  destruct (update_head (ls_ov s) [] b off) as [[ov1 t1] tk1] eqn:E1.
  destruct (ov_set_next ov1 (cr_id r) cur) as [ov2 tk2] eqn:E2.
  set (t := txn_write t1 (off + off_next) (be_bytes 6 cur)) in *.
  assert (Et : t = [(bucket_off b, be_bytes 5 (N.shiftr off 8)); (off + off_next, be_bytes 6 cur)]).
  { unfold update_head, ov_set_head in E1. injection E1 as _ <- _. reflexivity. }
  assert (Hne : t <> []) by (rewrite Et; discriminate).
  rewrite (do_txn_eq c _ _ _ Hne) in E. injection E as <- <-.
  pose proof (core_link c Hc _ _ _ _ _ _ _ _ _ _ _ _ _ _ _ _ _ _ _ _ t HK1 eq_refl eq_refl E1 E2 eq_refl) as HK2.
  assert (Hfit : fits (li_jc c) t).
  { apply (co_fits _ Hc); rewrite Et; [cbn; lia|]. intros w Hw. rewrite !elem_of_cons in Hw.
    destruct Hw as [->|[->|Hw]]; [| |inversion Hw]; cbn [snd]; rewrite be_bytes_length; lia. }
  pose proof (jview_commit (li_jc c) (co_hash _ Hc) (co_cap _ Hc) (ls_j s) A us t seen HV Hne Hfit) as HV'.
  rewrite <- flushed_snoc in HK2.
  pose proof (core_call_page c HK1 r raw p off (or_intror (elem_of_list_here _ _))) as (_ & Hidc & _).
  pose proof (fresh_id c HK1) as Hfi.
  exists A, (us ++ [t]), (new_obj r off p :: objs), leak,
    ({| v_key := cr_key r; v_obj := {| so_id := cr_id r; so_size := cr_size r; so_bytes := fun _ => None |}; v_com := false |} :: st).
  split; [|split].
  - split; [exact HV'|]. cbn [mk ls_j ls_alloc ls_ov ls_calls ls_used]. rewrite commit_acked. rewrite (jview_next _ _ _ _ HV).
    eapply core_perm; [symmetry; apply Hins|]. exact HK2.
  - constructor.
    + split; [reflexivity|]. split; [reflexivity|]. cbn [new_obj lo_req v_obj]. split; [reflexivity|]. split; [reflexivity|]. intros i' v' Hb. discriminate Hb.
    + eapply vrel_keep; [|exact HS]. intros o pg x Ho Hpg Hx. rewrite (data_base c Hc HK2 o pg x) by (try assumption; now constructor).
      symmetry. eapply (data_base c Hc HK); eassumption.
  - apply vsteps_one. constructor. intros v Hv. destruct (vrel_elem _ _ _ _ HS Hv) as (o & Ho & (_ & _ & (Ei & _))).
    intros Ex. assert (Hx : cr_id (lo_req o) = cr_id r) by (rewrite <- Ei; exact Ex). revert Hx. apply Hfi; assumption.
Qed.

Lemma vsim_delete key oid fuel seen s' obs : (removes_inner c s (LDelete key oid fuel seen) -> bucket_quiet c s key) ->
  do_delete c s key oid fuel seen = Some (s', obs) -> vsim s' st obs.
Proof.
  intros Hq E. pose proof HL as [HV HK]. unfold do_delete in E. pose proof (lin_find c Hc HL key fuel st_committed oid) as Hf.
  destruct (find_object c (now s) key fuel st_committed oid) as [| |[f|]] eqn:Ef; [discriminate|contradiction| |].
  2: { injection E as <- <-. apply vsim_stay. constructor. apply (find_none key true oid Hf). }
  destruct Hf as (l1 & o & l2 & Eb & Hfirst & Hm & Ho & Hfa). set (b := bucket_of c key) in *.
  destruct (find_some key true oid l1 o l2 Eb Hfirst Hm) as (x & y & vx & v & vy & Eo & Ev & R1 & R2 & R3 & Hso).
  assert (Hss : vsteps lpage st [ODelete key oid true] (vx ++ vy)).
  { apply vsteps_one. rewrite <- (remove_split _ _ _ _ _ _ Eo Ev R2). apply VDelete, Hso. }
  assert (HSr : vrel (flushed A us) (x ++ y) (vx ++ vy)) by (apply Forall2_app; assumption).
  assert (Hsub : forall o', o' ∈ x ++ y -> o' ∈ objs) by (intros o'; rewrite Eo, !elem_of_app, elem_of_cons; tauto).
  destruct l1 as [|q l0 _] using rev_ind.
  - destruct (update_head (ls_ov s) [] b (first_off l2)) as [[ov' t] tk] eqn:Eu.
    rewrite (unlink_head_eq c Hc s A us objs leak HL b o l2 f ov' t tk Ho Hfa Eu) in E.
    assert (Et : t = [(bucket_off b, be_bytes 5 (N.shiftr (first_off l2) 8))]).
    { unfold update_head, ov_set_head in Eu. injection Eu as _ <- _. reflexivity. }
    assert (Hne : t <> []) by (rewrite Et; discriminate).
    rewrite (do_txn_eq c _ _ _ Hne) in E. injection E as <- <-.
    pose proof (core_unlink_head c Hc _ _ _ _ _ _ _ _ _ x o y b l2 _ _ _ _ HK Eo Eb (bucket_lt c Hc key) eq_refl Eu) as HK2.
    rewrite <- flushed_snoc in HK2.
    assert (Hfit : fits (li_jc c) t).
    { apply (fits_small c Hc); rewrite Et; [cbn; lia|]. intros w Hw. apply elem_of_list_singleton in Hw as ->. cbn [snd]. rewrite be_bytes_length. lia. }
    assert (HVs : jview (li_jc c) (set_dev (ls_j s) (ls_dev s)) A us) by (rewrite set_dev_same; exact HV).
    pose proof (jview_commit (li_jc c) (co_hash _ Hc) (co_cap _ Hc) _ A us t seen HVs Hne Hfit) as HV'.
    exists A, (us ++ [t]), (x ++ y), leak, (vx ++ vy).
    split; [|split; [|exact Hss]].
    + split; [exact HV'|]. cbn [mk ls_j ls_alloc ls_ov ls_calls ls_used]. rewrite commit_acked, set_dev_same. rewrite (jview_next _ _ _ _ HV).
      eapply core_perm; [apply Permutation_cons_append|]. exact HK2.
    + eapply vrel_keep; [|exact HSr]. intros o' pg z Ho' Hpg Hz. rewrite (data_base c Hc HK2 o' pg z Ho' Hpg Hz).
      symmetry. eapply (data_base c Hc HK); [apply Hsub, Ho'|exact Hpg|exact Hz].
  - assert (Hqt : bucket_quiet c s key).
    { apply Hq. exists f. split; [exact Ef|]. destruct Hfa as [Hfr _]. rewrite (fr_prev _ _ _ Hfr), last_off_snoc. discriminate. }
    destruct (ov_set_next (ls_ov s) (lo_id o) (first_off l2)) as [ov' tk] eqn:Eu.
    rewrite (unlink_inner_eq c Hc s A us objs leak HL b l0 q o l2 f ov' tk Eb Ho Hfa Eu) in E.
    cbn [do_txn commit_transaction] in E. unfold do_txn, commit_transaction in E. injection E as <- <-.
    assert (Hqo : q ∈ objs). { apply (bchain_elem c objs b). rewrite Eb, !elem_of_app. left. right. constructor. }
    destruct (core_unlink_inner c Hc _ _ (dev_write (flushed A us) (lo_off q + off_next) (be_bytes 6 (first_off l2))) _ _ _ _ _ _ _ x o y b l0 q l2 _ _ _ HK Eo Eb
      (quiet_calls c s key Hqt) eq_refl Eu (fun _ => eq_refl)) as [Hunt _].
    destruct (inner_view c Hc s A us objs leak HL q (first_off l2) Hunt Hqo) as (HV' & HF & HA).
    destruct (core_unlink_inner c Hc _ _ (flushed (patch A (ls_dev s) (dev_write (ls_dev s) (lo_off q + off_next) (be_bytes 6 (first_off l2)))) us) _ _ _ _ _ _ _ x o y b l0 q l2 _ _ _ HK Eo Eb
      (quiet_calls c s key Hqt) eq_refl Eu HF) as [_ HK2].
    eexists _, us, (x ++ y), leak, (vx ++ vy).
    split; [|split; [|exact Hss]].
    + split; [exact HV'|]. cbn [mk ls_j ls_alloc ls_ov ls_calls ls_used set_dev js_acked].
      eapply core_perm; [apply Permutation_cons_append|]. exact HK2.
    + eapply vrel_keep; [|exact HSr]. intros o' pg z Ho' Hpg Hz. rewrite (data_base c Hc HK2 o' pg z Ho' Hpg Hz).
      rewrite (data_base c Hc HK o' pg z (Hsub _ Ho') Hpg Hz). eapply HA; [apply Hsub, Ho'|exact Hpg|exact Hz].
Qed.

Lemma vsim_commit key id fuel seen s' obs : li_versioning c = true ->
  do_commit c s key id fuel seen = Some (s', obs) -> vsim s' st obs.
Proof.
  intros Hver E. pose proof HL as [HV HK]. unfold do_commit in E. pose proof (lin_find_commit c Hc HL key fuel id) as Hf.
  destruct (find_for_commit c (now s) key fuel id) as [| |[fi fe]] eqn:Ef; [discriminate|contradiction|].
  destruct Hf as [[[-> Hn]|(l1 & o & l2 & f & Eb & Hm & Ho & -> & Hfa)] _].
  { injection E as <- <-. apply vsim_stay. constructor. apply (find_none key false (Some id) Hn). }
  rewrite Hver in E.
  assert (E' : (let '(o, tk) := ov_set_state (ls_ov s) id st_committed in
      let '(j, sig) := do_txn c (set_dev (ls_j s) (ls_dev s)) (txn_write [] (f_off f + off_state) [st_committed]) seen in
      Some (mk j (ls_alloc s) o (ls_calls s ++ [LWait (bucket_of c key) sig [tk] []]) (ls_used s), [OCommit key id true])) = Some (s', obs))
    by (destruct fe; exact E). clear E. rename E' into E.
  destruct (find_id key false id o Ho Hm) as (x & y & vx & v & vy & Eo & Ev & R1 & R2 & R3 & Hso).
  assert (Hfo : f_off f = lo_off o) by (destruct Hfa as [Hfr _]; exact (fr_off _ _ _ Hfr)).
  destruct (ov_set_state (ls_ov s) id st_committed) as [ov' tk] eqn:Eu. rewrite Hfo in E.
  set (t := txn_write [] (lo_off o + off_state) [st_committed]) in *.
  assert (Et : t = [(lo_off o + off_state, [st_committed])]) by reflexivity. clearbody t.
  assert (Hne : t <> []) by (rewrite Et; discriminate).
  rewrite (do_txn_eq c _ _ _ Hne) in E. injection E as <- <-. rewrite set_dev_same.
  destruct Hm as (Mk & Ms & Mi). cbn [id_ok] in Mi. apply N.eqb_eq in Mi. subst id.
  assert (Hb : bkt c o = bucket_of c key) by (rewrite <- Mk; reflexivity).
  assert (HK1 : core (ls_alloc s) (apply_writes (flushed A us) []) (us ++ [[]]) (length (js_acked (ls_j s))) (ls_ov s)
    (LWait (bucket_of c key) (Some (length (js_acked (ls_j s)) + length us)%nat) [] [] :: ls_calls s) (ls_used s) (x ++ o :: y) leak).
  { cbn [apply_writes]. rewrite <- Eo. apply core_open, HK. }
  pose proof (core_set_state c Hc _ _ _ _ _ _ _ _ _ _ _ _ _ _ _ _ _ _ HK1 Hb (or_intror eq_refl) Eu) as HK2.
  set (w := (lo_off o + off_state, [st_committed])) in *.
  assert (EF : dev_write (apply_writes (flushed A us) []) (lo_off o + off_state) [st_committed] = flushed A (us ++ [[] ++ [w]])).
  { rewrite flushed_snoc. rewrite apply_writes_app. reflexivity. }
  rewrite EF in HK2. clear EF. cbn [app] in HK2. rewrite <- Et in HK2.
  assert (Hfit : fits (li_jc c) t).
  { rewrite Et. apply (fits_small c Hc); [cbn; lia|]. intros w' Hw'. apply elem_of_list_singleton in Hw' as ->. cbn. lia. }
  pose proof (jview_commit (li_jc c) (co_hash _ Hc) (co_cap _ Hc) _ A us t seen HV Hne Hfit) as HV2.
  exists A, (us ++ [t]), (x ++ set_st o st_committed :: y), leak, (vx ++ v_mark v :: vy).
  split; [|split].
  - split; [exact HV2|]. cbn [mk ls_j ls_alloc ls_ov ls_calls ls_used]. rewrite commit_acked, (jview_next _ _ _ _ HV).
    eapply core_perm; [apply Permutation_cons_append|]. exact HK2.
  - assert (HR : vrel (flushed A us) (x ++ set_st o st_committed :: y) (vx ++ v_mark v :: vy)).
    { apply Forall2_app; [exact R1|]. constructor; [|exact R3]. destruct R2 as (Q1 & Q2 & Q3). split; [exact Q1|]. split; [reflexivity|]. exact Q3. }
    eapply vrel_keep; [|exact HR]. intros o' pg z Ho' Hpg Hz. etransitivity; [exact (data_base c Hc HK2 o' pg z Ho' Hpg Hz)|].
    apply elem_of_app in Ho' as [Ho'|Ho'].
    + symmetry. eapply (data_base c Hc HK); [rewrite Eo, elem_of_app; left; exact Ho'|exact Hpg|exact Hz].
    + apply elem_of_cons in Ho' as [->|Ho']; symmetry.
      * eapply (data_base c Hc HK); [exact Ho|exact Hpg|exact Hz].
      * eapply (data_base c Hc HK); [rewrite Eo, elem_of_app, elem_of_cons; right; right; exact Ho'|exact Hpg|exact Hz].
  - apply vsteps_one. rewrite <- (update_split _ _ _ _ _ _ v_mark Eo Ev R2). eapply VCommit, Hso.
Qed.

Lemma vsim_inspect key oid fuel s' obs : do_inspect c s key oid fuel = Some (s', obs) -> vsim s' st obs.
Proof.
  intros E. unfold do_inspect in E. pose proof (lin_find c Hc HL key fuel st_committed oid) as Hf.
  destruct (find_object c (now s) key fuel st_committed oid) as [| |[f|]]; [discriminate|contradiction| |].
  - destruct Hf as (l1 & o & l2 & Eb & Hfirst & Hm & Ho & [[_ _ F3 F4 _] _]). rewrite F3, F4 in E. injection E as <- <-.
    destruct (find_some key true oid l1 o l2 Eb Hfirst Hm) as (x & y & vx & v & vy & _ & _ & _ & (_ & _ & (R1 & R2 & _)) & _ & Hso).
    apply vsim_stay. pose proof (VInspect lpage st key oid) as H. unfold v_find in H. rewrite Hso in H. cbn in H. unfold v_id in H. rewrite R1, R2 in H. exact H.
  - injection E as <- <-. apply vsim_stay. pose proof (VInspect lpage st key oid) as H. unfold v_find in H.
    rewrite (find_none key true oid Hf) in H. exact H.
Qed.

Lemma vsim_read key oid start fin fuel steps s' obs : do_read c s key oid start fin fuel steps = Some (s', obs) -> vsim s' st obs.
Proof.
  intros E. unfold do_read in E. pose proof (lin_find c Hc HL key fuel st_committed oid) as Hf.
  destruct (find_object c (now s) key fuel st_committed oid) as [| |[f|]]; [discriminate|contradiction| |].
  2: { injection E as <- <-. apply (vsim_stay). constructor. exact (find_none key true oid Hf). }
  destruct Hf as (l1 & o & l2 & Eb & Hfirst & Hm & Ho & [[F1 _ _ _ F5] _]). rewrite F5 in E. cbn [mbind option_bind] in E.
  rewrite F1 in E. destruct (lin_decodes c Hc HL o Ho) as [_ Hdec]. rewrite Hdec in E. clear Hdec.
  destruct (find_some key true oid l1 o l2 Eb Hfirst Hm) as (x0 & y0 & vx & v0 & vy & _ & _ & _ & (_ & _ & (R1 & R2 & R3)) & _ & Hso). set (so := v_obj v0) in *.
  pose proof (C08_lite_read_returns_range spage lpage _ _ (ls_dev s) start fin (obj_op c Hc s A us objs leak HL o Ho)) as HR.
  change (o_size (obj_of_req (lo_req o))) with (cr_size (lo_req o)) in HR. rewrite <- R2 in HR.
  destruct ((start <? default (so_size so) fin) && (default (so_size so) fin <=? so_size so)) eqn:Er.
  - destruct HR as (fuel' & outs & Hd & Hlen & Hat & _).
    destruct (drain (lite_read_step lpage (ls_dev s)) steps (read_start Lite spage lpage (obj_of_req (lo_req o)) start fin)) as [r|] eqn:Ed; [|discriminate].
    pose proof (drain_unique _ _ _ _ _ _ Hd Ed) as <-. injection E as <- <-.
    apply (vsim_stay). apply (VRead _ _ _ _ _ _ v0 _ Hso); fold so; [lia|lia|].
    intros i v Hi Hv. destruct (Hat i Hi) as (x & Hx & ->). destruct (R3 i v Hv) as (x' & Hx' & <-). rewrite Hx in Hx'. injection Hx' as <-.
    destruct (locate_in c _ _ _ Hx) as (pg & Hp & Hin). f_equal. apply (data_dev c Hc s A us objs leak HL o pg x Ho Hp Hin).
  - rewrite HR in E. destruct steps as [|n]; cbn [drain] in E.
    all: injection E as <- <-; apply (vsim_stay); apply (VReadRange _ _ _ _ _ _ v0 Hso); fold so; lia.
Qed.

Lemma vsim_write key id offset len stream fuel steps s' obs : offset + 2 ^ lpage < 2 ^ 64 ->
  do_write c s key id offset len stream fuel steps = Some (s', obs) -> vsim s' st obs.
Proof.
  intros Hw E. unfold do_write in E. pose proof (lin_find c Hc HL key fuel st_incomplete (Some id)) as Hf.
  destruct (find_object c (now s) key fuel st_incomplete (Some id)) as [| |[f|]]; [discriminate|contradiction| |].
  2: { injection E as <- <-. apply (vsim_stay). constructor. exact (find_none key false (Some id) Hf). }
  destruct Hf as (l1 & o & l2 & _ & _ & Hm & Ho & [[F1 _ _ _ F5] _]). rewrite F5 in E. cbn [mbind option_bind] in E.
  rewrite F1 in E. destruct (lin_decodes c Hc HL o Ho) as [_ Hdec]. rewrite Hdec in E. clear Hdec.
  destruct (find_id key false id o Ho Hm) as (x0 & y0 & vx & v0 & vy & Eo & Ev & Q1 & Q2 & Q3 & Hsi). pose proof Q2 as (_ & _ & (R1 & R2 & R3)). set (so := v_obj v0) in *.
  assert (Hoid : lo_id o = id) by (destruct Hm as (_ & _ & Hi); cbn [id_ok] in Hi; apply N.eqb_eq in Hi; auto).
  pose proof (obj_op c Hc s A us objs leak HL o Ho) as Hop. set (ob := obj_of_req (lo_req o)) in *. set (ps := dpg (lo_req o)) in *.
  set (vjs := replicate steps (true, fun _ : N => 0)) in *.
  destruct (call_run Lite spage (ls_dev s, write_start Lite spage lpage ob offset len stream) vjs) as [d' [w|r]] eqn:Ec; [discriminate|].
  injection E as <- <-.
  assert (Hin : forall x, d' x <> ls_dev s x -> exists i, in_part lpage (cr_size (lo_req o)) offset i /\ locate ps i = Some x).
  { pose proof (C09_writes_touch_only_their_pages Lite spage lpage ob ps (ls_dev s) [(offset, len, stream)]
      ((fun vj => {| e_call := 0; e_valid := fst vj; e_junk := snd vj |}) <$> vjs) Hop) as HT.
    cbv zeta in HT. cbn [fmap list_fmap] in HT. rewrite call_sys, Ec in HT. cbn [fst] in HT.
    assert (HFw : Forall (fun q : N * N * list item => fst (fst q) + 2 ^ lpage < 2 ^ 64) [(offset, len, stream)]) by (constructor; [exact Hw|constructor]).
    intros x Hx. destruct (HT HFw x Hx) as (of & ln & sm & Hel & H).
    apply elem_of_list_singleton in Hel. injection Hel as -> -> ->. exact H. }
  assert (Hd : forall x, d' x <> ls_dev s x -> outside_journal (li_jc c) x /\ untouched us x).
  { intros x Hx. destruct (Hin x Hx) as (i & _ & Hl). destruct (locate_in c _ _ _ Hl) as (pg & Hp & Hix).
    destruct (data_dev c Hc s A us objs leak HL o pg x Ho Hp Hix) as (H1 & H2 & _). auto. }
  destruct (patch_view c s A us objs leak HL d' Hd) as (HV' & P1 & P2). set (A' := patch A (ls_dev s) d') in *.
  assert (Hsame : forall x, (forall pg, pg ∈ ps -> ~ in_page pg x) -> flushed A' us x = flushed A us x).
  { intros x Hx. apply P1. destruct (decide (d' x = ls_dev s x)) as [|Hne]; [assumption|]. exfalso. destruct (Hin x Hne) as (i & _ & Hl).
    destruct (locate_in c _ _ _ Hl) as (pg & Hp & Hix). exact (Hx pg Hp Hix). }
  assert (Hout : forall i x, locate ps i = Some x -> ~ in_part lpage (cr_size (lo_req o)) offset i -> flushed A' us x = flushed A us x).
  { intros i x Hl Hni. apply P1. destruct (decide (d' x = ls_dev s x)) as [|Hne]; [assumption|]. exfalso. destruct (Hin x Hne) as (j & Hj & Hlj).
    rewrite (locate_inj _ _ _ _ (op_disjoint _ _ _ _ _ Hop) Hl Hlj) in Hni. exact (Hni Hj). }
  assert (Hav : Forall (fun vj : bool * (N -> N) => fst vj = true) vjs) by (unfold vjs; apply Forall_replicate; reflexivity).
  destruct (C10_rejections_have_a_reason Lite spage lpage ob ps offset len stream (ls_dev s) vjs d' r Hop Hw Hav Ec) as [(e & -> & Hpe & ->)|[Hvp Hr]].
  { rewrite set_dev_same. assert (Emk : mk (ls_j s) (ls_alloc s) (ls_ov s) (ls_calls s) (ls_used s) = s) by (destruct s; reflexivity). rewrite Emk.
    apply (vsim_stay). apply (VWriteBad _ _ _ _ _ _ _ _ v0 Hsi). fold so. rewrite R2. exact Hpe. }
  set (so' := match r with WOk => put so offset (stream_bytes stream) | _ => spoil lpage so offset end).
  assert (Hok : r = WOk -> no_fail stream /\ N.of_nat (length (stream_bytes stream)) = len /\ offset mod 2 ^ lpage = 0 /\
      offset + len = N.min (offset + 2 ^ lpage) (so_size so) /\
      forall i, in_part lpage (cr_size (lo_req o)) offset i -> exists x b, locate ps i = Some x /\ stream_bytes stream !! N.to_nat (i - offset) = Some b /\ d' x = b).
  { intros ->. destruct (C09_successful_write_is_in_place Lite spage lpage ob ps (ls_dev s) offset len stream vjs d' Hop Hw Ec) as (H1 & H2 & H3 & H4).
    split; [exact H1|]. split; [exact H2|]. split; [|split; [rewrite R2; exact H3|exact H4]].
    unfold write_start in Ec. destruct (write_check lpage (o_size ob) offset len) as [e|] eqn:Ew.
    - exfalso. revert Ec. clear. generalize (ls_dev s). induction vjs as [|[v j] l IH]; intros d0 Ec; [injection Ec as _ Ec; discriminate Ec|].
      rewrite run_cons in Ec. cbn [call_step] in Ec. exact (IH _ Ec).
    - apply (write_check_ok lpage (o_size ob) offset len Hw Ew). }
  assert (Hrel : orel (flushed A' us) (lo_req o) so').
  { unfold so'. split; [destruct r; exact R1|]. split; [destruct r; exact R2|].
    assert (Hspoil : forall i v, so_bytes (spoil lpage so offset) i = Some v -> exists x, locate ps i = Some x /\ flushed A' us x = v).
    { intros i v. cbn [spoil so_bytes]. destruct ((offset <=? i) && (i <? offset + 2 ^ lpage)) eqn:Eb; [discriminate|]. intros Hv.
      destruct (R3 i v Hv) as (x & Hx & Hxv). exists x. split; [exact Hx|]. rewrite <- Hxv. apply (Hout i x Hx). intros [H1 H2]. clear -Eb H1 H2. lia. }
    destruct r; [|exact Hspoil|exact Hspoil]. destruct (Hok eq_refl) as (_ & Hlen & _ & Hend & Hat).
    intros i v. cbn [put so_bytes]. destruct ((offset <=? i) && (i <? offset + N.of_nat (length (stream_bytes stream)))) eqn:Eb; intros Hv.
    - assert (Hip : in_part lpage (cr_size (lo_req o)) offset i).
      { unfold in_part. rewrite <- R2, <- Hend, <- Hlen. clear -Eb. lia. }
      destruct (Hat i Hip) as (x & b & Hx & Hb & Hdx). exists x. split; [exact Hx|]. rewrite Hb in Hv. injection Hv as <-. rewrite <- Hdx.
      destruct (locate_in c _ _ _ Hx) as (pg & Hp & Hix). destruct (data_dev c Hc s A us objs leak HL o pg x Ho Hp Hix) as (H1 & H2 & _). exact (P2 x H1 H2).
    - destruct (R3 i v Hv) as (x & Hx & Hxv). exists x. split; [exact Hx|]. rewrite <- Hxv. apply (Hout i x Hx). unfold in_part.
      rewrite <- R2, <- Hend, <- Hlen. intros H. clear -Eb H. lia. }
  exists A', us, objs, leak, (vx ++ v_with v0 so' :: vy).
  split; [|split].
  - split; [exact HV'|]. cbn [mk ls_j ls_alloc ls_ov ls_calls ls_used set_dev js_acked].
    eapply (core_frame c Hc); [| | |exact (lin_core c HL)].
    + intros x Hx. apply Hsame. intros pg Hp Hix. pose proof (data_low c Hc HL o pg x Ho Hp Hix) as H. clear -H Hx. lia.
    + intros q x Hq Hx. apply Hsame. intros pg Hp Hix. exact (meta_data c HL o q pg x Ho Hq Hp Hix Hx).
    + intros r0 raw p off x Hcl Hx. apply Hsame. intros pg Hp Hix.
      apply (data_call c HL o _ pg (off, p) x Ho Hcl Hp); [cbn [cpages]; apply elem_of_app; right; constructor|exact Hix|exact Hx].
  - assert (Hoth : forall q, q ∈ objs -> q <> o -> forall so0, orel (flushed A us) (lo_req q) so0 -> orel (flushed A' us) (lo_req q) so0).
    { intros q Hqo Hne so0. apply orel_keep. intros pg x Hp Hx. apply Hsame. intros pg' Hp' Hx'. apply Hne. symmetry.
      exact (data_data c HL o q pg' pg x Ho Hqo Hp' Hp Hx' Hx). }
    pose proof (objs_nodup c (lin_core c HL)) as Hnd. rewrite Eo in Hnd. apply NoDup_app in Hnd as (_ & Hnd1 & Hnd2). apply NoDup_cons in Hnd2 as [Hnd2 _].
    rewrite Eo. apply Forall2_app; [|constructor].
    + assert (HG : forall q, q ∈ x0 -> q ∈ objs /\ q <> o).
      { intros q Hqx. split; [rewrite Eo, elem_of_app; auto|]. intros ->. apply (Hnd1 o Hqx). constructor. }
      clear -Q1 HG Hoth. induction Q1 as [|q v l vl (H1 & H2 & H3) Q1 IH]; constructor.
      * split; [exact H1|]. split; [exact H2|]. destruct (HG q ltac:(constructor)). now apply Hoth.
      * apply IH. intros q' Hq'. apply HG. now constructor.
    + destruct Q2 as (H1 & H2 & _). split; [exact H1|]. split; [exact H2|]. exact Hrel.
    + assert (HG : forall q, q ∈ y0 -> q ∈ objs /\ q <> o).
      { intros q Hqx. split; [rewrite Eo, elem_of_app, elem_of_cons; auto|]. intros ->. exact (Hnd2 Hqx). }
      clear -Q3 HG Hoth. induction Q3 as [|q v l vl (H1 & H2 & H3) Q3 IH]; constructor.
      * split; [exact H1|]. split; [exact H2|]. destruct (HG q ltac:(constructor)). now apply Hoth.
      * apply IH. intros q' Hq'. apply HG. now constructor.
  - apply vsteps_one. change (o_size ob) with (cr_size (lo_req o)) in Hvp. rewrite <- R2 in Hvp.
    destruct Hr as [->|Hr].
    + destruct (Hok eq_refl) as (H1 & H2 & _).
      pose proof (update_split _ _ _ _ _ _ (fun v => v_with v (put (v_obj v) offset (stream_bytes stream))) Eo Ev Q2) as Eup. cbv beta in Eup.
      unfold so'. fold so in Eup. rewrite <- Eup, Hoid. eapply VWrite; eassumption.
    + assert (so' = spoil lpage so offset) as -> by (destruct Hr; reflexivity).
      pose proof (update_split _ _ _ _ _ _ (fun v => v_with v (spoil lpage (v_obj v) offset)) Eo Ev Q2) as Eup. cbv beta in Eup.
      fold so in Eup. rewrite <- Eup, Hoid. eapply VWriteStream; eassumption.
Qed.

(** ** One step *)
Lemma vsim_step e s' obs : li_versioning c = true -> event_ok c e -> (removes_inner c s e -> bucket_quiet c s (event_key e)) ->
  lstep c s e = Some (s', obs) -> vsim s' st obs.
Proof.
  intros Hver He Hq E. destruct e; cbn [lstep] in E.
  - eapply vsim_create; eassumption.
  - destruct (ls_calls s !! i) as [[r raw p off| | |]|] eqn:Ei; try discriminate. injection E as <- <-. now apply vsim_cwrite.
  - destruct (ls_calls s !! i) as [[|r raw p off| |]|] eqn:Ei; try discriminate.
    assert (E' : do_link c s i r off seen = (s', obs)) by congruence. eapply vsim_link; eassumption.
  - eapply vsim_commit; eassumption.
  - eapply vsim_delete; eassumption.
  - destruct (ls_calls s !! i) as [[| |b sig tks free|]|] eqn:Ei; try discriminate. eapply vsim_finish; eassumption.
  - eapply vsim_inspect; eassumption.
  - eapply vsim_write; eassumption.
  - eapply vsim_read; eassumption.
  - destruct (match e with JCommit _ _ => true | _ => false end) eqn:Ej; [destruct e; discriminate|].
    assert (E' : (j ← jstep (li_jc c) (ls_j s) e; Some (mk j (ls_alloc s) (ls_ov s) (ls_calls s) (ls_used s), [])) = Some (s', obs)) by (destruct e; try discriminate; exact E).
    destruct (jstep (li_jc c) (ls_j s) e) as [j|] eqn:Es; [|discriminate]. injection E' as <- <-.
    eapply vsim_journal; [|exact Es]. destruct e; try discriminate; reflexivity.
Qed.
End step.

Lemma vsteps_app vs l vs1 l' vs2 : vsteps lpage vs l vs1 -> vsteps lpage vs1 l' vs2 -> vsteps lpage vs (l ++ l') vs2.
Proof. induction 1; intros H'; [exact H'|]. econstructor; [eassumption|auto]. Qed.
Lemma vsim_run es : li_versioning c = true -> forall s A us objs leak vs s' obs, linv s A us objs leak -> vrel (flushed A us) objs vs ->
  Forall (event_ok c) es -> calm c s es -> lrun c s es = Some (s', obs) -> vsim s' vs obs.
Proof.
  intros Hver. induction es as [|e es IH]; intros s A us objs leak vs s' obs HL HS He Hcalm E.
  - injection E as <- <-. exists A, us, objs, leak, vs. split; [exact HL|]. split; [exact HS|constructor].
  - cbn [lrun] in E. apply Forall_cons in He as [He0 He]. destruct Hcalm as [Hq Hcalm].
    destruct (lstep c s e) as [[s1 o1]|] eqn:E1; [|discriminate]. cbn [mbind option_bind] in E.
    destruct (lrun c s1 es) as [[s2 o2]|] eqn:E2; [|discriminate]. injection E as <- <-.
    destruct (vsim_step s A us objs leak HL vs HS e s1 o1 Hver He0 Hq E1) as (A1 & us1 & objs1 & leak1 & vs1 & HL1 & HS1 & Hss1).
    destruct (IH s1 A1 us1 objs1 leak1 vs1 s2 o2 HL1 HS1 He Hcalm E2) as (A2 & us2 & objs2 & leak2 & vs2 & HL2 & HS2 & Hss2).
    exists A2, us2, objs2, leak2, vs2. split; [exact HL2|]. split; [exact HS2|]. eapply vsteps_app; eassumption.
Qed.
End sim.
