(** C53 (libblobd-lite): the space that is in use.  The specification of the
    objects that exist is LiteSpec.v; free pages and their bytes are in
    BuddySpec.v. *)
From Coq Require Import ZifyBool ZifyNat ZifyN.
From stdpp Require Import base numbers list_numbers option gmap sets list.
From Verif Require Import Util Bytes BuddyModel BuddySpec BuddyProofs BuddyInv LayoutModel LayoutProofs MetaModel MetaSpec PropertiesMeta PageIOModel PageIOSpec PageIOProofs DirectModel DirectBase.
From Verif Require Import JournalModel JournalSpec JournalProofs LiteModel LiteSpec LiteJournal LiteNode LiteRecord LiteInv LiteSteps LiteSteps2 LiteLin LiteSim LiteSim2 LiteSim3 PropertiesLite.
Open Scope N_scope.
Ltac Zify.zify_post_hook ::= idtac.

(** ** What the space should be *)
(** Key, id and size of the objects that exist, committed or not. *)
Definition objects (st : sstore) : list (list N * N * N) :=
  ((fun x => (fst (snd x), fst x, so_size (snd (snd x)))) <$> map_to_list (ss_inc st)) ++
  ((fun x => (fst x, so_id (snd x), so_size (snd x))) <$> map_to_list (ss_com st)).
(** The least multiple of [2^p] that is at least [n]. *)
Definition rounded (p n : N) : N := (n + (2 ^ p - 1)) / 2 ^ p * 2 ^ p.
(** An object's data rounded up to small pages, and the page of its record. *)
Definition need (spage : N) (x : create_req * N) : N := rounded spage (cr_size (fst x)) + 2 ^ snd x.
Fixpoint sum (l : list N) : N := match l with [] => 0 | x :: l => x + sum l end.

Lemma total_bytes_app l k : total_bytes (l ++ k) = total_bytes l + total_bytes k.
Proof. induction l as [|x l IH]; cbn [app total_bytes]; [|rewrite IH]; lia. Qed.

Section space.
Context (c : liconf) (Hc : conf_sizes c).
Notation spage := (li_spage c).
Notation lpage := (li_lpage c).

Lemma ceil_rounded n p : ceil_pow2 n p = rounded p n.
Proof.
  unfold rounded. rewrite ceil_pow2_spec. pose proof (pow2_pos p) as Hp. pose proof (pow2_nz p) as Hnz.
  set (P := 2 ^ p) in *. clearbody P. pose proof (N.div_mod n P Hnz) as E. pose proof (N.mod_lt n P Hnz) as Hlt.
  set (q := n / P) in *. set (r := n mod P) in *. clearbody q r.
  destruct (N.eqb_spec r 0) as [->|Hr].
  - rewrite (N.div_unique (n + (P - 1)) P q (P - 1)); [nia|nia|nia].
  - rewrite (N.div_unique (n + (P - 1)) P (q + 1) (r - 1)); [nia|nia|nia].
Qed.
Lemma data_bytes r : valid_req spage lpage r -> total_bytes (dpages spage lpage r) = rounded spage (cr_size r).
Proof.
  intros Hv. destruct (req_pages spage lpage (co_pages _ Hc) (co_lpage _ Hc) (co_ratio _ Hc) r Hv) as (t & tails & Ec & Hrep & Hlen & _ & _ & ->).
  destruct (calc_layout_spec spage lpage (2 ^ 64) (cr_size r) (co_pages _ Hc) (co_lpage _ Hc) (co_ratio _ Hc)
    (layout_lim spage lpage (co_pages _ Hc) (co_lpage _ Hc) (co_ratio _ Hc) _ (vr_size _ _ _ Hv))) as (t' & tails' & Ec' & Hrep' & _ & Hsum & _).
  rewrite Ec' in Ec. injection Ec as El <-.
  assert (tails' = tails) as ->.
  { apply list_eq. intros i. pose proof (tps_rep_get _ _ (N.of_nat i) Hrep) as H1. pose proof (tps_rep_get _ _ (N.of_nat i) Hrep') as H2.
    rewrite Nat2N.id in H1, H2. congruence. }
  rewrite total_bytes_app.
  assert (H1 : total_bytes ((fun a => (a, lpage)) <$> cr_lpages r) = N.of_nat (length (cr_lpages r)) * 2 ^ lpage).
  { clear. induction (cr_lpages r) as [|x l IH]; [reflexivity|]. rewrite fmap_cons. cbn [total_bytes snd length]. rewrite IH. lia. }
  assert (H2 : total_bytes (zip (cr_tails r) tails) = sum_pow2 tails).
  { clear -Hlen. revert tails Hlen. induction (cr_tails r) as [|x l IH]; intros [|y tails] H; try discriminate; [reflexivity|].
    cbn [zip_with total_bytes snd sum_pow2 foldr]. rewrite (IH tails); [reflexivity|]. now injection H. }
  rewrite H1, H2, <- El, Hsum, <- (ceil_rounded (cr_size r)), !ceil_pow2_spec. clear -Hc.
  pose proof (pow2_nz lpage) as Hnl. pose proof (pow2_nz spage) as Hns. pose proof (co_pages _ Hc) as Hp.
  assert (Hd : (2 ^ spage | 2 ^ lpage)). { exists (2 ^ (lpage - spage)). rewrite <- N.pow_add_r. f_equal. lia. }
  destruct Hd as [k Hk]. pose proof (N.div_mod (cr_size r) (2 ^ lpage) Hnl) as E. set (q := cr_size r / 2 ^ lpage) in *. set (m := cr_size r mod 2 ^ lpage) in *.
  clearbody q m. rewrite E, Hk. set (P := 2 ^ spage) in *. clearbody P.
  replace (k * P * q + m) with (m + (k * q) * P) by lia. rewrite N.mod_add, N.div_add by exact Hns. nia.
Qed.

(** The bytes of a list of objects. *)
Lemma objs_bytes objs : (forall o, o ∈ objs -> valid_req spage lpage (lo_req o)) ->
  total_bytes ((mpage <$> objs) ++ (objs ≫= fun o => dpages spage lpage (lo_req o))) = sum (need spage <$> zip (lo_req <$> objs) (lo_pow2 <$> objs)).
Proof.
  intros H. rewrite total_bytes_app. induction objs as [|o objs IH]; [reflexivity|].
  rewrite bind_cons, total_bytes_app, !fmap_cons. cbn [zip_with total_bytes]. rewrite fmap_cons. cbn [sum]. rewrite <- IH by (intros o' Ho'; apply H; now constructor).
  rewrite (data_bytes (lo_req o)) by (apply H; constructor). unfold need. cbn [fst snd mpage]. lia.
Qed.

Lemma record_fits r raw p : req_ok spage lpage r -> create_record spage lpage r = Some (CrRecord raw p) -> fits_exactly spage (record_bytes r) p.
Proof.
  intros [Hv Hb] E. destruct (C07_created_record_decodes spage lpage r (co_pages _ Hc) Hv Hb) as (raw' & p' & E' & H1 & H2 & H3 & H4 & _).
  rewrite E in E'. injection E' as <- <-. rewrite <- H1. unfold fits_exactly. split; [lia|]. split; [exact H3|].
  intros q Hq Hs. destruct H4 as [->|Hlow]; [exact Hq|]. destruct (N.le_gt_cases p q) as [|Hqp]; [assumption|]. exfalso.
  assert (2 ^ q <= 2 ^ (p - 1)) by (apply N.pow_le_mono_r; lia). clear -H Hs Hlow. lia.
Qed.

(** The objects of the specification are those of the store. *)
Lemma objects_perm s A us objs leak st : linv c s A us objs leak -> srel c (flushed A us) objs st ->
  (fun r => (cr_key r, cr_id r, cr_size r)) <$> (lo_req <$> objs) ≡ₚ objects st.
Proof.
  intros HL HS. pose proof (lin_core c HL) as HK. pose proof (ids_objs c HK) as Hids.
  assert (Hst : forall o, o ∈ objs -> lo_st o = st_incomplete \/ lo_st o = st_committed).
  { intros o Ho. assert (Hin : o ∈ bchain c objs (bkt c o)) by (apply elem_of_list_filter; auto).
    pose proof (k_chain _ _ _ _ _ _ _ _ _ _ HK (bkt c o)) as Hch. apply elem_of_list_split in Hin as (l1 & l2 & El). rewrite El in Hch.
    apply chain_app in Hch as [_ [Hn _]]. exact (nd_st _ _ _ _ _ _ _ _ Hn). }
  assert (Hcom : forall k so, ss_com st !! k = Some so -> exists o, o ∈ objs /\ lo_st o = st_committed /\ lo_key o = k /\ so_id so = lo_id o /\ so_size so = cr_size (lo_req o)).
  { intros k so Hk. destruct (sr_com2 _ _ _ _ HS _ _ Hk) as (o & Ho & Eo & Hs). destruct (sr_com _ _ _ _ HS o Ho Hs) as (so' & Es & R1 & R2 & _).
    rewrite Eo, Hk in Es. injection Es as <-. eauto 10. }
  assert (Hinc : forall i k so, ss_inc st !! i = Some (k, so) -> exists o, o ∈ objs /\ lo_st o = st_incomplete /\ lo_key o = k /\ lo_id o = i /\ so_size so = cr_size (lo_req o)).
  { intros i k so Hk. destruct (sr_inc2 _ _ _ _ HS _ _ _ Hk) as (o & Ho & Eo & Ek & Hs). destruct (sr_inc _ _ _ _ HS o Ho Hs) as (so' & Es & _ & R2 & _).
    rewrite Eo, Hk in Es. injection Es as _ <-. eauto 10. }
  rewrite <- list_fmap_compose. apply NoDup_Permutation.
  - apply (NoDup_fmap_1 (fun x => snd (fst x))). rewrite <- list_fmap_compose. exact Hids.
  - unfold objects. apply NoDup_app. split; [|split].
    + apply (NoDup_fmap_1 (fun x => snd (fst x))). rewrite <- list_fmap_compose. apply NoDup_fst_map_to_list.
    + intros [[k i] sz] H1 H2. apply elem_of_list_fmap in H1 as ([i1 [k1 so1]] & [= -> -> ->] & H1). apply elem_of_list_fmap in H2 as ([k2 so2] & [= -> Ei _] & H2).
      apply elem_of_map_to_list in H1, H2. destruct (Hinc _ _ _ H1) as (o1 & Ho1 & Hs1 & _ & Hi1 & _). destruct (Hcom _ _ H2) as (o2 & Ho2 & Hs2 & _ & Hi2 & _).
      assert (o1 = o2) as -> by (eapply (same_id c HK); [exact Ho1|exact Ho2|congruence]). rewrite Hs1 in Hs2. discriminate Hs2.
    + apply (NoDup_fmap_1 (fun x => fst (fst x))). rewrite <- list_fmap_compose. apply NoDup_fst_map_to_list.
  - intros [[k i] sz]. unfold objects. rewrite elem_of_app, !elem_of_list_fmap. split.
    + intros (o & [= -> -> ->] & Ho). destruct (Hst o Ho) as [Hs|Hs].
      * destruct (sr_inc _ _ _ _ HS o Ho Hs) as (so & Es & R1 & R2 & _). left. exists (lo_id o, (lo_key o, so)). cbn [fst snd compose]. split; [now rewrite R2|].
        now apply elem_of_map_to_list.
      * destruct (sr_com _ _ _ _ HS o Ho Hs) as (so & Es & R1 & R2 & _). right. exists (lo_key o, so). cbn [fst snd compose]. split; [now rewrite R1, R2|].
        now apply elem_of_map_to_list.
    + intros [([i1 [k1 so1]] & [= -> -> ->] & H1)|([k2 so2] & [= -> -> ->] & H2)].
      * apply elem_of_map_to_list in H1. destruct (Hinc _ _ _ H1) as (o & Ho & _ & <- & <- & ->). exists o. auto.
      * apply elem_of_map_to_list in H2. destruct (Hcom _ _ H2) as (o & Ho & _ & <- & -> & ->). exists o. auto.
Qed.
End space.

(** C53: whatever calls overlapped, once none is under way and none failed for
    lack of space, the heap is made of free pages and, for each object that
    exists, its data (rounded up to small pages) and the page of its record; when
    no object exists, the heap is that of a new store, page for page (only the
    counter of allocated bytes may differ).
    Missing for the full claim: histories in which a creation failed for lack of
    space, where it is false (below), and histories which are not calm. *)
Theorem C53_space_is_that_of_the_objects_partial :
  forall c d a es s obs,
    conf_ok c -> allocator_new (li_base c) (li_heap c) (li_spage c) (li_lpage c) (2 ^ 64) DirLeft = Ok a ->
    Forall (event_ok c) es -> calm c (li_init c d a) es ->
    lrun c (li_init c d a) es = Some (s, obs) -> idle s -> (forall key size, OFull key size ∉ obs) ->
    exists st rs ps, ssteps (li_lpage c) ss_empty obs st /\
      (fun r => (cr_key r, cr_id r, cr_size r)) <$> rs ≡ₚ objects st /\
      Forall (valid_req (li_spage c) (li_lpage c)) rs /\
      Forall2 (fun r p => fits_exactly (li_spage c) (record_bytes r) p) rs ps /\
      free_bytes (ls_alloc s) + sum (need (li_spage c) <$> zip rs ps) = li_heap c /\
      (rs = [] -> exists z, ls_alloc s = add_allocated a z).
Proof.
  intros c d a es s obs Hc Ha He Hq E Hi Hfull.
  destruct (simk_run c Hc es (co_versioning _ Hc) (li_init c d a) _ _ _ _ _ s obs (init_inv c d a Hc Ha) (init_rel c _) He Hq E)
    as (A & us & objs & leak & st & HL & HS & Hss & Hlk).
  assert (leak = []) as ->.
  { apply Hlk. apply not_true_is_false. intros H. apply existsb_exists in H as (o & Ho & Hf). destruct o; try discriminate Hf.
    apply elem_of_list_In in Ho. exact (Hfull _ _ Ho). }
  pose proof (lin_core c HL) as HK. destruct (k_alloc _ _ _ _ _ _ _ _ _ _ HK) as [f HI].
  assert (Hcalls : ls_calls s ≫= cpages c = []).
  { assert (H : forall cl, cl ∈ ls_calls s -> cl = LDone) by (intros cl Hcl; apply elem_of_list_lookup in Hcl as [i Hcl]; exact (Hi i cl Hcl)).
    clear -H. induction (ls_calls s) as [|cl l IH]; [reflexivity|]. rewrite bind_cons, (H cl) by constructor. cbn [cpages app]. apply IH. intros cl' Hcl. apply H. now constructor. }
  unfold live in HI. rewrite Hcalls, !app_nil_r in HI. cbn [app] in HI.
  assert (Hval : forall o, o ∈ objs -> valid_req (li_spage c) (li_lpage c) (lo_req o)).
  { intros o Ho. destruct (k_obj _ _ _ _ _ _ _ _ _ _ HK o Ho) as [[Hv _] _]. exact Hv. }
  exists st, (lo_req <$> objs), (lo_pow2 <$> objs). split; [exact Hss|]. split; [exact (objects_perm c s A us objs [] st HL HS)|].
  split; [|split; [|split]].
  - apply Forall_fmap, Forall_forall. exact Hval.
  - apply Forall2_fmap_2, Forall2_same_length_lookup_2; [reflexivity|]. intros i o o' H1 H2. rewrite H1 in H2. injection H2 as <-.
    destruct (k_obj _ _ _ _ _ _ _ _ _ _ HK o (elem_of_list_lookup_2 _ _ _ H1)) as [Hr (raw & Er & _)]. exact (record_fits c Hc _ _ _ Hr Er).
  - rewrite <- (objs_bytes c Hc objs Hval). exact (inv_bytes HI).
  - intros Hn. destruct objs as [|? ?]; [|discriminate Hn]. cbn [fmap list_fmap app] in HI. exists (Z.of_N f).
    pose proof (new_inv _ _ _ _ _ _ _ (co_pages _ Hc) Ha) as H0.
    refine (inv_eq _ _ _ _ _ _ _ _ _ _ [] HI _ (Permutation_refl _)).
    destruct H0. split; auto. cbn [add_allocated a_allocated_bytes]. rewrite inv_metric. cbn [total_bytes]. lia.
Qed.
Print Assumptions C53_space_is_that_of_the_objects_partial.

(** C53 is false, and so is C54, when a creation fails for lack of space: the pages
    it had taken before stay taken.  One creation of an object larger than the
    heap takes every large page; afterwards no object of any size can be created
    although none exists, while in a new store it can. *)
Definition es_full : list levent := [LCreate kA 40000 [] 1 7; LCreate kB 5 [] 2 7].
Definition obs_full : list lobs := [OFull kA 40000; OFull kB 5].
Lemma demo_full : demo c0 es_full = Some (obs_full, true, true).
Proof. vm_compute. reflexivity. Qed.
Definition es_small : list levent := create kB 5 2 0.
Definition obs_small : list lobs := [OCreate kB 5 2].
Lemma demo_small : demo c0 es_small = Some (obs_small, true, true).
Proof. vm_compute. reflexivity. Qed.
Definition free_after (c : liconf) (es : list levent) : option N :=
  match allocator_new (li_base c) (li_heap c) (li_spage c) (li_lpage c) (2 ^ 64) DirLeft with
  | Ok a => '(s, _) ← lrun c (li_init c d0 a) es; Some (free_bytes (ls_alloc s))
  | _ => None
  end.
Lemma free_full : free_after c0 es_full = Some 0.
Proof. vm_compute. reflexivity. Qed.
Lemma free_run c es n a s o : free_after c es = Some n -> allocator_new (li_base c) (li_heap c) (li_spage c) (li_lpage c) (2 ^ 64) DirLeft = Ok a ->
  lrun c (li_init c d0 a) es = Some (s, o) -> free_bytes (ls_alloc s) = n.
Proof. unfold free_after. intros H Ha Hr. rewrite Ha, Hr in H. now injection H. Qed.

Theorem C54_lite_failed_creation_keeps_space_refuted :
  conf_ok c0 /\ Forall (event_ok c0) es_full /\ Forall (event_ok c0) es_small /\
  exists a s s', allocator_new (li_base c0) (li_heap c0) (li_spage c0) (li_lpage c0) (2 ^ 64) DirLeft = Ok a /\
    lrun c0 (li_init c0 d0 a) es_full = Some (s, obs_full) /\ one_by_one c0 (li_init c0 d0 a) es_full /\ idle s /\
    (forall st, ssteps (li_lpage c0) ss_empty obs_full st -> st = ss_empty) /\
    free_bytes (ls_alloc s) = 0 /\
    lrun c0 (li_init c0 d0 a) es_small = Some (s', obs_small).
Proof.
  split; [exact c0_conf|]. split; [events_ok|]. split; [events_ok|].
  destruct (demo_run _ _ _ _ _ demo_full) as (a & s & Ha & Hr & Hi & Ho). destruct (demo_run _ _ _ _ _ demo_small) as (a' & s' & Ha' & Hr' & _).
  rewrite Ha in Ha'. injection Ha' as <-. exists a, s, s'. split; [exact Ha|]. split; [exact Hr|]. split; [auto|]. split; [auto|].
  split; [|split; [exact (free_run _ _ _ _ _ _ free_full Ha Hr)|exact Hr']].
  intros st Hss. unfold obs_full in Hss. inversion Hss as [|? ? ? ? ? H1 Hss1]; subst. inversion H1; subst.
  inversion Hss1 as [|? ? ? ? ? H2 Hss2]; subst. inversion H2; subst. now inversion Hss2.
Qed.

(** C54: a creation that is refused with an error (its record would not fit a large
    page) leaves everything as it was, whatever the state of the store. *)
Theorem C54_lite_refused_creation_changes_nothing_partial :
  forall c s key size assoc id ms s' obs,
    lstep c s (LCreate key size assoc id ms) = Some (s', obs) -> OTooLarge key size assoc ∈ obs -> s' = s.
Proof.
  intros c s key size assoc id ms s' obs. cbn [lstep]. unfold do_create. destruct (bool_decide _); [discriminate|].
  assert (Hx : forall o, stay s o = Some (s', obs) -> s' = s) by (intros o [= <- _]; reflexivity).
  intros E Hin.
  destruct (calc_object_layout _ _ _ _) as [[lc t]|], (create_record (li_spage c) (li_lpage c) _) as [[|raw0 p0]|]; eauto.
  destruct (tps_collect t) as [l|]; [|eauto]. destruct (alloc_list _ _) as [a [offs|]].
  - destruct (drop _ offs) as [|off [|? ?]]; [eauto| |eauto]. destruct (create_record (li_spage c) (li_lpage c) _) as [[|raw p]|]; eauto.
    injection E as <- <-. inversion Hin.
  - injection E as <- <-. apply elem_of_list_singleton in Hin. discriminate Hin.
Qed.

(** Non-vacuity: a history with three objects in the end, after a replacement and
    a deletion (the history of C13's example); and one with none. *)
Definition es_none : list levent := create kA 20 1 0 ++ commit kA 1 1 1 ++ [LDelete kA None 10 0] ++ flush 1 ++ [LFinish 2].
Definition obs_none : list lobs := [OCreate kA 20 1; OCommit kA 1 true; ODelete kA None true].
Lemma demo_none : demo c0 es_none = Some (obs_none, true, true).
Proof. vm_compute. reflexivity. Qed.
Lemma free_ok : free_after c0 es_ok = Some 31744.
Proof. vm_compute. reflexivity. Qed.
Theorem C53_example :
  exists a s s', allocator_new (li_base c0) (li_heap c0) (li_spage c0) (li_lpage c0) (2 ^ 64) DirLeft = Ok a /\
    conf_ok c0 /\ Forall (event_ok c0) es_ok /\ calm c0 (li_init c0 d0 a) es_ok /\ lrun c0 (li_init c0 d0 a) es_ok = Some (s, obs_ok) /\ idle s /\
    (forall key size, OFull key size ∉ obs_ok) /\ free_bytes (ls_alloc s) = 31744 /\
    Forall (event_ok c0) es_none /\ calm c0 (li_init c0 d0 a) es_none /\ lrun c0 (li_init c0 d0 a) es_none = Some (s', obs_none) /\ idle s'.
Proof.
  destruct (demo_run _ _ _ _ _ demo_ok) as (a & s & Ha & Hr & Hi & Ho). destruct (demo_run _ _ _ _ _ demo_none) as (a' & s' & Ha' & Hr' & Hi' & Ho').
  rewrite Ha in Ha'. injection Ha' as <-. exists a, s, s'. split; [exact Ha|]. split; [exact c0_conf|].
  split; [events_ok|]. split; [auto using one_calm|]. split; [exact Hr|]. split; [auto|]. split; [|split; [exact (free_run _ _ _ _ _ _ free_ok Ha Hr)|]].
  - intros key size Hin. unfold obs_ok in Hin. rewrite !elem_of_cons in Hin. repeat (destruct Hin as [Hin|Hin]; [discriminate Hin|]). inversion Hin.
  - split; [events_ok|]. split; [apply one_calm, Ho', eq_refl|]. split; [exact Hr'|apply Hi', eq_refl].
Qed.
