(** Every step of a lite store is a step of the abstract store: lookups, reads,
    writes, commits, deletes. *)
From Coq Require Import ZifyBool ZifyNat ZifyN.
From stdpp Require Import base numbers list_numbers option gmap sets list.
From Verif Require Import Util Bytes BuddyModel BuddySpec BuddyProofs BuddyInv LayoutModel LayoutProofs MetaModel MetaSpec MetaProofs PropertiesMeta.
From Verif Require Import PageIOModel PageIOSpec PageIOProofs PageIOSys PropertiesPageIO DirectModel DirectBase.
From Verif Require Import JournalModel JournalSpec JournalProofs LiteModel LiteSpec LiteJournal LiteNode LiteRecord LiteInv LiteSteps LiteSteps2 LiteLin LiteSim.
Open Scope N_scope.
Ltac Zify.zify_post_hook ::= idtac.

Lemma last_off_snoc prev l q : last_off prev (l ++ [q]) = Some (lo_off q).
Proof. unfold last_off. rewrite last_snoc. reflexivity. Qed.
Lemma elem_split {X} (l : list X) x : x ∈ l -> exists l1 l2, l = l1 ++ x :: l2.
Proof. apply elem_of_list_split. Qed.
Lemma drain_unique step n m : forall cl r r', drain step n cl = Some r -> drain step m cl = Some r' -> r = r'.
Proof.
  revert m. induction n as [|n IH]; intros m cl r r' H H'; destruct cl as [rd| |e|]; cbn [drain] in *; destruct m as [|m]; cbn [drain] in *; try congruence.
  destruct (step rd) as [out c'].
  destruct (drain step n c') as [[outs c'']|] eqn:E; [|discriminate]. destruct (drain step m c') as [[outs' c3]|] eqn:E'; [|discriminate].
  specialize (IH m c' _ _ E E'). injection IH as <- <-. congruence.
Qed.

Lemma set_dev_same s : set_dev (ls_j s) (ls_dev s) = ls_j s.
Proof. unfold ls_dev. now destruct (ls_j s). Qed.

Section sim.
Context (c : liconf) (Hc : conf_sizes c).
Notation spage := (li_spage c).
Notation lpage := (li_lpage c).
Notation dpg := (dpages spage lpage).
Notation core := (core c).
Notation live := (live c).
Notation bchain := (bchain c).
Notation linv := (linv c).
Notation srel := (srel c).
Notation simk := (simk c).
Notation all_pages := (all_pages c).
Implicit Types (us : list txn) (calls : list lcall) (objs : list lobj) (A F : device).

Section step.
Context (s : lstate) (A : device) (us : list txn) (objs : list lobj) (leak : list page) (HL : linv s A us objs leak)
  (st : sstore) (HS : srel (flushed A us) objs st).

Lemma obj_pages_eq o : o ∈ objs -> obj_pages spage lpage (obj_of_req (lo_req o)) = Some (dpg (lo_req o)).
Proof.
  intros Ho. destruct (k_obj _ _ _ _ _ _ _ _ _ _ (lin_core c HL) o Ho) as [[Hv _] _].
  destruct (req_pages spage lpage (co_pages _ Hc) (co_lpage _ Hc) (co_ratio _ Hc) _ Hv) as (t & tails & _ & _ & _ & _ & -> & ->). reflexivity.
Qed.

(** ** Taking an object out *)
Lemma unlink_head_eq b o l2 f ov' t tk : o ∈ objs -> found_at (now s) [] o l2 None f ->
  update_head (ls_ov s) [] b (first_off l2) = (ov', t, tk) ->
  unlink c (ls_dev s) (ls_ov s) [] b f = Some (ls_dev s, ov', t, all_pages o, tk).
Proof.
  intros Ho [[F1 F2 F3 F4 F5] (m & Hm)] E. unfold unlink. unfold now in Hm. cbn [snd] in Hm. rewrite Hm. cbn [mbind option_bind].
  rewrite F3. cbn [mbind option_bind]. rewrite F5. cbn [mbind option_bind]. rewrite F2. cbn [last_off last]. rewrite E.
  rewrite F1. destruct (lin_decodes c Hc HL o Ho) as [_ ->]. cbn [mbind option_bind]. rewrite (obj_pages_eq o Ho). reflexivity.
Qed.
Lemma unlink_inner_eq b l0 q o l2 f ov' tk : bchain objs b = (l0 ++ [q]) ++ o :: l2 -> o ∈ objs -> found_at (now s) (l0 ++ [q]) o l2 None f ->
  ov_set_next (ls_ov s) (lo_id o) (first_off l2) = (ov', tk) ->
  unlink c (ls_dev s) (ls_ov s) [] b f =
    Some (dev_write (ls_dev s) (lo_off q + off_next) (be_bytes 6 (first_off l2)), ov', [], all_pages o, tk).
Proof.
  intros Eb Ho [[F1 F2 F3 F4 F5] (m & Hm)] E. unfold unlink. unfold now in Hm. cbn [snd] in Hm. rewrite Hm. cbn [mbind option_bind].
  rewrite F3. cbn [mbind option_bind]. rewrite F5. cbn [mbind option_bind]. rewrite F2, last_off_snoc, E.
  rewrite F1.
  assert (Hq : q ∈ objs). { apply (bchain_elem c objs b). rewrite Eb, !elem_of_app. left. right. constructor. }
  assert (Hne : q <> o).
  { intros ->. assert (Hn : NoDup (bchain objs b)) by (apply NoDup_filter, (objs_nodup c (lin_core c HL))).
    rewrite Eb in Hn. apply NoDup_app in Hn as (_ & Hd & _). apply (Hd o); [apply elem_of_app; right|]; constructor. }
  rewrite (dev_read_same (ls_dev s)).
  - destruct (lin_decodes c Hc HL o Ho) as [_ ->]. cbn [mbind option_bind]. rewrite (obj_pages_eq o Ho). reflexivity.
  - intros x Hx. apply dev_write_other. unfold touches. cbn [fst snd]. rewrite be_bytes_length. intros Ht. apply Hne.
    pose proof (page_pow c Hc (lin_core c HL) q Hq) as Hp.
    eapply (same_page c (lin_core c HL) q o x Hq Ho); unfold in_page, mpage; cbn [fst snd]; [offs; lia|lia].
Qed.

(** ** The abstract side of removing and committing *)
Lemma srel_remove F x o y key st0 : NoDup (x ++ o :: y) -> srel F (x ++ o :: y) st0 -> lo_st o = st_committed -> lo_key o = key ->
  (forall o', o' ∈ x ++ y -> lo_st o' = st_committed -> lo_key o' <> key) ->
  srel F (x ++ y) {| ss_inc := ss_inc st0; ss_com := delete key (ss_com st0) |}.
Proof.
  intros Hn [S1 S2 S3 S4] Hs Hk Hu.
  assert (Hin : forall o', o' ∈ x ++ y -> o' ∈ x ++ o :: y) by (intros o'; rewrite !elem_of_app, elem_of_cons; tauto).
  assert (Hout : forall o', o' ∈ x ++ o :: y -> o' = o \/ o' ∈ x ++ y) by (intros o'; rewrite !elem_of_app, elem_of_cons; tauto).
  split; cbn [ss_inc ss_com].
  - intros o' Ho' Hs'. apply S1; auto.
  - intros id k so H. destruct (S2 id k so H) as (o' & Ho' & H1 & H2 & H3). exists o'. split; [|auto].
    destruct (Hout o' Ho') as [->|]; [rewrite Hs in H3; discriminate|assumption].
  - intros o' Ho' Hs'. destruct (S3 o' (Hin o' Ho') Hs') as (so & E & R). exists so. split; [|exact R].
    rewrite lookup_delete_ne; [exact E|]. intros Ek. symmetry in Ek. revert Ek. apply Hu; assumption.
  - intros k so. rewrite lookup_delete_Some. intros [Hne H]. destruct (S4 k so H) as (o' & Ho' & H1 & H2). exists o'. split; [|auto].
    destruct (Hout o' Ho') as [->|]; [congruence|assumption].
Qed.
Lemma srel_commit F x o y key id so st0 : NoDup ((fun o => lo_id o) <$> (x ++ o :: y)) -> srel F (x ++ o :: y) st0 ->
  lo_st o = st_incomplete -> lo_key o = key -> lo_id o = id ->
  (forall o', o' ∈ x ++ o :: y -> lo_st o' = st_committed -> lo_key o' <> key) ->
  ss_inc st0 !! id = Some (key, so) ->
  srel F (x ++ set_st o st_committed :: y) {| ss_inc := delete id (ss_inc st0); ss_com := <[key := so]> (ss_com st0) |}.
Proof.
  intros Hn [S1 S2 S3 S4] Hs Hk Hi Hu Hso.
  assert (Hin : forall o', o' ∈ x ++ y -> o' ∈ x ++ o :: y) by (intros o'; rewrite !elem_of_app, elem_of_cons; tauto).
  assert (Hout : forall o', o' ∈ x ++ o :: y -> o' = o \/ o' ∈ x ++ y) by (intros o'; rewrite !elem_of_app, elem_of_cons; tauto).
  assert (Hout2 : forall o', o' ∈ x ++ set_st o st_committed :: y -> o' = set_st o st_committed \/ o' ∈ x ++ y) by (intros o'; rewrite !elem_of_app, elem_of_cons; tauto).
  assert (Hin2 : forall o', o' ∈ x ++ y -> o' ∈ x ++ set_st o st_committed :: y) by (intros o'; rewrite !elem_of_app, elem_of_cons; tauto).
  assert (Hoo : o ∈ x ++ o :: y) by (rewrite elem_of_app, elem_of_cons; auto).
  assert (Hid : forall o', o' ∈ x ++ y -> lo_id o' <> id).
  { intros o' Ho' E. rewrite fmap_app, fmap_cons in Hn. apply NoDup_app in Hn as (_ & Hd & Hn). apply NoDup_cons in Hn as [Hn _].
    apply elem_of_app in Ho' as [H|H].
    - apply (Hd (lo_id o')); [apply elem_of_list_fmap; eauto|]. rewrite E, <- Hi. constructor.
    - apply Hn. rewrite Hi, <- E. apply elem_of_list_fmap. eauto. }
  split; cbn [ss_inc ss_com].
  - intros o' Ho' Hs'. destruct (Hout2 o' Ho') as [->|Ho2]; [discriminate Hs'|]. destruct (S1 o' (Hin o' Ho2) Hs') as (so' & E & R). exists so'.
    split; [|exact R]. rewrite lookup_delete_ne; [exact E|]. intros Ex. symmetry in Ex. revert Ex. now apply Hid.
  - intros id' k so'. rewrite lookup_delete_Some. intros [Hne H]. destruct (S2 id' k so' H) as (o' & Ho' & H1 & H2 & H3). exists o'. split; [|auto].
    destruct (Hout o' Ho') as [->|H4]; [congruence|now apply Hin2].
  - intros o' Ho' Hs'. destruct (Hout2 o' Ho') as [->|Ho2].
    + cbn [set_st lo_req]. exists so. rewrite Hk, lookup_insert. split; [reflexivity|]. destruct (S1 o Hoo Hs) as (so' & E & R).
      rewrite Hi, Hso in E. injection E as _ <-. exact R.
    + destruct (S3 o' (Hin o' Ho2) Hs') as (so' & E & R). exists so'. split; [|exact R].
      rewrite lookup_insert_ne; [exact E|]. intros Ek. symmetry in Ek. revert Ek. apply Hu; [now apply Hin|exact Hs'].
  - intros k so'. rewrite lookup_insert_Some. intros [[<- _]|[Hne H]].
    + exists (set_st o st_committed). split; [rewrite elem_of_app, elem_of_cons; auto|]. split; [exact Hk|reflexivity].
    + destruct (S4 k so' H) as (o' & Ho' & H1 & H2). exists o'. split; [|auto].
      destruct (Hout o' Ho') as [->|H4]; [rewrite Hs in H2; discriminate|now apply Hin2].
Qed.

Lemma others_not x o y key : objs = x ++ o :: y -> matches key st_committed None o ->
  forall o', o' ∈ x ++ y -> lo_st o' = st_committed -> lo_key o' <> key.
Proof.
  intros E (Mk & Ms & _) o' Ho' Hs' Hk'. pose proof (objs_nodup c (lin_core c HL)) as Hn.
  assert (Hin : o' ∈ objs) by (rewrite E; rewrite elem_of_app in *; rewrite elem_of_cons; tauto).
  assert (Hoo : o ∈ objs) by (rewrite E, elem_of_app, elem_of_cons; auto).
  assert (o' = o) as -> by (eapply (srel_com_unique c HL HS); congruence).
  rewrite E in Hn. apply NoDup_app in Hn as (_ & Hd & Hn). apply NoDup_cons in Hn as [Hn _].
  apply elem_of_app in Ho' as [H|H]; [apply (Hd o H); constructor|exact (Hn H)].
Qed.

Lemma quiet_calls key : bucket_quiet c s key -> forall sig tks free, LWait (bucket_of c key) sig tks free ∈ ls_calls s -> False.
Proof. intros H sig tks free Hl. apply elem_of_list_lookup in Hl as [i Hi]. exact (H i _ _ _ _ Hi eq_refl). Qed.

(** The link of [q] is changed on the device. *)
Lemma inner_view q nn : (forall z, lo_off q + off_next <= z < lo_off q + off_next + 6 -> untouched us z) -> q ∈ objs ->
  let d' := dev_write (ls_dev s) (lo_off q + off_next) (be_bytes 6 nn) in let A' := patch A (ls_dev s) d' in
  jview (li_jc c) (set_dev (ls_j s) d') A' us /\
  (forall z, flushed A' us z = dev_write (flushed A us) (lo_off q + off_next) (be_bytes 6 nn) z) /\
  (forall o pg z, o ∈ objs -> pg ∈ dpg (lo_req o) -> in_page pg z -> A' z = A z).
Proof.
  intros Hu Hq d' A'. pose proof (off_facts c Hc (lin_core c HL) q Hq) as (Hb & _). pose proof (page_pow c Hc (lin_core c HL) q Hq) as Hpow.
  assert (Hr : forall z, lo_off q + off_next <= z < lo_off q + off_next + N.of_nat (length (be_bytes 6 nn)) -> outside_journal (li_jc c) z /\ untouched us z).
  { rewrite be_bytes_length. intros z Hz. split; [apply (heap_outside c Hc); lia|apply Hu; lia]. }
  destruct (patch_write c s A us objs leak HL _ _ Hr) as [Hd Hw]. destruct (patch_view c s A us objs leak HL d' Hd) as (HV' & P1 & _).
  split; [exact HV'|]. split; [exact Hw|]. intros o pg z Ho Hpg Hz. apply P1. unfold d'. apply dev_write_other. unfold touches. cbn [fst snd].
  rewrite be_bytes_length. intros Ht. apply (meta_data c HL o q pg z Ho Hq Hpg Hz). unfold in_page, mpage. cbn [fst snd]. offs. lia.
Qed.

Lemma fits_small t : (length t <= 2)%nat -> (forall w, w ∈ t -> (length (snd w) <= 6)%nat) -> fits (li_jc c) t.
Proof. apply (co_fits _ Hc). Qed.

Lemma sim_delete key oid fuel seen s' obs : (removes_inner c s (LDelete key oid fuel seen) -> bucket_quiet c s key) ->
  do_delete c s key oid fuel seen = Some (s', obs) -> simk leak s' st obs.
Proof.
  intros Hq E. pose proof HL as [HV HK]. unfold do_delete in E. pose proof (lin_find c Hc HL key fuel st_committed oid) as Hf.
  destruct (find_object c (now s) key fuel st_committed oid) as [| |[f|]] eqn:Ef; [discriminate|contradiction| |].
  2: { injection E as <- <-. apply (sim_stay c s A us objs leak HL st HS). constructor. eapply (srel_find_none c); eassumption. }
  destruct Hf as (l1 & o & l2 & Eb & _ & Hm & Ho & Hfa). set (b := bucket_of c key) in *.
  destruct (srel_find_some c HS key oid o Ho Hm) as (so & Hso & _ & _).
  assert (Hm0 : matches key st_committed None o) by (destruct Hm as (? & ? & _); split; [assumption|split; [assumption|reflexivity]]).
  destruct (elem_split objs o Ho) as (x & y & Eo).
  assert (Hss : ssteps lpage st [ODelete key oid true] {| ss_inc := ss_inc st; ss_com := delete key (ss_com st) |}).
  { apply ssteps_one. eapply SDelete, Hso. }
  pose proof (objs_nodup c HK) as Hnd.
  assert (HSr : srel (flushed A us) (x ++ y) {| ss_inc := ss_inc st; ss_com := delete key (ss_com st) |}).
  { destruct Hm0 as (Mk & Ms & _). eapply srel_remove; [rewrite <- Eo; exact Hnd|rewrite <- Eo; exact HS|exact Ms|exact Mk|].
    eapply (others_not x o y key Eo). split; [exact Mk|]. split; [exact Ms|reflexivity]. }
  assert (Hsub : forall o', o' ∈ x ++ y -> o' ∈ objs) by (intros o'; rewrite Eo, !elem_of_app, elem_of_cons; tauto).
  destruct l1 as [|q l0 _] using rev_ind.
  - destruct (update_head (ls_ov s) [] b (first_off l2)) as [[ov' t] tk] eqn:Eu.
    rewrite (unlink_head_eq b o l2 f ov' t tk Ho Hfa Eu) in E.
    assert (Et : t = [(bucket_off b, be_bytes 5 (N.shiftr (first_off l2) 8))]).
    { unfold update_head, ov_set_head in Eu. injection Eu as _ <- _. reflexivity. }
    assert (Hne : t <> []) by (rewrite Et; discriminate).
    rewrite (do_txn_eq c _ _ _ Hne) in E. injection E as <- <-.
    pose proof (core_unlink_head c Hc _ _ _ _ _ _ _ _ _ x o y b l2 _ _ _ _ HK Eo Eb (bucket_lt c Hc key) eq_refl Eu) as HK2.
    rewrite <- flushed_snoc in HK2.
    assert (Hfit : fits (li_jc c) t).
    { apply fits_small; rewrite Et; [cbn; lia|]. intros w Hw. apply elem_of_list_singleton in Hw as ->. cbn [snd]. rewrite be_bytes_length. lia. }
    assert (HVs : jview (li_jc c) (set_dev (ls_j s) (ls_dev s)) A us) by (rewrite set_dev_same; exact HV).
    pose proof (jview_commit (li_jc c) (co_hash _ Hc) (co_cap _ Hc) _ A us t seen HVs Hne Hfit) as HV'.
    apply (simk_keep c _ _ _ _ A (us ++ [t]) (x ++ y) {| ss_inc := ss_inc st; ss_com := delete key (ss_com st) |}).
    split; [|split; [|exact Hss]].
    + split; [exact HV'|]. cbn [mk ls_j ls_alloc ls_ov ls_calls ls_used]. rewrite commit_acked, set_dev_same. rewrite (jview_next _ _ _ _ HV).
      eapply core_perm; [apply Permutation_cons_append|]. exact HK2.
    + eapply srel_keep; [|exact HSr]. intros o' pg z Ho' Hpg Hz. rewrite (data_base c Hc HK2 o' pg z Ho' Hpg Hz).
      symmetry. eapply (data_base c Hc HK); [apply Hsub, Ho'|exact Hpg|exact Hz].
  - assert (Hqt : bucket_quiet c s key).
    { apply Hq. exists f. split; [exact Ef|]. destruct Hfa as [Hfr _]. rewrite (fr_prev _ _ _ Hfr), last_off_snoc. discriminate. }
    destruct (ov_set_next (ls_ov s) (lo_id o) (first_off l2)) as [ov' tk] eqn:Eu.
    rewrite (unlink_inner_eq b l0 q o l2 f ov' tk Eb Ho Hfa Eu) in E.
    cbn [do_txn commit_transaction] in E. unfold do_txn, commit_transaction in E. injection E as <- <-.
    assert (Hqo : q ∈ objs). { apply (bchain_elem c objs b). rewrite Eb, !elem_of_app. left. right. constructor. }
    destruct (core_unlink_inner c Hc _ _ (dev_write (flushed A us) (lo_off q + off_next) (be_bytes 6 (first_off l2))) _ _ _ _ _ _ _ x o y b l0 q l2 _ _ _ HK Eo Eb
      (quiet_calls key Hqt) eq_refl Eu (fun _ => eq_refl)) as [Hunt _].
    destruct (inner_view q (first_off l2) Hunt Hqo) as (HV' & HF & HA).
    destruct (core_unlink_inner c Hc _ _ (flushed (patch A (ls_dev s) (dev_write (ls_dev s) (lo_off q + off_next) (be_bytes 6 (first_off l2)))) us) _ _ _ _ _ _ _ x o y b l0 q l2 _ _ _ HK Eo Eb
      (quiet_calls key Hqt) eq_refl Eu HF) as [_ HK2].
    eapply (simk_keep c _ _ _ _ _ us (x ++ y) {| ss_inc := ss_inc st; ss_com := delete key (ss_com st) |}).
    split; [|split; [|exact Hss]].
    + split; [exact HV'|]. cbn [mk ls_j ls_alloc ls_ov ls_calls ls_used set_dev js_acked].
      eapply core_perm; [apply Permutation_cons_append|]. exact HK2.
    + eapply srel_keep; [|exact HSr]. intros o' pg z Ho' Hpg Hz. rewrite (data_base c Hc HK2 o' pg z Ho' Hpg Hz).
      rewrite (data_base c Hc HK o' pg z (Hsub _ Ho') Hpg Hz). eapply HA; [apply Hsub, Ho'|exact Hpg|exact Hz].
Qed.

Lemma ids_objs {a F us0 n0 ov calls used objs0 leak0} : core a F us0 n0 ov calls used objs0 leak0 -> NoDup ((fun o => lo_id o) <$> objs0).
Proof. intros HK. pose proof (k_ids _ _ _ _ _ _ _ _ _ _ HK) as H. unfold ids in H. apply NoDup_app in H as [H _]. exact H. Qed.

(** The end of a commit: the state is set in the transaction [t] that may
    already contain the removal of the old object. *)
Lemma commit_tail d A' t tks ps ov1 ov' tk x o y key id so st0 seen :
  jview (li_jc c) (set_dev (ls_j s) d) A' us ->
  core (ls_alloc s) (apply_writes (flushed A' us) t) (us ++ [t]) (length (js_acked (ls_j s))) ov1
    (LWait (bucket_of c key) (Some (length (js_acked (ls_j s)) + length us)%nat) tks ps :: ls_calls s) (ls_used s) (x ++ o :: y) leak ->
  (length t <= 1)%nat -> (forall w, w ∈ t -> (length (snd w) <= 6)%nat) ->
  srel A' (x ++ o :: y) st0 -> matches key st_incomplete (Some id) o ->
  (forall o', o' ∈ x ++ o :: y -> lo_st o' = st_committed -> lo_key o' <> key) -> ss_inc st0 !! id = Some (key, so) ->
  ov_set_state ov1 id st_committed = (ov', tk) ->
  ssteps lpage st [OCommit key id true] {| ss_inc := delete id (ss_inc st0); ss_com := <[key := so]> (ss_com st0) |} ->
  simk leak (mk (commit_transaction (li_jc c) (set_dev (ls_j s) d) (t ++ [(lo_off o + off_state, [st_committed])]) seen) (ls_alloc s) ov'
        (ls_calls s ++ [LWait (bucket_of c key) (Some (js_next (ls_j s))) (tk :: tks) ps]) (ls_used s)) st [OCommit key id true].
Proof.
  intros HV' HK1 Hlt Hw HSr (Mk & Ms & Mi) Hoth Hso Eu Hss. cbn [id_ok] in Mi. apply N.eqb_eq in Mi. subst id.
  assert (Hb : bkt c o = bucket_of c key) by (rewrite <- Mk; reflexivity).
  pose proof (core_set_state c Hc _ _ _ _ _ _ _ _ _ _ _ _ _ _ _ _ _ _ HK1 Hb (or_intror eq_refl) Eu) as HK2.
  set (w := (lo_off o + off_state, [st_committed])) in *.
  assert (EF : dev_write (apply_writes (flushed A' us) t) (lo_off o + off_state) [st_committed] = flushed A' (us ++ [t ++ [w]])).
  { rewrite flushed_snoc. rewrite apply_writes_app. reflexivity. }
  rewrite EF in HK2. clear EF.
  assert (Hne : t ++ [w] <> []) by (destruct t; discriminate).
  assert (Hfit : fits (li_jc c) (t ++ [w])).
  { apply fits_small; [rewrite app_length; cbn [length]; lia|]. intros w' Hw'. apply elem_of_app in Hw' as [H|H]; [now apply Hw|].
    apply elem_of_list_singleton in H as ->. cbn. lia. }
  pose proof (jview_commit (li_jc c) (co_hash _ Hc) (co_cap _ Hc) _ A' us _ seen HV' Hne Hfit) as HV2.
  apply (simk_keep c _ _ _ _ A' (us ++ [t ++ [w]]) (x ++ set_st o st_committed :: y) {| ss_inc := delete (lo_id o) (ss_inc st0); ss_com := <[key := so]> (ss_com st0) |}).
  split; [|split; [|exact Hss]].
  - split; [exact HV2|]. cbn [mk ls_j ls_alloc ls_ov ls_calls ls_used]. rewrite commit_acked. pose proof (jview_next _ _ _ _ HV') as Hn.
    cbn [set_dev js_next js_acked] in Hn |- *. rewrite Hn.
    eapply core_perm; [apply Permutation_cons_append|]. exact HK2.
  - eapply srel_keep; [intros o' pg z Ho' Hpg Hz; exact (data_base c Hc HK2 o' pg z Ho' Hpg Hz)|].
    eapply srel_commit; [exact (ids_objs HK1)|exact HSr|exact Ms|exact Mk|reflexivity|exact Hoth|exact Hso].
Qed.

Lemma srel_base : srel A objs st.
Proof. eapply srel_keep; [|exact HS]. intros o pg z Ho Hpg Hz. symmetry. exact (data_base c Hc (lin_core c HL) o pg z Ho Hpg Hz). Qed.

Lemma sim_commit key id fuel seen s' obs : li_versioning c = false -> (removes_inner c s (LCommit key id fuel seen) -> bucket_quiet c s key) ->
  do_commit c s key id fuel seen = Some (s', obs) -> simk leak s' st obs.
Proof.
  intros Hver Hq E. pose proof HL as [HV HK]. unfold do_commit in E. pose proof (lin_find_commit c Hc HL key fuel id) as Hf.
  destruct (find_for_commit c (now s) key fuel id) as [| |[fi fe]] eqn:Ef; [discriminate|contradiction|].
  destruct Hf as [[[-> Hn]|(l1 & o & l2 & f & Eb & Hm & Ho & -> & Hfa)] He].
  { injection E as <- <-. apply (sim_stay c s A us objs leak HL st HS). constructor. eapply (srel_inc_none c); eassumption. }
  destruct (srel_inc_some c HS key id o Ho Hm) as (so & Hsi & _ & Hso & Hoid). set (b := bucket_of c key) in *.
  pose proof srel_base as HSA. rewrite Hver in E.
  assert (Hfo : f_off f = lo_off o) by (destruct Hfa as [Hfr _]; exact (fr_off _ _ _ Hfr)).
  assert (Hjn : js_next (ls_j s) = (length (js_acked (ls_j s)) + length us)%nat) by exact (jview_next _ _ _ _ HV).
  assert (Hss : ssteps lpage st [OCommit key id true] {| ss_inc := delete id (ss_inc st); ss_com := <[key := so]> (ss_com st) |}).
  { apply ssteps_one. now constructor. }
  destruct He as [[-> Hno]|(m1 & ex & m2 & fx & Ebx & Hmx & Hox & -> & Hfax)].
  - (* nothing to replace *)
    destruct (ov_set_state (ls_ov s) id st_committed) as [ov' tk] eqn:Eu. rewrite Hfo in E. cbn [txn_write app] in E. unfold txn_write in E. cbn [app] in E.
    rewrite (do_txn_eq c) in E by discriminate. injection E as <- <-. cbn [set_dev js_next].
    destruct (elem_split objs o Ho) as (x & y & Eo).
    apply (commit_tail (ls_dev s) A [] [] [] (ls_ov s) ov' tk x o y key id so st seen).
    + rewrite set_dev_same. exact HV.
    + cbn [apply_writes]. rewrite <- Eo. apply core_open, HK.
    + cbn. lia.
    + intros w Hw. inversion Hw.
    + rewrite <- Eo. exact HSA.
    + exact Hm.
    + rewrite <- Eo. intros o' Ho' Hs' Hk'. apply (Hno o' Ho'). split; [exact Hk'|]. split; [exact Hs'|reflexivity].
    + exact Hso.
    + exact Eu.
    + exact Hss.
  - (* the old object goes *)
    destruct (elem_split objs ex Hox) as (x0 & y0 & Ex0).
    assert (Hoxy : o ∈ x0 ++ y0).
    { assert (H : o ∈ x0 ++ ex :: y0) by (rewrite <- Ex0; exact Ho). apply elem_of_app in H as [H|H]; [apply elem_of_app; auto|].
      apply elem_of_cons in H as [->|H]; [|apply elem_of_app; auto]. exfalso. destruct Hm as (_ & H1 & _), Hmx as (_ & H2 & _).
      rewrite H1 in H2. discriminate H2. }
    destruct (elem_split _ o Hoxy) as (x & y & Eo).
    pose proof (objs_nodup c HK) as Hnd.
    assert (Hoth := others_not x0 ex y0 key Ex0 Hmx).
    assert (HSr : srel A (x0 ++ y0) {| ss_inc := ss_inc st; ss_com := delete key (ss_com st) |}).
    { destruct Hmx as (Mk & Ms & _). eapply srel_remove; [rewrite <- Ex0; exact Hnd|rewrite <- Ex0; exact HSA|exact Ms|exact Mk|]. exact Hoth. }
    assert (Hsub : forall o', o' ∈ x0 ++ y0 -> o' ∈ objs) by (intros o'; rewrite Ex0, !elem_of_app, elem_of_cons; tauto).
    assert (Hss2 : ssteps lpage st [OCommit key id true]
      {| ss_inc := delete id (ss_inc {| ss_inc := ss_inc st; ss_com := delete key (ss_com st) |});
         ss_com := <[key := so]> (ss_com {| ss_inc := ss_inc st; ss_com := delete key (ss_com st) |}) |}).
    { cbn [ss_inc ss_com]. rewrite insert_delete_insert. exact Hss. }
    destruct m1 as [|q l0 _] using rev_ind.
    + destruct (update_head (ls_ov s) [] b (first_off m2)) as [[ov1 t] tk0] eqn:Eu0.
      rewrite (unlink_head_eq b ex m2 fx ov1 t tk0 Hox Hfax Eu0) in E. cbn [mbind option_bind] in E.
      assert (Et : t = [(bucket_off b, be_bytes 5 (N.shiftr (first_off m2) 8))]).
      { unfold update_head, ov_set_head in Eu0. injection Eu0 as _ <- _. reflexivity. }
      destruct (ov_set_state ov1 id st_committed) as [ov' tk] eqn:Eu. rewrite Hfo in E. unfold txn_write in E.
      rewrite (do_txn_eq c) in E by (destruct t; discriminate). injection E as <- <-. cbn [set_dev js_next].
      apply (commit_tail (ls_dev s) A t [tk0] (all_pages ex) ov1 ov' tk x o y key id so {| ss_inc := ss_inc st; ss_com := delete key (ss_com st) |} seen); [..|exact Eu|exact Hss2].
      * rewrite set_dev_same. exact HV.
      * rewrite <- Eo. exact (core_unlink_head c Hc _ _ _ _ _ _ _ _ _ x0 ex y0 b m2 _ _ _ _ HK Ex0 Ebx (bucket_lt c Hc key) eq_refl Eu0).
      * rewrite Et. cbn. lia.
      * rewrite Et. intros w Hw. apply elem_of_list_singleton in Hw as ->. cbn [snd]. rewrite be_bytes_length. lia.
      * rewrite <- Eo. exact HSr.
      * exact Hm.
      * rewrite <- Eo. exact Hoth.
      * exact Hso.
    + assert (Hqt : bucket_quiet c s key).
      { apply Hq. split; [exact Hver|]. exists f, fx. split; [exact Ef|]. destruct Hfax as [Hfr _]. rewrite (fr_prev _ _ _ Hfr), last_off_snoc. discriminate. }
      destruct (ov_set_next (ls_ov s) (lo_id ex) (first_off m2)) as [ov1 tk0] eqn:Eu0.
      rewrite (unlink_inner_eq b l0 q ex m2 fx ov1 tk0 Ebx Hox Hfax Eu0) in E. cbn [mbind option_bind] in E.
      destruct (ov_set_state ov1 id st_committed) as [ov' tk] eqn:Eu. rewrite Hfo in E. unfold txn_write in E.
      rewrite (do_txn_eq c) in E by discriminate. injection E as <- <-. cbn [set_dev js_next].
      assert (Hqo : q ∈ objs). { apply (bchain_elem c objs b). rewrite Ebx, !elem_of_app. left. right. constructor. }
      destruct (core_unlink_inner c Hc _ _ (dev_write (flushed A us) (lo_off q + off_next) (be_bytes 6 (first_off m2))) _ _ _ _ _ _ _ x0 ex y0 b l0 q m2 _ _ _ HK Ex0 Ebx
        (quiet_calls key Hqt) eq_refl Eu0 (fun _ => eq_refl)) as [Hunt _].
      destruct (inner_view q (first_off m2) Hunt Hqo) as (HV' & HF & HA).
      set (A' := patch A (ls_dev s) (dev_write (ls_dev s) (lo_off q + off_next) (be_bytes 6 (first_off m2)))) in *.
      destruct (core_unlink_inner c Hc _ _ (flushed A' us) _ _ _ _ _ _ _ x0 ex y0 b l0 q m2 _ _ _ HK Ex0 Ebx (quiet_calls key Hqt) eq_refl Eu0 HF) as [_ HK2].
      change [(lo_off o + off_state, [st_committed])] with ([] ++ [(lo_off o + off_state, [st_committed])]).
      apply (commit_tail _ A' [] [tk0] (all_pages ex) ov1 ov' tk x o y key id so {| ss_inc := ss_inc st; ss_com := delete key (ss_com st) |} seen); [..|exact Eu|exact Hss2].
      * exact HV'.
      * cbn [apply_writes]. rewrite <- Eo. apply core_open2, HK2.
      * cbn. lia.
      * intros w Hw. inversion Hw.
      * rewrite <- Eo. eapply srel_keep; [|exact HSr]. intros o' pg z Ho' Hpg Hz. eapply HA; [apply Hsub, Ho'|exact Hpg|exact Hz].
      * exact Hm.
      * rewrite <- Eo. exact Hoth.
      * exact Hso.
Qed.
End step.
End sim.
