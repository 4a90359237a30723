(** How the invariant survives the pieces the operations are made of. *)
From Coq Require Import ZifyBool ZifyNat ZifyN.
From stdpp Require Import base numbers list_numbers option gmap sets list.
From Verif Require Import Util Bytes BuddyModel BuddySpec BuddyProofs BuddyInv LayoutModel LayoutProofs MetaModel MetaSpec MetaProofs PropertiesMeta.
From Verif Require Import PageIOModel PageIOSpec PageIOProofs DirectModel DirectBase.
From Verif Require Import JournalModel JournalSpec JournalProofs LiteModel LiteSpec LiteJournal LiteNode LiteRecord LiteInv.
Open Scope N_scope.
Ltac Zify.zify_post_hook ::= idtac.

Lemma head_value nn : nn < 2 ^ 48 -> nn mod 256 = 0 ->
  N.shiftr nn 8 < 256 ^ N.of_nat 5 /\ N.shiftl (N.shiftr nn 8) 8 = nn.
Proof.
  intros H1 H2. rewrite N.shiftr_div_pow2, N.shiftl_mul_pow2. change (2 ^ 8) with 256.
  apply N.mod_divide in H2 as [q ->]; [|discriminate]. rewrite N.div_mul by discriminate. split; [|reflexivity].
  change (2 ^ 48) with (256 ^ N.of_nat 5 * 256) in H1. generalize dependent (256 ^ N.of_nat 5). intros. lia.
Qed.

(** ** Waits *)
Lemma wkeep_refl ser calls : wkeep ser calls calls.
Proof. split; [auto|]. intros b sig tks free tk _ H1 H2. exists b, sig, tks, free. auto. Qed.
Lemma wkeep_perm ser calls calls' : calls ≡ₚ calls' -> wkeep ser calls calls'.
Proof.
  intros Hp. split.
  - intros b tk _ (sig & tks & free & H1 & H2). exists sig, tks, free. rewrite <- Hp. auto.
  - intros b sig tks free tk _ H1 H2. exists b, sig, tks, free. rewrite Hp. auto.
Qed.
Lemma wkeep_trans ser calls1 calls2 calls3 : wkeep ser calls1 calls2 -> wkeep ser calls2 calls3 -> wkeep ser calls1 calls3.
Proof.
  intros [A1 A2] [B1 B2]. split.
  - intros b tk H E. apply B1; [exact H|]. now apply A1.
  - intros b sig tks free tk H H1 H2. destruct (B2 _ _ _ _ _ H H1 H2) as (b0 & sig0 & tks0 & free0 & C1 & C2 & C3).
    destruct (A2 _ _ _ _ _ H C1 C2) as (b1 & sig1 & tks1 & free1 & D1 & D2 & D3). exists b1, sig1, tks1, free1. auto.
Qed.
Lemma wkeep_add ser calls b sig tks free : (forall tk, tk ∈ tks -> ser <= tk_ser tk) -> wkeep ser calls (LWait b sig tks free :: calls).
Proof.
  intros H. split.
  - intros b' tk _ (sig' & tks' & free' & H1 & H2). exists sig', tks', free'. split; [now constructor|exact H2].
  - intros b' sig' tks' free' tk Hs H1 H2. apply elem_of_cons in H1 as [[= -> -> -> ->]|H1].
    + specialize (H _ H2). lia.
    + exists b', sig', tks', free'. auto.
Qed.
Lemma wkeep_more ser calls b sig tks tk free free' : ser <= tk_ser tk ->
  wkeep ser (LWait b sig tks free :: calls) (LWait b sig (tk :: tks) free' :: calls).
Proof.
  intros H. split.
  - intros b' tk' _ (sig' & tks' & free0 & H1 & H2). apply elem_of_cons in H1 as [[= -> -> -> ->]|H1].
    + exists sig, (tk :: tks), free'. split; [constructor|now constructor].
    + exists sig', tks', free0. split; [now constructor|exact H2].
  - intros b' sig' tks' free0 tk' Hs H1 H2. apply elem_of_cons in H1 as [[= -> -> -> ->]|H1].
    + apply elem_of_cons in H2 as [->|H2]; [lia|]. exists b, sig, tks, free. split; [constructor|auto].
    + exists b', sig', tks', free0. split; [now constructor|auto].
Qed.
Lemma wkeep_sig ser calls b n tks free :
  wkeep ser (LWait b None tks free :: calls) (LWait b (Some n) tks free :: calls).
Proof.
  split.
  - intros b' tk' _ (sig' & tks' & free0 & H1 & H2). apply elem_of_cons in H1 as [[= -> -> -> ->]|H1].
    + exists (Some n), tks, free. split; [constructor|exact H2].
    + exists sig', tks', free0. split; [now constructor|exact H2].
  - intros b' sig' tks' free0 tk' Hs H1 H2. apply elem_of_cons in H1 as [[= -> -> -> ->]|H1].
    + exists b, None, tks, free. split; [constructor|]. split; [exact H2|discriminate].
    + exists b', sig', tks', free0. split; [now constructor|auto].
Qed.
Lemma wkeep_drop_head ser cl calls : (forall b sig tks free, cl <> LWait b sig tks free) -> wkeep ser (cl :: calls) calls.
Proof.
  intros H. split.
  - intros b tk _ (sig & tks & free & H1 & H2). apply elem_of_cons in H1 as [H1|H1]; [symmetry in H1; now apply H in H1|eauto].
  - intros b sig tks free tk _ H1 H2. exists b, sig, tks, free. split; [now constructor|auto].
Qed.
Lemma wkeep_cons_other ser cl calls : (forall b sig tks free, cl <> LWait b sig tks free) -> wkeep ser calls (cl :: calls).
Proof.
  intros H. split.
  - intros b tk _ (sig & tks & free & H1 & H2). exists sig, tks, free. split; [now constructor|exact H2].
  - intros b sig tks free tk _ H1 H2. apply elem_of_cons in H1 as [H1|H1]; [symmetry in H1; now apply H in H1|]. exists b, sig, tks, free. auto.
Qed.

Section steps.
Context (c : liconf) (Hc : conf_sizes c).
Notation spage := (li_spage c).
Notation lpage := (li_lpage c).
Notation ainv := (BuddyInv.Inv (li_base c) (li_heap c) spage lpage (2 ^ 64) DirLeft).
Notation dpg := (dpages spage lpage).
Notation core := (core c).
Notation live := (live c).
Notation bchain := (bchain c).
Notation node_ok := (node_ok c).
Implicit Types (us : list txn) (calls : list lcall) (objs : list lobj).

Lemma sp_lp : spage <= lpage. Proof. apply (co_pages _ Hc). Qed.

(** ** Chains of the buckets *)
Lemma bchain_elem objs b o : o ∈ bchain objs b <-> o ∈ objs /\ bkt c o = b.
Proof. unfold LiteInv.bchain. rewrite elem_of_list_filter. tauto. Qed.
Lemma bchain_app x y b : bchain (x ++ y) b = bchain x b ++ bchain y b.
Proof. apply filter_app. Qed.
Lemma bchain_cons_eq o y b : bkt c o = b -> bchain (o :: y) b = o :: bchain y b.
Proof. intros H. unfold LiteInv.bchain. rewrite filter_cons_True by exact H. reflexivity. Qed.
Lemma bchain_cons_ne o y b : bkt c o <> b -> bchain (o :: y) b = bchain y b.
Proof. intros H. unfold LiteInv.bchain. rewrite filter_cons_False by exact H. reflexivity. Qed.

Lemma split_chain x o y b l1 l2 : NoDup (x ++ o :: y) -> bchain (x ++ o :: y) b = l1 ++ o :: l2 -> 
  bkt c o = b /\ bchain x b = l1 /\ bchain y b = l2.
Proof.
  intros Hn E. assert (Hb : bkt c o = b).
  { assert (o ∈ bchain (x ++ o :: y) b) as H by (rewrite E; apply elem_of_app; right; constructor). now apply bchain_elem in H. }
  split; [exact Hb|]. pose proof E as E0. rewrite bchain_app, bchain_cons_eq in E by exact Hb.
  pose proof Hn as Hn0. apply NoDup_app in Hn as (_ & Hd & _). eapply split_unique; [| |exact E].
  - intros H. apply bchain_elem in H as [H _]. apply (Hd o H). constructor.
  - assert (Hn2 : NoDup (l1 ++ o :: l2)).
    { rewrite <- E0. apply NoDup_filter, Hn0. }
    intros H. apply NoDup_app in Hn2 as (_ & Hd2 & _). apply (Hd2 o H). constructor.
Qed.

Lemma first_facts {a F us n0 ov calls used objs leak} : core a F us n0 ov calls used objs leak ->
  forall l, (forall o, o ∈ l -> o ∈ objs) -> first_off l < 2 ^ 48 /\ first_off l mod 256 = 0.
Proof.
  intros HK [|o l] H; cbn [first_off]; [split; reflexivity|].
  destruct (off_facts c Hc HK o (H o ltac:(constructor))) as (_ & _ & H1 & H2). auto.
Qed.

(** ** Representation changes *)
Lemma live_perm objs calls calls' leak : calls ≡ₚ calls' -> live objs calls leak ≡ₚ live objs calls' leak.
Proof. intros H. unfold LiteInv.live. rewrite (bind_perm (cpages c) _ _ H). reflexivity. Qed.
Lemma ids_perm objs calls calls' : calls ≡ₚ calls' -> ids objs calls ≡ₚ ids objs calls'.
Proof. intros H. unfold ids. rewrite (bind_perm cid _ _ H). reflexivity. Qed.

Lemma owned_mono objs objs' calls calls' n pg : (forall o, o ∈ objs -> mpage o ∈ mpage <$> objs') ->
  (forall b m tks free, LWait b (Some m) tks free ∈ calls -> exists b' m' tks' free', LWait b' (Some m') tks' free' ∈ calls' /\ (m <= m')%nat /\ free ⊆ free') ->
  owned objs calls n pg -> owned objs' calls' n pg.
Proof.
  intros Ho Hw [(o & H & ->)|(b & m & tks & free & H & Hp & Hn)].
  - left. apply Ho in H. apply elem_of_list_fmap in H as (o' & E & H). exists o'. split; [exact H|exact E].
  - right. destruct (Hw _ _ _ _ H) as (b' & m' & tks' & free' & H' & Hm & Hs). exists b', m', tks', free'.
    split; [exact H'|]. split; [now apply Hs|lia].
Qed.
Lemma pend_mono objs objs' calls calls' n w : (forall pg, owned objs calls n pg -> owned objs' calls' n pg) ->
  pend_ok c objs calls n w -> pend_ok c objs' calls' n w.
Proof. intros H [Hh|(pg & Ho & Hd)]; [left; exact Hh|right]. exists pg. split; [now apply H|exact Hd]. Qed.

Lemma core_perm a F us n0 ov calls calls' used objs leak : calls ≡ₚ calls' ->
  core a F us n0 ov calls used objs leak -> core a F us n0 ov calls' used objs leak.
Proof.
  intros Hp HK. pose proof (core_old _ _ _ _ _ _ _ _ _ _ HK) as Hold. pose proof (wkeep_perm (ov_serial ov) _ _ Hp) as Hw.
  destruct HK as [[f K1] K2 K3 K4 K5 K6 K7 K8 K9 K10]. split; auto.
  - exists f. eapply inv_perm; [exact K1|]. now apply live_perm.
  - rewrite <- (ids_perm _ _ _ Hp). exact K2.
  - intros i Hi. apply K3. rewrite (ids_perm _ _ _ Hp). exact Hi.
  - intros cl Hcl. apply K5. rewrite Hp. exact Hcl.
  - intros j t w Hj Hw'. eapply pend_mono; [|eapply K8; eassumption]. intros pg. apply owned_mono.
    + intros o Ho. now apply elem_of_list_fmap_1.
    + intros b m tks free H. exists b, m, tks, free. rewrite <- Hp. auto.
  - intros b Hb. eapply head_keep; [now apply K9| | | |exact Hw|]; auto. apply ukeep_refl.
  - intros b. eapply chain_mono; [|apply K10]. intros o n _ H. eapply node_keep; [exact H| | | | |exact Hw|]; auto. apply ukeep_refl.
Qed.

Lemma rec_on_ext d d' off raw n : rec_on d off raw -> N.of_nat (length raw) <= n -> (forall x, off <= x < off + n -> d' x = d x) -> rec_on d' off raw.
Proof. intros H Hl He i v Hi. rewrite <- (H i v Hi). apply He. apply lookup_lt_Some in Hi. lia. Qed.

Lemma raw_len r raw p : req_ok spage lpage r -> create_record spage lpage r = Some (CrRecord raw p) -> N.of_nat (length raw) <= 2 ^ p /\ 39 <= N.of_nat (length raw).
Proof.
  intros [Hv Hb] E. destruct (C07_created_record_decodes spage lpage r sp_lp Hv Hb) as (raw' & p' & E' & H1 & _ & H2 & _).
  rewrite E in E'. injection E' as <- <-. split; [exact H2|]. rewrite H1. unfold record_bytes. lia.
Qed.

Lemma core_ext a F F' us n0 ov calls used objs leak : (forall x, F' x = F x) ->
  core a F us n0 ov calls used objs leak -> core a F' us n0 ov calls used objs leak.
Proof.
  intros He HK. pose proof (core_old _ _ _ _ _ _ _ _ _ _ HK) as Hold.
  destruct HK as [K1 K2 K3 K4 K5 K6 K7 K8 K9 K10]. split; auto.
  - intros o Ho. destruct (K4 o Ho) as [H1 H2]. split; [exact H1|]. eapply rstat_ext; [exact H2| |apply sp_lp|exact H1]. auto.
  - intros cl Hcl. specialize (K5 cl Hcl). destruct cl as [r raw p off|r raw p off|b sig tks free|]; cbn [call_ok] in *; auto.
    destruct K5 as (H1 & H2 & H3 & H4 & H5). split; [exact H1|]. split; [exact H2|]. split; [exact H3|]. split; [exact H4|].
    intros i v Hi. rewrite He. now apply H5.
  - intros b Hb. eapply head_keep; [now apply K9| | | |apply wkeep_refl|apply ukeep_refl]; auto.
  - intros b. eapply chain_mono; [|apply K10]. intros o n _ H. eapply node_keep; [exact H| | | | |apply wkeep_refl|apply ukeep_refl]; auto.
Qed.

(** ** The flusher *)
Lemma core_flush a F us n0 ov calls used objs leak k :
  core a F us n0 ov calls used objs leak -> core a F (drop k us) (n0 + k) ov calls used objs leak.
Proof.
  intros HK. pose proof (core_old _ _ _ _ _ _ _ _ _ _ HK) as Hold.
  destruct HK as [K1 K2 K3 K4 K5 K6 K7 K8 K9 K10]. split; auto.
  - intros j t w Hj Hw. rewrite lookup_drop in Hj. replace (n0 + k + j)%nat with (n0 + (k + j))%nat by lia. eapply K8; eassumption.
  - intros b Hb. eapply head_keep; [now apply K9| | | |apply wkeep_refl|apply ukeep_drop]; auto.
  - intros b. eapply chain_mono; [|apply K10]. intros o n _ H. eapply node_keep; [exact H| | | | |apply wkeep_refl|apply ukeep_drop]; auto.
Qed.

(** ** An empty transaction *)
Lemma core_open a F us n0 ov calls used objs leak b :
  core a F us n0 ov calls used objs leak ->
  core a F (us ++ [[]]) n0 ov (LWait b (Some (n0 + length us)%nat) [] [] :: calls) used objs leak.
Proof.
  intros HK. pose proof (core_old _ _ _ _ _ _ _ _ _ _ HK) as Hold.
  assert (Hw : wkeep (ov_serial ov) calls (LWait b (Some (n0 + length us)%nat) [] [] :: calls)).
  { apply wkeep_add. intros tk H. inversion H. }
  assert (Hu : forall addr len, ukeep n0 us n0 (us ++ [[]]) addr len).
  { intros addr len. apply ukeep_snoc. intros w x H. inversion H. }
  destruct HK as [[f K1] K2 K3 K4 K5 K6 K7 K8 K9 K10]. split; auto.
  - exists f. exact K1.
  - intros cl Hcl. apply elem_of_cons in Hcl as [->|Hcl]; [|now apply K5]. intros tk H. inversion H.
  - intros j t w Hj Hw'. apply lookup_app_Some in Hj as [Hj|[_ Hj]].
    + eapply pend_mono; [|eapply K8; eassumption]. intros pg. apply owned_mono.
      * intros o Ho. now apply elem_of_list_fmap_1.
      * intros b' m tks free H. exists b', m, tks, free. split; [now constructor|auto].
    + apply list_lookup_singleton_Some in Hj as [_ <-]. inversion Hw'.
  - intros b' Hb. eapply head_keep; [now apply K9| | | |exact Hw|apply Hu]; auto.
  - intros b'. eapply chain_mono; [|apply K10]. intros o n _ H. eapply node_keep; [exact H| | | | |exact Hw|apply Hu]; auto.
Qed.
Lemma core_open2 a F us n0 ov calls used objs leak b tks free :
  core a F us n0 ov (LWait b None tks free :: calls) used objs leak ->
  core a F (us ++ [[]]) n0 ov (LWait b (Some (n0 + length us)%nat) tks free :: calls) used objs leak.
Proof.
  intros HK. pose proof (core_old _ _ _ _ _ _ _ _ _ _ HK) as Hold.
  pose proof (wkeep_sig (ov_serial ov) calls b (n0 + length us)%nat tks free) as Hw.
  assert (Hu : forall addr len, ukeep n0 us n0 (us ++ [[]]) addr len).
  { intros addr len. apply ukeep_snoc. intros w x H. inversion H. }
  destruct HK as [[f K1] K2 K3 K4 K5 K6 K7 K8 K9 K10]. split; auto.
  - exists f. exact K1.
  - intros cl Hcl. apply elem_of_cons in Hcl as [->|Hcl]; [|apply K5; now constructor].
    apply (K5 (LWait b None tks free)). constructor.
  - intros j t w Hj Hw'. apply lookup_app_Some in Hj as [Hj|[_ Hj]].
    + eapply pend_mono; [|eapply K8; eassumption]. intros pg. apply owned_mono.
      * intros o Ho. now apply elem_of_list_fmap_1.
      * intros b' m tks' free' H. apply elem_of_cons in H as [H|H]; [discriminate|]. exists b', m, tks', free'. split; [now constructor|auto].
    + apply list_lookup_singleton_Some in Hj as [_ <-]. inversion Hw'.
  - intros b' Hb. eapply head_keep; [now apply K9| | | |exact Hw|apply Hu]; auto.
  - intros b'. eapply chain_mono; [|apply K10]. intros o n _ H. eapply node_keep; [exact H| | | | |exact Hw|apply Hu]; auto.
Qed.

(** ** Changes of the device elsewhere *)
Lemma core_frame a F F' us n0 ov calls used objs leak :
  (forall x, x < li_base c -> F' x = F x) ->
  (forall o x, o ∈ objs -> in_page (mpage o) x -> F' x = F x) ->
  (forall r raw p off x, LRec r raw p off ∈ calls -> in_page (off, p) x -> F' x = F x) ->
  core a F us n0 ov calls used objs leak -> core a F' us n0 ov calls used objs leak.
Proof.
  intros E1 E2 E3 HK. pose proof (core_old _ _ _ _ _ _ _ _ _ _ HK) as Hold.
  assert (Hpow : forall o, o ∈ objs -> 256 <= 2 ^ lo_pow2 o) by (intros o Ho; eapply (page_pow c Hc HK); exact Ho).
  destruct HK as [K1 K2 K3 K4 K5 K6 K7 K8 K9 K10]. split; auto.
  - intros o Ho. destruct (K4 o Ho) as [H1 H2]. split; [exact H1|]. eapply rstat_ext; [exact H2| |apply sp_lp|exact H1].
    intros x _ Hx. apply (E2 o); [exact Ho|]. unfold in_page, mpage. cbn [fst snd]. lia.
  - intros cl Hcl. specialize (K5 cl Hcl). destruct cl as [r raw p off|r raw p off|b sig tks free|]; cbn [call_ok] in *; auto.
    destruct K5 as (H1 & H2 & H3 & H4 & H5). split; [exact H1|]. split; [exact H2|]. split; [exact H3|]. split; [exact H4|].
    eapply rec_on_ext; [exact H5|apply (raw_len r raw p H1 H2)|]. intros x Hx. eapply E3; [exact Hcl|]. exact Hx.
  - intros b Hb. eapply head_keep; [now apply K9| | | |apply wkeep_refl|apply ukeep_refl]; auto.
    intros x Hx. apply E1. eapply heads_low; eassumption.
  - intros b. eapply chain_mono; [|apply K10]. intros o n Ho H. apply bchain_elem in Ho as [Ho _].
    eapply node_keep; [exact H| | | | |apply wkeep_refl|apply ukeep_refl]; auto.
    intros x Hx. apply (E2 o x Ho). specialize (Hpow o Ho). unfold in_page, mpage. cbn [fst snd]. lia.
Qed.

(** ** Taking an object out of its chain *)
Definition all_pages (o : lobj) : list page := dpg (lo_req o) ++ [mpage o].
Lemma live_move x o y calls leak b sig tks :
  live (x ++ o :: y) calls leak ≡ₚ live (x ++ y) (LWait b sig tks (all_pages o) :: calls) leak.
Proof.
  unfold LiteInv.live, all_pages. cbn [cpages]. rewrite bind_cons. cbn [cpages]. rewrite !fmap_app, !fmap_cons, !bind_app, !bind_cons.
  perm_solve.
Qed.
Lemma ids_move x o y calls : ids (x ++ o :: y) calls ≡ₚ lo_id o :: ids (x ++ y) calls.
Proof. unfold ids. rewrite !fmap_app, !fmap_cons. perm_solve. Qed.

Lemma call_ok_serial F F' ov ov' cl : call_ok c F ov cl ->
  (forall r raw p off, cl = LRec r raw p off -> rec_on F off raw -> rec_on F' off raw) ->
  (forall r raw p off, cl = LNew r raw p off \/ cl = LRec r raw p off ->
     ov_states ov' !! cr_id r = ov_states ov !! cr_id r /\ ov_nexts ov' !! cr_id r = ov_nexts ov !! cr_id r) ->
  ov_serial ov <= ov_serial ov' -> call_ok c F' ov' cl.
Proof.
  intros H HF Ho Hs. destruct cl as [r raw p off|r raw p off|b sig tks free|]; cbn [call_ok] in *; auto.
  - destruct (Ho r raw p off (or_introl eq_refl)) as [-> ->]. exact H.
  - destruct (Ho r raw p off (or_intror eq_refl)) as [-> ->]. destruct H as (H1 & H2 & H3 & H4 & H5).
    split; [exact H1|]. split; [exact H2|]. split; [exact H3|]. split; [exact H4|]. eapply HF; [reflexivity|exact H5].
  - intros tk Ht. specialize (H tk Ht). lia.
Qed.

Lemma core_unlink_head a F us n0 ov calls used objs leak x o y b l2 nn ov' t tk :
  core a F us n0 ov calls used objs leak -> objs = x ++ o :: y -> bchain objs b = o :: l2 -> b < 2 ^ li_bpow c ->
  nn = first_off l2 -> update_head ov [] b nn = (ov', t, tk) ->
  core a (apply_writes F t) (us ++ [t]) n0 ov' (LWait b (Some (n0 + length us)%nat) [tk] (all_pages o) :: calls) used (x ++ y) leak.
Proof.
  intros HK -> Eb Hb Enn Eu. pose proof (core_old _ _ _ _ _ _ _ _ _ _ HK) as Hold.
  pose proof (objs_nodup c HK) as Hnd.
  destruct (split_chain x o y b [] l2 Hnd Eb) as (Hbo & Ex & Ey).
  assert (Hsub : forall o', o' ∈ l2 -> o' ∈ x ++ o :: y).
  { intros o' Ho'. rewrite <- Ey in Ho'. apply bchain_elem in Ho' as [H _]. rewrite elem_of_app, elem_of_cons. auto. }
  destruct (first_facts HK l2 Hsub) as [Hn1 Hn2]. rewrite <- Enn in Hn1, Hn2. destruct (head_value nn Hn1 Hn2) as [Hv1 Hv2].
  unfold update_head, ov_set_head in Eu. injection Eu as <- <- <-.
  change (txn_write [] (bucket_off b) (be_bytes 5 (N.shiftr nn MIN_PAGE_SIZE_POW2))) with [(bucket_off b, be_bytes 5 (N.shiftr nn 8))].
  set (w := (bucket_off b, be_bytes 5 (N.shiftr nn 8))).
  set (F' := apply_writes F [w]).
  assert (HF : forall z, ~ (bucket_off b <= z < bucket_off b + 5) -> F' z = F z).
  { intros z Hz. unfold F', apply_writes. cbn [fold_left]. apply dev_write_other. unfold touches. cbn [fst snd w]. rewrite be_bytes_length. exact Hz. }
  assert (HFhi : forall z, li_base c <= z -> F' z = F z).
  { intros z Hz. apply HF. intros H. apply (heads_low c Hc b z Hb) in H. lia. }
  set (cl := LWait b (Some (n0 + length us)%nat) [TkHead b (ov_serial ov)] (all_pages o)).
  assert (Hw : wkeep (ov_serial ov) calls (cl :: calls)).
  { apply wkeep_add. intros tk Ht. apply elem_of_list_singleton in Ht as ->. cbn. lia. }
  assert (Hu : forall addr len, (addr + len <= bucket_off b \/ bucket_off b + 5 <= addr) -> ukeep n0 us n0 (us ++ [[w]]) addr len).
  { intros addr len H. apply ukeep_snoc. intros w' z Hw' Ht Hz. apply elem_of_list_singleton in Hw' as ->.
    unfold touches, w in Ht. cbn [fst snd] in Ht. rewrite be_bytes_length in Ht. lia. }
  assert (Hhi : forall addr len, li_base c <= addr -> ukeep n0 us n0 (us ++ [[w]]) addr len).
  { intros addr len H. apply Hu. right. pose proof (heads_low c Hc b (bucket_off b + 4) Hb ltac:(lia)). lia. }
  assert (Hpg : forall o', o' ∈ x ++ y -> li_base c <= lo_off o').
  { intros o' Ho'. eapply (off_facts c Hc HK). rewrite elem_of_app in *. rewrite elem_of_cons. tauto. }
  assert (Hrec : forall cl0, cl0 ∈ calls -> forall r raw p off, cl0 = LRec r raw p off -> li_base c <= off).
  { intros cl0 Hcl0 r raw p off ->.
    pose proof (core_page c Hc HK (off, p)) as G. apply G. eapply in_live_c; [exact Hcl0|]. cbn [cpages]. apply elem_of_app. right. constructor. }
  destruct HK as [[f K1] K2 K3 K4 K5 K6 K7 K8 K9 K10].
  split.
  - exists f. eapply inv_perm; [exact K1|]. apply live_move.
  - rewrite ids_move in K2. apply NoDup_cons in K2 as [_ K2]. exact K2.
  - intros i Hi. apply K3. rewrite ids_move. right. exact Hi.
  - intros o' Ho'. destruct (K4 o') as [H1 H2]; [rewrite elem_of_app in *; rewrite elem_of_cons; tauto|]. split; [exact H1|].
    eapply rstat_ext; [exact H2| |apply sp_lp|exact H1]. intros z _ _. apply HFhi. specialize (Hpg o' Ho'). lia.
  - intros cl' Hcl. apply elem_of_cons in Hcl as [->|Hcl].
    + intros tk Ht. apply elem_of_list_singleton in Ht as ->. cbn. lia.
    + eapply call_ok_serial; [now apply K5| | |cbn; lia].
      * intros r raw p off -> Hr i v Hi. rewrite <- (Hr i v Hi). apply HFhi.
        pose proof (Hrec _ Hcl r raw p off eq_refl). lia.
      * intros. split; reflexivity.
  - exact K6.
  - exact K7.
  - intros j t w' Hj Hw'. apply lookup_app_Some in Hj as [Hj|[_ Hj]].
    + eapply pend_mono; [|eapply K8; eassumption]. intros pg [(o' & Ho' & ->)|Hr].
      * rewrite elem_of_app, elem_of_cons in Ho'. assert (Ho2 : o' = o \/ o' ∈ x ++ y) by (rewrite elem_of_app; tauto).
        destruct Ho2 as [->|Ho2].
        { right. exists b, (n0 + length us)%nat, [TkHead b (ov_serial ov)], (all_pages o). split; [constructor|].
          split; [unfold all_pages; apply elem_of_app; right; constructor|]. apply lookup_lt_Some in Hj. unfold txn in *. lia. }
        { left. exists o'. split; [exact Ho2|reflexivity]. }
      * right. destruct Hr as (b' & m & tks & free & Hl & Hf). exists b', m, tks, free. split; [now constructor|exact Hf].
    + apply list_lookup_singleton_Some in Hj as [_ <-]. apply elem_of_list_singleton in Hw' as ->.
      left. exists b. split; [exact Hb|]. split; [reflexivity|]. cbn [snd w]. apply be_bytes_length.
  - intros b' Hb'. destruct (N.eq_dec b' b) as [->|Hne].
    + rewrite bchain_app, Ex, Ey. cbn [app]. split.
      * unfold F', apply_writes. cbn [fold_left fst snd w]. rewrite read_be_write by (try reflexivity; exact Hv1). rewrite <- Enn. exact Hv2.
      * eapply lok_set with (sn := ov_serial ov) (n := (n0 + length us)%nat) (tks := [TkHead b (ov_serial ov)]).
        -- cbn [ov_heads]. rewrite lookup_insert, Enn. reflexivity.
        -- constructor.
        -- constructor.
        -- intros b' sig tks free Hl Ht. apply elem_of_cons in Hl as [[= -> -> -> ->]|Hl]; [reflexivity|].
           specialize (Hold _ _ _ _ _ Hl Ht). cbn in Hold. lia.
        -- rewrite app_length. cbn. lia.
    + assert (bchain (x ++ y) b' = bchain (x ++ o :: y) b') as ->.
      { rewrite !bchain_app, bchain_cons_ne by congruence. reflexivity. }
      eapply head_keep; [now apply K9| | |exact Hold|exact Hw|].
      * intros z Hz. apply HF. unfold bucket_off in *. lia.
      * cbn [ov_heads]. apply lookup_insert_ne. congruence.
      * apply Hu. unfold bucket_off. lia.
  - intros b'. assert (Hch : chain (node_ok F us n0 ov calls) (bchain (x ++ y) b') 0).
    { destruct (N.eq_dec b' b) as [->|Hne].
      - specialize (K10 b). rewrite Eb in K10. destruct K10 as [_ K10]. rewrite bchain_app, Ex, Ey. exact K10.
      - specialize (K10 b'). rewrite bchain_app, bchain_cons_ne in K10 by congruence. rewrite bchain_app. exact K10. }
    eapply chain_mono; [|exact Hch]. intros o' n Ho' Hnode. apply bchain_elem in Ho' as [Ho' _]. specialize (Hpg o' Ho').
    eapply node_keep; [exact Hnode| | | |exact Hold|exact Hw|].
    + intros z Hz. apply HFhi. lia.
    + reflexivity.
    + reflexivity.
    + apply Hhi. exact Hpg.
Qed.

Lemma core_call_page {a F us n0 ov calls used objs leak} : core a F us n0 ov calls used objs leak ->
  forall r raw p off, LNew r raw p off ∈ calls \/ LRec r raw p off ∈ calls ->
  (off, p) ∈ live objs calls leak /\ cr_id r ∈ calls ≫= cid /\
  forall o z, o ∈ objs -> in_page (off, p) z -> ~ in_page (mpage o) z.
Proof.
  intros HK r raw p off H.
  assert (H2 : exists cl, cl ∈ calls /\ creating cl /\ cr_id r ∈ cid cl /\ (off, p) ∈ cpages c cl).
  { destruct H as [H|H]; eexists; (split; [exact H|]); (split; [exact I|]); (split; [constructor|]); cbn [cpages]; apply elem_of_app; right; constructor. }
  destruct H2 as (cl & Hcl & Hcr & Hi & Hp). split; [eapply in_live_c; eassumption|]. split; [apply elem_of_list_bind; eauto|].
  intros o z Ho Hz Hzo.
  pose proof (core_share c HK (off, p) (mpage o) z (in_live_c _ _ _ _ _ _ Hcl Hp) (in_live_m _ _ _ _ _ Ho) Hz Hzo) as E.
  pose proof (core_nodup c HK) as Hn. unfold LiteInv.live in Hn. apply NoDup_app in Hn as (_ & Hd & _).
  apply (Hd (mpage o)); [now apply elem_of_list_fmap_1|]. rewrite !elem_of_app. right. left. apply elem_of_list_bind. rewrite <- E. eauto.
Qed.
Lemma fresh_id {a F us n0 ov calls used objs leak} : core a F us n0 ov calls used objs leak ->
  forall o i, o ∈ objs -> i ∈ calls ≫= cid -> lo_id o <> i.
Proof.
  intros HK o i Ho Hi E. pose proof (k_ids _ _ _ _ _ _ _ _ _ _ HK) as Hn. unfold ids in Hn. apply NoDup_app in Hn as (_ & Hd & _).
  apply (Hd (lo_id o)); [|rewrite E; exact Hi]. apply elem_of_list_fmap. eauto.
Qed.

(** With a previous object: the link in the previous object is changed on the
    device at once. *)
Lemma core_unlink_inner a F F' us n0 ov calls used objs leak x o y b l0 q l2 nn ov' tk :
  core a F us n0 ov calls used objs leak -> objs = x ++ o :: y -> bchain objs b = (l0 ++ [q]) ++ o :: l2 ->
  (forall sig tks free, LWait b sig tks free ∈ calls -> False) ->
  nn = first_off l2 -> ov_set_next ov (lo_id o) nn = (ov', tk) ->
  (forall z, F' z = dev_write F (lo_off q + off_next) (be_bytes 6 nn) z) ->
  (forall z, lo_off q + off_next <= z < lo_off q + off_next + 6 -> untouched us z) /\
  core a F' us n0 ov' (LWait b None [tk] (all_pages o) :: calls) used (x ++ y) leak.
Proof.
  intros HK -> Eb Hq Enn Eu HF'. pose proof (core_old _ _ _ _ _ _ _ _ _ _ HK) as Hold.
  pose proof (objs_nodup c HK) as Hnd.
  destruct (split_chain x o y b (l0 ++ [q]) l2 Hnd Eb) as (Hbo & Ex & Ey).
  assert (Hqo : q ∈ x ++ o :: y /\ bkt c q = b).
  { apply (bchain_elem (x ++ o :: y) b). rewrite Eb, !elem_of_app. left. right. constructor. }
  destruct Hqo as [Hqo Hqb].
  assert (Hoo : o ∈ x ++ o :: y) by (rewrite elem_of_app, elem_of_cons; auto).
  assert (Hqx : q ∈ x).
  { assert (q ∈ bchain x b) as H by (rewrite Ex; apply elem_of_app; right; constructor). now apply bchain_elem in H. }
  assert (Hqne : q <> o).
  { intros ->. pose proof Hnd as Hnd2. apply NoDup_app in Hnd2 as (_ & Hd & _). apply (Hd o Hqx). constructor. }
  assert (Hsub : forall o', o' ∈ l2 -> o' ∈ x ++ o :: y).
  { intros o' Ho'. rewrite <- Ey in Ho'. apply bchain_elem in Ho' as [H _]. rewrite elem_of_app, elem_of_cons. auto. }
  destruct (first_facts HK l2 Hsub) as [Hn1 _]. rewrite <- Enn in Hn1.
  pose proof (k_chain _ _ _ _ _ _ _ _ _ _ HK b) as Hchb. rewrite Eb in Hchb.
  pose proof Hchb as Hchb2. apply chain_app in Hchb2 as [Hc1 [Hno Hc2]]. apply chain_app in Hc1 as [Hc0 [Hnq _]]. cbn [first_or] in *.
  assert (Hqlo : ov_nexts ov !! lo_id q = None /\ forall z, lo_off q + off_next <= z < lo_off q + off_next + 6 -> untouched us z).
  { apply (lok_quiet calls n0 us (ov_nexts ov) (lo_id q) (TkNext (lo_id q)) (bkt c q) (lo_off q + off_next) 6 _ (nd_lnext _ _ _ _ _ _ _ _ Hnq)). rewrite Hqb. exact Hq. }
  destruct Hqlo as [Hqnone Hqunt].
  split; [exact Hqunt|].
  assert (Hoquiet : forall z, (z = lo_off o \/ z = lo_off o + 2) -> untouched us z).
  { intros z Hz. rewrite <- Hbo in Hq.
    pose proof (proj2 (lok_quiet _ _ _ _ _ _ _ _ _ _ (nd_lnext _ _ _ _ _ _ _ _ Hno) Hq)) as G1.
    pose proof (proj2 (lok_quiet _ _ _ _ _ _ _ _ _ _ (nd_lstate _ _ _ _ _ _ _ _ Hno) Hq)) as G2.
    destruct Hz as [->| ->]; [apply G2|apply G1]; offs; lia. }
  assert (Hqid : lo_id q <> lo_id o). { intros E. apply Hqne. eapply (same_id c HK); eassumption. }
  unfold ov_set_next in Eu. injection Eu as <- <-.
  assert (Hqp : forall z, lo_off q + off_next <= z < lo_off q + off_next + 6 -> in_page (mpage q) z /\ li_base c <= z).
  { intros z Hz. pose proof (page_pow c Hc HK q Hqo). pose proof (off_facts c Hc HK q Hqo) as (? & _).
    unfold in_page, mpage. cbn [fst snd]. offs. lia. }
  assert (HF : forall z, ~ (lo_off q + off_next <= z < lo_off q + off_next + 6) -> F' z = F z).
  { intros z Hz. rewrite HF'. apply dev_write_other. unfold touches. cbn [fst snd]. rewrite be_bytes_length. exact Hz. }
  set (cl := LWait b None [TkNext (lo_id o) (ov_serial ov)] (all_pages o)).
  assert (Hw : wkeep (ov_serial ov) calls (cl :: calls)).
  { apply wkeep_add. intros tk Ht. apply elem_of_list_singleton in Ht as ->. cbn. lia. }
  assert (Hxy : forall o', o' ∈ x ++ y -> o' ∈ x ++ o :: y /\ o' <> o).
  { intros o' Ho'. split; [rewrite elem_of_app in *; rewrite elem_of_cons; tauto|]. intros ->.
    apply NoDup_app in Hnd as (_ & Hd & Hn). apply elem_of_app in Ho' as [H|H]; [apply (Hd o H); constructor|].
    apply NoDup_cons in Hn as [Hn _]. exact (Hn H). }
  assert (Hother : forall o', o' ∈ x ++ y -> o' <> q -> forall z, in_page (mpage o') z -> F' z = F z).
  { intros o' Ho' Hne z Hz. apply HF. intros Hz2. apply Hne. destruct (Hqp z Hz2) as [Hz3 _].
    eapply (same_page c HK); [apply Hxy, Ho'|exact Hqo|exact Hz|exact Hz3]. }
  assert (Hidne : forall o', o' ∈ x ++ y -> lo_id o' <> lo_id o).
  { intros o' Ho' E. destruct (Hxy o' Ho') as [H1 H2]. apply H2. eapply (same_id c HK); eassumption. }
  pose proof (fun o' => page_pow c Hc HK o') as Hpow.
  pose proof (core_call_page HK) as Hcp. pose proof (fresh_id HK) as Hfi.
  pose proof (k_used _ _ _ _ _ _ _ _ _ _ HK (lo_id o)) as Hou.
  destruct HK as [[f K1] K2 K3 K4 K5 K6 K7 K8 K9 K10].
  split.
  - exists f. eapply inv_perm; [exact K1|]. apply live_move.
  - rewrite ids_move in K2. apply NoDup_cons in K2 as [_ K2]. exact K2.
  - intros i Hi. apply K3. rewrite ids_move. right. exact Hi.
  - intros o' Ho'. destruct (K4 o') as [H1 H2]; [apply Hxy, Ho'|]. split; [exact H1|].
    eapply rstat_ext; [exact H2| |apply sp_lp|exact H1]. intros z Hz Hzp.
    destruct (decide (lo_off q + off_next <= lo_off o' + z < lo_off q + off_next + 6)) as [Hin|Hout]; [|now apply HF].
    exfalso. destruct (Hqp _ Hin) as [Hz3 _].
    assert (o' = q) as ->.
    { eapply (same_page c (Build_core _ _ _ _ _ _ _ _ _ _ (ex_intro _ f K1) K2 K3 K4 K5 K6 K7 K8 K9 K10)); [apply Hxy, Ho'|exact Hqo| |exact Hz3].
      unfold in_page, mpage. cbn [fst snd]. lia. }
    unfold static_off in Hz. offs. lia.
  - intros cl' Hcl. apply elem_of_cons in Hcl as [->|Hcl].
    + intros tk Ht. apply elem_of_list_singleton in Ht as ->. cbn. lia.
    + eapply call_ok_serial; [now apply K5| | |cbn; lia].
      * intros r raw p off -> Hr. pose proof (K5 _ Hcl) as (G1 & G2 & _). eapply rec_on_ext; [exact Hr|apply (raw_len r raw p G1 G2)|].
        intros z Hz. apply HF. intros Hz2. destruct (Hqp z Hz2) as [Hz3 _].
        destruct (Hcp r raw p off (or_intror Hcl)) as (_ & _ & Hdis). apply (Hdis q z Hqo); [exact Hz|exact Hz3].
      * intros r raw p off Hr. split; [reflexivity|]. cbn [ov_nexts]. apply lookup_insert_ne.
        apply (Hfi o (cr_id r) Hoo). apply (Hcp r raw p off). destruct Hr as [->| ->]; auto.
  - exact K6.
  - intros i e. cbn [ov_nexts]. rewrite lookup_insert_Some. intros [[<- _]|[_ H]]; [|eapply K7, H].
    apply Hou. unfold ids. apply elem_of_app. left. apply elem_of_list_fmap. eauto.
  - intros j t w' Hj Hw'. destruct (K8 j t w' Hj Hw') as [H|(pg & How & Hd)]; [left; exact H|]. right. exists pg. split; [|exact Hd].
    destruct How as [(o' & Ho' & ->)|Hr].
    + assert (Ho2 : o' = o \/ o' ∈ x ++ y) by (rewrite elem_of_app, elem_of_cons in *; tauto).
      destruct Ho2 as [->|Ho2]; [exfalso|left; eauto].
      destruct Hd as [[Hd1 Hd2]|[Hd1 Hd2]]; cbn [mpage fst] in Hd1.
      * apply (Hoquiet (lo_off o) ltac:(auto) t w'); [eapply elem_of_list_lookup_2, Hj|exact Hw'|].
        unfold touches. rewrite Hd1, Hd2. offs. lia.
      * apply (Hoquiet (lo_off o + 2) ltac:(auto) t w'); [eapply elem_of_list_lookup_2, Hj|exact Hw'|].
        unfold touches. rewrite Hd1, Hd2. offs. lia.
    + right. destruct Hr as (b' & m & tks & free & Hl & Hf). exists b', m, tks, free. split; [now constructor|exact Hf].
  - intros b' Hb'.
    assert (first_off (bchain (x ++ y) b') = first_off (bchain (x ++ o :: y) b')) as ->.
    { destruct (N.eq_dec b' b) as [->|Hne].
      - rewrite Eb, bchain_app, Ex. destruct l0; reflexivity.
      - rewrite !bchain_app, bchain_cons_ne by congruence. reflexivity. }
    eapply head_keep; [now apply K9| |reflexivity|exact Hold|exact Hw|apply ukeep_refl].
    intros z Hz. apply HF. intros Hz2. destruct (Hqp z Hz2). apply (heads_low c Hc b' z Hb') in Hz. lia.
  - intros b'.
    assert (Hkeep : forall o' n, o' ∈ x ++ y -> o' <> q -> node_ok F us n0 ov calls o' n ->
      node_ok F' us n0 {| ov_serial := ov_serial ov + 1; ov_heads := ov_heads ov; ov_states := ov_states ov;
                          ov_nexts := <[lo_id o := (ov_serial ov, nn)]> (ov_nexts ov) |} (cl :: calls) o' n).
    { intros o' n Ho' Hne Hnode. eapply node_keep; [exact Hnode| | | |exact Hold|exact Hw|apply ukeep_refl].
      - intros z Hz. apply (Hother o' Ho' Hne). specialize (Hpow o' (proj1 (Hxy o' Ho'))). unfold in_page, mpage. cbn [fst snd]. lia.
      - cbn [ov_nexts]. apply lookup_insert_ne. intros E. symmetry in E. exact (Hidne o' Ho' E).
      - reflexivity. }
    destruct (N.eq_dec b' b) as [->|Hne].
    2: { specialize (K10 b'). rewrite bchain_app, bchain_cons_ne in K10 by congruence. rewrite bchain_app.
         eapply chain_mono; [|exact K10]. intros o' n Ho'. rewrite <- bchain_app in Ho'. apply bchain_elem in Ho' as [Ho' Hb'].
         apply Hkeep; [exact Ho'|]. intros ->. congruence. }
    assert (HndC : NoDup (l0 ++ [q] ++ l2)).
    { assert (NoDup (bchain (x ++ y) b)) as H.
      { apply NoDup_filter. apply NoDup_app in Hnd as (H1 & H2 & H3). apply NoDup_cons in H3 as [_ H3]. apply NoDup_app. split; [exact H1|].
        split; [|exact H3]. intros e He Hey. apply (H2 e He). now constructor. }
      rewrite bchain_app, Ex, Ey, <- app_assoc in H. exact H. }
    assert (Hin : forall o', o' ∈ l0 \/ o' ∈ l2 -> o' ∈ x ++ y /\ o' <> q).
    { intros o' Ho'. split.
      - apply (bchain_elem (x ++ y) b). rewrite bchain_app, Ex, Ey, !elem_of_app. tauto.
      - intros ->. apply NoDup_app in HndC as (_ & Hd1 & HndC). destruct Ho' as [H|H]; [apply (Hd1 q H); apply elem_of_app; left; constructor|].
        apply NoDup_app in HndC as (_ & Hd2 & _). apply (Hd2 q); [constructor|exact H]. }
    rewrite bchain_app, Ex, Ey. apply chain_app. split.
    + apply chain_app. split.
      * cbn [first_or]. eapply chain_mono; [|exact Hc0]. intros o' n Ho'. destruct (Hin o' (or_introl Ho')). now apply Hkeep.
      * cbn [chain first_or]. split; [|exact I]. rewrite first_or_0, <- Enn. destruct Hnq as [N1 N2 N3 N4 N5]. split.
        -- unfold read_be. erewrite dev_read_same with (d := dev_write F (lo_off q + off_next) (be_bytes 6 nn)) by (intros; apply HF').
           apply read_be_write; [reflexivity|exact Hn1].
        -- unfold lok. cbn [ov_nexts]. rewrite lookup_insert_ne by congruence. rewrite Hqnone. exact Hqunt.
        -- rewrite <- N3. unfold read_be. f_equal. apply dev_read_same. intros z Hz. apply HF. offs. lia.
        -- eapply lok_keep; [exact N4|reflexivity|exact Hold|exact Hw|apply ukeep_refl].
        -- exact N5.
    + eapply chain_mono; [|exact Hc2]. intros o' n Ho'. destruct (Hin o' (or_intror Ho')). now apply Hkeep.
Qed.
End steps.
