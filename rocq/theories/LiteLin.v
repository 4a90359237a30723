(** Lookups find what the abstract store holds. *)
From Coq Require Import ZifyBool ZifyNat ZifyN.
From stdpp Require Import base numbers list_numbers option gmap sets list.
From Verif Require Import Util Bytes BuddyModel BuddySpec BuddyProofs BuddyInv LayoutModel LayoutProofs MetaModel MetaSpec MetaProofs PropertiesMeta.
From Verif Require Import PageIOModel PageIOSpec PageIOProofs DirectModel DirectBase.
From Verif Require Import JournalModel JournalSpec JournalProofs LiteModel LiteSpec LiteJournal LiteNode LiteRecord LiteInv LiteSteps LiteSteps2.
Open Scope N_scope.
Ltac Zify.zify_post_hook ::= idtac.

Section lin.
Context (c : liconf) (Hc : conf_sizes c).
Notation spage := (li_spage c).
Notation lpage := (li_lpage c).
Notation dpg := (dpages spage lpage).
Notation core := (core c).
Notation live := (live c).
Notation bchain := (bchain c).
Notation node_ok := (node_ok c).
Implicit Types (us : list txn) (calls : list lcall) (objs : list lobj) (A F : device).

Definition linv (s : lstate) A us objs (leak : list page) : Prop :=
  jview (li_jc c) (ls_j s) A us /\
  core (ls_alloc s) (flushed A us) us (length (js_acked (ls_j s))) (ls_ov s) (ls_calls s) (ls_used s) objs leak.

Section view.
Context {s : lstate} {A : device} {us : list txn} {objs : list lobj} {leak : list page} (HL : linv s A us objs leak).
Let F := flushed A us.
Let d := ls_dev s.
Lemma lin_core : core (ls_alloc s) (flushed A us) us (length (js_acked (ls_j s))) (ls_ov s) (ls_calls s) (ls_used s) objs leak.
Proof. apply HL. Qed.

Lemma lin_dev x : outside_journal (li_jc c) x -> untouched us x -> ls_dev s x = flushed A us x.
Proof. intros Ho Hu. unfold ls_dev. destruct (jview_dev _ _ _ _ _ (proj1 HL) Ho Hu) as [-> ->]. reflexivity. Qed.

Lemma lin_head b : b < 2 ^ li_bpow c -> get_head (now s 0) (now s 1) b = first_off (bchain objs b).
Proof.
  intros Hb. destruct (k_head _ _ _ _ _ _ _ _ _ _ lin_core b Hb) as [H1 H2]. unfold get_head, now. cbn [fst snd].
  unfold lok in H2. destruct (ov_heads (ls_ov s) !! b) as [[sn v]|]; [apply H2|].
  rewrite <- H1. unfold read_be. do 2 f_equal. apply dev_read_same. intros x Hx. apply lin_dev; [|now apply H2].
  eapply heads_low; eassumption.
Qed.

Lemma lin_rstat o : o ∈ objs -> rstat spage lpage (ls_dev s) o.
Proof.
  intros Ho. destruct (k_obj _ _ _ _ _ _ _ _ _ _ lin_core o Ho) as [H1 H2].
  eapply rstat_ext; [exact H2| |apply (sp_lp c Hc)|exact H1]. intros x Hs Hx.
  pose proof (off_facts c Hc lin_core o Ho) as (Hb & _). apply lin_dev; [apply (heap_outside c Hc); lia|].
  eapply (static_untouched c Hc lin_core); eassumption.
Qed.
Lemma lin_decodes o : o ∈ objs -> rec_fields (ls_dev s) o /\
  record_obj spage lpage (dev_read (ls_dev s) (lo_off o) (2 ^ lo_pow2 o)) = Some (obj_of_req (lo_req o)).
Proof.
  intros Ho. destruct (k_obj _ _ _ _ _ _ _ _ _ _ lin_core o Ho) as [H1 _].
  destruct (rstat_decodes spage lpage (ls_dev s) o (sp_lp c Hc) H1 (lin_rstat o Ho)) as (_ & H2 & H3). auto.
Qed.

Lemma lin_seen l : forall n, (forall o, o ∈ l -> o ∈ objs) ->
  chain (node_ok F us (length (js_acked (ls_j s))) (ls_ov s) (ls_calls s)) l 0 -> seen (now s) n l.
Proof.
  induction l as [|o l IH]; intros n Hin Hch; cbn [seen]; [exact I|]. cbn [chain] in Hch. destruct Hch as [Hn Hch].
  split; [|apply IH; [intros o' Ho'; apply Hin; now constructor|exact Hch]].
  assert (Ho : o ∈ objs) by (apply Hin; constructor). rewrite first_or_0 in Hn.
  pose proof (off_facts c Hc lin_core o Ho) as (Hb & Hnz & _). pose proof (page_pow c Hc lin_core o Ho) as Hpow.
  split; [exact Hnz|]. unfold now. cbn [fst snd]. destruct Hn as [N1 N2 N3 N4 N5].
  destruct (lin_decodes o Ho) as [Hrf _].
  apply node_read; [exact Hrf|exact Hrf|exact N5| |].
  - unfold lok in N2. destruct (ov_nexts (ls_ov s) !! lo_id o) as [[sn v]|]; [apply N2|]. rewrite <- N1. unfold read_be. f_equal.
    apply dev_read_same. intros x Hx. apply lin_dev; [apply (heap_outside c Hc); lia|now apply N2].
  - unfold lok in N4. destruct (ov_states (ls_ov s) !! lo_id o) as [[sn v]|]; [apply N4|]. rewrite <- N3. unfold read_be. f_equal.
    apply dev_read_same. intros x Hx. apply lin_dev; [apply (heap_outside c Hc); lia|now apply N4].
Qed.
Lemma lin_bucket b n : seen (now s) n (bchain objs b).
Proof. apply lin_seen; [intros o Ho; now apply bchain_elem in Ho|apply (k_chain _ _ _ _ _ _ _ _ _ _ lin_core)]. Qed.

Lemma lin_find key fuel st oid :
  match find_object c (now s) key fuel st oid with
  | WkFuel => (fuel < length (bchain objs (bucket_of c key)))%nat
  | WkPanic => False
  | WkDone None => forall o, o ∈ objs -> ~ matches key st oid o
  | WkDone (Some f) => exists l1 o l2, bchain objs (bucket_of c key) = l1 ++ o :: l2 /\
      (forall o', o' ∈ l1 -> ~ matches key st oid o') /\ matches key st oid o /\ o ∈ objs /\ found_at (now s) l1 o l2 None f
  end.
Proof.
  unfold find_object, li_iter. rewrite (lin_head _ (bucket_lt c Hc key)).
  pose proof (walk_find (now s) key st oid fuel 0 _ None (lin_bucket (bucket_of c key) 0)) as H.
  destruct (li_walk _ _ _ _ _ _ _ _) as [| |[f|]]; [exact H|exact H| |].
  - destruct H as (l1 & o & l2 & E & H1 & H2 & H3). exists l1, o, l2. split; [exact E|]. split; [exact H1|]. split; [exact H2|]. split; [|exact H3].
    assert (Hin : o ∈ bchain objs (bucket_of c key)) by (rewrite E; apply elem_of_app; right; constructor). now apply bchain_elem in Hin.
  - intros o Ho Hm. apply (H o); [|exact Hm]. apply bchain_elem. split; [exact Ho|]. destruct Hm as (E & _). unfold bkt. rewrite E. reflexivity.
Qed.

Definition last_of (p : lobj -> Prop) (b : N) (r : option found) : Prop :=
  (r = None /\ forall o, o ∈ objs -> ~ p o) \/
  (exists l1 o l2 f, bchain objs b = l1 ++ o :: l2 /\ p o /\ o ∈ objs /\ r = Some f /\ found_at (now s) l1 o l2 None f).
Lemma lin_find_commit key fuel id :
  match find_for_commit c (now s) key fuel id with
  | WkFuel => (fuel < length (bchain objs (bucket_of c key)))%nat
  | WkPanic => False
  | WkDone (fi, fe) => last_of (matches key st_incomplete (Some id)) (bucket_of c key) fi /\
                       last_of (matches key st_committed None) (bucket_of c key) fe
  end.
Proof.
  unfold find_for_commit, li_iter. rewrite (lin_head _ (bucket_lt c Hc key)).
  pose proof (walk_commit (now s) key id fuel 0 _ None (None, None) (lin_bucket (bucket_of c key) 0)) as H.
  destruct (li_walk _ _ _ _ _ _ _ _) as [| |[fi fe]]; [exact H|exact H|].
  assert (G : forall st oid r, last_match (now s) (matches key st oid) (bchain objs (bucket_of c key)) None None r -> last_of (matches key st oid) (bucket_of c key) r).
  { intros st oid r [[E H1]|(l1 & o & l2 & f & E & H1 & _ & H2 & H3)].
    - left. split; [exact E|]. intros o Ho Hm. apply (H1 o); [|exact Hm]. apply bchain_elem. split; [exact Ho|]. destruct Hm as (Ek & _). unfold bkt. rewrite Ek. reflexivity.
    - right. exists l1, o, l2, f. split; [exact E|]. split; [exact H1|]. split; [|split; [exact H2|exact H3]].
      assert (Hin : o ∈ bchain objs (bucket_of c key)) by (rewrite E; apply elem_of_app; right; constructor). now apply bchain_elem in Hin. }
  destruct H as [H1 H2]. split; apply G; assumption.
Qed.

(** ** Pages of different things are different *)
Lemma meta_data o q pg x : o ∈ objs -> q ∈ objs -> pg ∈ dpg (lo_req o) -> in_page pg x -> ~ in_page (mpage q) x.
Proof.
  intros Ho Hq Hp Hx Hxq.
  pose proof (core_share c lin_core pg (mpage q) x (in_live_d _ _ _ _ _ _ Ho Hp) (in_live_m _ _ _ _ _ Hq) Hx Hxq) as E.
  pose proof (core_nodup c lin_core) as Hn. unfold LiteInv.live in Hn. apply NoDup_app in Hn as (_ & Hd & _).
  apply (Hd (mpage q)); [now apply elem_of_list_fmap_1|]. rewrite !elem_of_app. left. apply elem_of_list_bind. rewrite <- E. eauto.
Qed.
Lemma data_data o q pg pg' x : o ∈ objs -> q ∈ objs -> pg ∈ dpg (lo_req o) -> pg' ∈ dpg (lo_req q) -> in_page pg x -> in_page pg' x -> o = q.
Proof.
  intros Ho Hq Hp Hp' Hx Hx'.
  pose proof (core_share c lin_core pg pg' x (in_live_d _ _ _ _ _ _ Ho Hp) (in_live_d _ _ _ _ _ _ Hq Hp') Hx Hx') as <-.
  pose proof (core_nodup c lin_core) as Hn. unfold LiteInv.live in Hn. apply NoDup_app in Hn as (_ & _ & Hn). apply NoDup_app in Hn as (Hn & _ & _).
  exact (nodup_bind_elem (fun o => dpg (lo_req o)) objs o q pg Hn Ho Hq Hp Hp').
Qed.
Lemma data_call o cl pg pg' x : o ∈ objs -> cl ∈ ls_calls s -> pg ∈ dpg (lo_req o) -> pg' ∈ cpages c cl -> in_page pg x -> ~ in_page pg' x.
Proof.
  intros Ho Hq Hp Hp' Hx Hx'.
  pose proof (core_share c lin_core pg pg' x (in_live_d _ _ _ _ _ _ Ho Hp) (in_live_c _ _ _ _ _ _ Hq Hp') Hx Hx') as <-.
  pose proof (core_nodup c lin_core) as Hn. unfold LiteInv.live in Hn. apply NoDup_app in Hn as (_ & _ & Hn). apply NoDup_app in Hn as (_ & Hd & _).
  apply (Hd pg); [apply elem_of_list_bind; eauto|]. apply elem_of_app. left. apply elem_of_list_bind. eauto.
Qed.
Lemma data_low o pg x : o ∈ objs -> pg ∈ dpg (lo_req o) -> in_page pg x -> li_base c <= x.
Proof.
  intros Ho Hp Hx. pose proof (core_page c Hc lin_core pg (in_live_d _ _ _ _ _ _ Ho Hp)) as (Hb & _). unfold in_page in Hx. lia.
Qed.
End view.

(** ** The abstract store *)
Definition orel F (r : create_req) (so : sobj) : Prop :=
  so_id so = cr_id r /\ so_size so = cr_size r /\
  forall i v, so_bytes so i = Some v -> exists x, locate (dpg r) i = Some x /\ F x = v.
Record srel F objs (st : sstore) : Prop := {
  sr_inc : forall o, o ∈ objs -> lo_st o = st_incomplete -> exists so, ss_inc st !! lo_id o = Some (lo_key o, so) /\ orel F (lo_req o) so;
  sr_inc2 : forall id k so, ss_inc st !! id = Some (k, so) -> exists o, o ∈ objs /\ lo_id o = id /\ lo_key o = k /\ lo_st o = st_incomplete;
  sr_com : forall o, o ∈ objs -> lo_st o = st_committed -> exists so, ss_com st !! lo_key o = Some so /\ orel F (lo_req o) so;
  sr_com2 : forall k so, ss_com st !! k = Some so -> exists o, o ∈ objs /\ lo_key o = k /\ lo_st o = st_committed;
}.

Lemma locate_in r i x : locate (dpg r) i = Some x -> exists pg, pg ∈ dpg r /\ in_page pg x.
Proof.
  intros H. apply locate_Some in H as (k & a & p & Hk & Hi & E). exists (a, p). split; [eapply elem_of_list_lookup_2, Hk|].
  unfold in_page. cbn [fst snd]. lia.
Qed.
Lemma orel_keep F F' r so : (forall pg x, pg ∈ dpg r -> in_page pg x -> F' x = F x) -> orel F r so -> orel F' r so.
Proof.
  intros H (H1 & H2 & H3). split; [exact H1|]. split; [exact H2|]. intros i v Hi. destruct (H3 i v Hi) as (x & Hx & Hv). exists x.
  split; [exact Hx|]. destruct (locate_in _ _ _ Hx) as (pg & Hp & Hin). rewrite (H pg x Hp Hin). exact Hv.
Qed.
Lemma srel_keep F F' objs st : (forall o pg x, o ∈ objs -> pg ∈ dpg (lo_req o) -> in_page pg x -> F' x = F x) ->
  srel F objs st -> srel F' objs st.
Proof.
  intros H [S1 S2 S3 S4]. split; auto.
  - intros o Ho Hst. destruct (S1 o Ho Hst) as (so & E & R). exists so. split; [exact E|]. eapply orel_keep; [|exact R]. intros pg x. now apply H.
  - intros o Ho Hst. destruct (S3 o Ho Hst) as (so & E & R). exists so. split; [exact E|]. eapply orel_keep; [|exact R]. intros pg x. now apply H.
Qed.

(** Data bytes do not depend on outstanding transactions. *)
Lemma data_base {a us n0 ov calls used objs leak A} : core a (flushed A us) us n0 ov calls used objs leak ->
  forall o pg x, o ∈ objs -> pg ∈ dpg (lo_req o) -> in_page pg x -> flushed A us x = A x.
Proof.
  intros HK o pg x Ho Hp Hx. apply apply_writes_other, untouched_concat. eapply (data_untouched c Hc HK); eassumption.
Qed.

Section find.
Context {s : lstate} {A : device} {us : list txn} {objs : list lobj} {leak : list page} (HL : linv s A us objs leak)
  {st : sstore} (HS : srel (flushed A us) objs st).
Lemma srel_com_unique o o' : o ∈ objs -> o' ∈ objs -> lo_st o = st_committed -> lo_st o' = st_committed -> lo_key o = lo_key o' -> o = o'.
Proof.
  intros Ho Ho' H H' Ek. destruct (sr_com _ _ _ HS o Ho H) as (so & E & (R & _)). destruct (sr_com _ _ _ HS o' Ho' H') as (so' & E' & (R' & _)).
  rewrite Ek in E. rewrite E in E'. injection E' as <-. eapply (same_id c (lin_core HL)); [exact Ho|exact Ho'|]. congruence.
Qed.
Lemma srel_find_some key oid o : o ∈ objs -> matches key st_committed oid o ->
  exists so, ss_find st key oid = Some so /\ orel (flushed A us) (lo_req o) so /\ ss_com st !! key = Some so.
Proof.
  intros Ho (Hk & Hs & Hi). destruct (sr_com _ _ _ HS o Ho Hs) as (so & E & R). rewrite Hk in E. exists so.
  split; [|split; [exact R|exact E]]. unfold ss_find. rewrite E. cbn [mbind option_bind]. destruct R as (-> & _). rewrite Hi. reflexivity.
Qed.
Lemma srel_find_none key oid : (forall o, o ∈ objs -> ~ matches key st_committed oid o) -> ss_find st key oid = None.
Proof.
  intros H. unfold ss_find. destruct (ss_com st !! key) as [so|] eqn:E; [|reflexivity]. cbn [mbind option_bind].
  destruct (sr_com2 _ _ _ HS _ _ E) as (o & Ho & Hk & Hs). destruct (sr_com _ _ _ HS o Ho Hs) as (so' & E' & (R & _)).
  rewrite Hk, E in E'. injection E' as <-. destruct (id_ok oid (so_id so)) eqn:Ei; [|reflexivity]. exfalso. apply (H o Ho).
  split; [exact Hk|]. split; [exact Hs|]. rewrite <- R. exact Ei.
Qed.
Lemma srel_inc_some key id o : o ∈ objs -> matches key st_incomplete (Some id) o ->
  exists so, ss_incomplete st key id = Some so /\ orel (flushed A us) (lo_req o) so /\ ss_inc st !! id = Some (key, so) /\ lo_id o = id.
Proof.
  intros Ho (Hk & Hs & Hi). destruct (sr_inc _ _ _ HS o Ho Hs) as (so & E & R). cbn [id_ok] in Hi. apply N.eqb_eq in Hi as Hi2.
  rewrite <- Hi2, Hk in E. exists so. split; [|auto]. unfold ss_incomplete. rewrite E. cbn [mbind option_bind].
  rewrite bool_decide_true by reflexivity. reflexivity.
Qed.
Lemma srel_inc_none key id : (forall o, o ∈ objs -> ~ matches key st_incomplete (Some id) o) -> ss_incomplete st key id = None.
Proof.
  intros H. unfold ss_incomplete. destruct (ss_inc st !! id) as [[k so]|] eqn:E; [|reflexivity]. cbn [mbind option_bind].
  destruct (sr_inc2 _ _ _ HS _ _ _ E) as (o & Ho & Hi & Hk & Hs). destruct (bool_decide_reflect (k = key)) as [->|]; [|reflexivity].
  exfalso. apply (H o Ho). split; [exact Hk|]. split; [exact Hs|]. cbn [id_ok]. rewrite Hi. apply N.eqb_refl.
Qed.
End find.
End lin.
