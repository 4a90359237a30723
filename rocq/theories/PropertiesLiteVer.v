(** C48, C52: a libblobd-lite store with [versioning] on.  The specification is
    LiteVerSpec.v (calls, sizes and [calm]: LiteSpec.v). *)
From Coq Require Import ZifyBool ZifyNat ZifyN.
From stdpp Require Import base numbers list_numbers option gmap sets list.
From Verif Require Import Util Bytes BuddyModel BuddySpec BuddyProofs BuddyInv LayoutModel MetaModel PageIOModel PageIOSpec PageIOProofs DirectModel DirectBase.
From Verif Require Import JournalModel JournalSpec JournalProofs LiteModel LiteSpec LiteVerSpec LiteJournal LiteNode LiteRecord LiteInv LiteSteps LiteSteps2 LiteLin LiteSim LiteSim2 LiteSim3 LiteVerSim PropertiesLite PropertiesLite2.
Open Scope N_scope.
Ltac Zify.zify_post_hook ::= idtac.

(** C52: whatever calls overlap, every observation is one that the store with
    versions allows.
    Missing for the full claim: calls that remove an object which is not the
    first of its bucket while another call on that bucket still waits for the
    journal, where it is false (as for C14). *)
Theorem C52_versions_store_partial :
  forall c d a es s obs,
    conf_sizes c -> li_versioning c = true ->
    allocator_new (li_base c) (li_heap c) (li_spage c) (li_lpage c) (2 ^ 64) DirLeft = Ok a ->
    Forall (event_ok c) es -> calm c (li_init c d a) es ->
    lrun c (li_init c d a) es = Some (s, obs) ->
    exists vs, vsteps (li_lpage c) [] obs vs.
Proof.
  intros c d a es s obs Hc Hv Ha He Hq E.
  destruct (vsim_run c Hc es Hv _ _ _ _ _ [] s obs (init_inv c d a Hc Ha)) as (A & us & objs & leak & vs & _ & _ & H); eauto.
  constructor.
Qed.
Print Assumptions C52_versions_store_partial.

(** ** Histories of the store with versions *)
Section hist.
Context (lpage : N).
Implicit Types (vs : list version).

Lemma vsteps_split vs l1 l2 vs' : vsteps lpage vs (l1 ++ l2) vs' -> exists vm, vsteps lpage vs l1 vm /\ vsteps lpage vm l2 vs'.
Proof.
  revert vs. induction l1 as [|o l1 IH]; intros vs H; [exists vs; split; [constructor|exact H]|].
  cbn [app] in H. inversion H as [|? ? v1 ? ? H1 H2]; subst. destruct (IH _ H2) as (vm & G1 & G2). exists vm. split; [econstructor; eassumption|exact G2].
Qed.
Lemma update_ids vs id f : (forall v, v_id (f v) = v_id v) -> v_id <$> v_update vs id f = v_id <$> vs.
Proof.
  intros Hf. unfold v_update. rewrite <- list_fmap_compose. apply list_fmap_ext. intros i v Hv. cbn. destruct (v_id v =? id); [apply Hf|reflexivity].
Qed.
Lemma filter_ids_nodup vs (P : version -> Prop) `{forall v, Decision (P v)} : NoDup (v_id <$> vs) -> NoDup (v_id <$> filter P vs).
Proof.
  induction vs as [|v vs IH]; intros Hn; [exact Hn|]. rewrite fmap_cons in Hn. apply NoDup_cons in Hn as [Hx Hn]. rewrite filter_cons.
  destruct (decide (P v)); [|auto]. rewrite fmap_cons. apply NoDup_cons. split; [|auto]. intros Hi. apply Hx.
  apply elem_of_list_fmap in Hi as (w & E & Hw). apply elem_of_list_filter in Hw as [_ Hw]. rewrite E. now apply elem_of_list_fmap_1.
Qed.
Lemma step_nodup vs o vs' : vstep lpage vs o vs' -> NoDup (v_id <$> vs) -> NoDup (v_id <$> vs').
Proof.
  intros H Hn. destruct H; try exact Hn; try (rewrite update_ids; [exact Hn|reflexivity]).
  - rewrite fmap_cons. apply NoDup_cons. split; [|exact Hn]. intros Hi. apply elem_of_list_fmap in Hi as (w & E & Hw). exact (H w Hw (eq_sym E)).
  - now apply filter_ids_nodup.
Qed.
Lemma steps_nodup vs l vs' : vsteps lpage vs l vs' -> NoDup (v_id <$> vs) -> NoDup (v_id <$> vs').
Proof. induction 1; eauto using step_nodup. Qed.

Lemma is_true key com oid v : v_is key com oid v = true <-> v_key v = key /\ v_com v = com /\ id_ok oid (v_id v) = true.
Proof. unfold v_is. rewrite !andb_true_iff, bool_decide_eq_true, eqb_true_iff. tauto. Qed.
Lemma find_elem vs key com oid v : List.find (v_is key com oid) vs = Some v -> v ∈ vs /\ v_key v = key /\ v_com v = com /\ id_ok oid (v_id v) = true.
Proof.
  intros H. apply find_first in H as (l1 & l2 & -> & H & _). apply is_true in H. rewrite elem_of_app, elem_of_cons. tauto.
Qed.
Lemma same_version vs v w : NoDup (v_id <$> vs) -> v ∈ vs -> w ∈ vs -> v_id v = v_id w -> v = w.
Proof.
  intros Hn Hv Hw E. apply elem_of_list_lookup in Hv as [i Hi]. apply elem_of_list_lookup in Hw as [j Hj].
  assert (i = j) as ->. { eapply (NoDup_lookup _ i j (v_id v) Hn); rewrite list_lookup_fmap; [rewrite Hi|rewrite Hj]; cbn; congruence. }
  congruence.
Qed.

(** A committed version does not change until it is deleted. *)
Definition spares (key : list N) (id : N) (o : lobs) : Prop :=
  match o with ODelete k oid true => k = key -> exists id', oid = Some id' /\ id' <> id | _ => True end.
Lemma step_keeps vs o vs' v : vstep lpage vs o vs' -> NoDup (v_id <$> vs) -> v ∈ vs -> v_com v = true -> spares (v_key v) (v_id v) o -> v ∈ vs'.
Proof.
  intros H Hn Hv Hc Hs.
  assert (Hupd : forall key id f w, v_incomplete vs key id = Some w -> v ∈ v_update vs id f).
  { intros key id f w Hw. apply find_elem in Hw as (Hw & _ & Hwc & Hi). cbn [id_ok] in Hi. apply N.eqb_eq in Hi.
    unfold v_update. apply elem_of_list_fmap. exists v. split; [|exact Hv]. destruct (N.eqb_spec (v_id v) id) as [E|]; [|reflexivity].
    exfalso. assert (v = w) as -> by (eapply same_version; eauto; congruence). congruence. }
  destruct H; try exact Hv; eauto.
  - now constructor.
  - apply elem_of_list_filter. split; [|exact Hv]. intros E. apply find_elem in H as (Hw & Hk & _ & Hi).
    assert (v = v0) as -> by (eapply same_version; eauto). cbn [spares] in Hs. destruct (Hs (eq_sym Hk)) as (id' & -> & Hne).
    cbn [id_ok] in Hi. apply N.eqb_eq in Hi. congruence.
Qed.
Lemma steps_keep vs l vs' v : vsteps lpage vs l vs' -> NoDup (v_id <$> vs) -> v ∈ vs -> v_com v = true -> Forall (spares (v_key v) (v_id v)) l -> v ∈ vs'.
Proof.
  induction 1 as [|vs o vs1 os vs2 H1 H2 IH]; intros Hn Hv Hc Hs; [exact Hv|]. apply Forall_cons in Hs as [Hs0 Hs].
  apply IH; [eapply step_nodup; eassumption|eapply step_keeps; eassumption|exact Hc|exact Hs].
Qed.
Lemma find_by_id vs v : NoDup (v_id <$> vs) -> v ∈ vs -> v_com v = true -> v_find vs (v_key v) (Some (v_id v)) = Some v.
Proof.
  intros Hn Hv Hc. unfold v_find. destruct (List.find (v_is (v_key v) true (Some (v_id v))) vs) as [w|] eqn:E.
  - apply find_elem in E as (Hw & _ & _ & Hi). cbn [id_ok] in Hi. apply N.eqb_eq in Hi. f_equal. eapply same_version; eauto.
  - exfalso. pose proof (proj1 (find_no _ _) E v Hv) as Hf. assert (Ht : v_is (v_key v) true (Some (v_id v)) v = true).
    { apply is_true. split; [reflexivity|]. split; [exact Hc|]. cbn. apply N.eqb_refl. }
    congruence.
Qed.

(** ** The newest version *)
(** [v] is older only than objects of its key that are not committed, all of them in [new]. *)
Record newest (key : list N) (id size : N) (com : bool) (new : list N) vs : Prop := {
  nw_ids : NoDup (v_id <$> vs);
  nw_split : exists vn v vo, vs = vn ++ v :: vo /\ v_key v = key /\ v_id v = id /\ so_size (v_obj v) = size /\ v_com v = com /\
    forall w, w ∈ vn -> v_key w = key -> v_com w = false /\ v_id w ∈ new
}.
(** Ids of objects of [key] that an observation creates. *)
Definition creates (key : list N) (o : lobs) : list N :=
  match o with OCreate k _ id => if bool_decide (k = key) then [id] else [] | _ => [] end.
Definition commits (key : list N) (o : lobs) : list N :=
  match o with OCommit k id true => if bool_decide (k = key) then [id] else [] | _ => [] end.
Definition deletes (key : list N) (o : lobs) : bool :=
  match o with ODelete k _ true => bool_decide (k = key) | _ => false end.

Lemma newest_update key id size com new vs k' id' w f : newest key id size com new vs -> v_incomplete vs k' id' = Some w ->
  (forall v, v_key (f v) = v_key v /\ v_id (f v) = v_id v /\ so_size (v_obj (f v)) = so_size (v_obj v)) ->
  ((forall v, v_com (f v) = v_com v) \/ (k' = key -> id' ∉ id :: new)) ->
  newest key id size com new (v_update vs id' f).
Proof.
  intros [Hn (vn & v & vo & -> & Hk & Hi & Hs & Hc & Hw)] Hinc Hf Hor.
  split; [rewrite update_ids; [exact Hn|apply Hf]|].
  set (g := fun v => if v_id v =? id' then f v else v).
  assert (Hg : forall v, v_key (g v) = v_key v /\ v_id (g v) = v_id v /\ so_size (v_obj (g v)) = so_size (v_obj v)).
  { intros u. unfold g. destruct (v_id u =? id'); [apply Hf|auto]. }
  assert (Hgc : forall u, u ∈ vn ++ v :: vo -> v_key u = key -> v_id u ∈ id :: new -> v_com (g u) = v_com u).
  { intros u Hu Hku Hiu. unfold g. destruct (N.eqb_spec (v_id u) id') as [E|]; [|reflexivity]. destruct Hor as [Hor|Hor]; [apply Hor|].
    exfalso. apply find_elem in Hinc as (Hwi & Hwk & _ & Hwid). cbn [id_ok] in Hwid. apply N.eqb_eq in Hwid.
    assert (u = w) as -> by (eapply same_version; [exact Hn|exact Hu|exact Hwi|congruence]).
    apply Hor; [congruence|]. rewrite <- E. exact Hiu. }
  exists (g <$> vn), (g v), (g <$> vo). split; [unfold v_update; fold g; rewrite fmap_app, fmap_cons; reflexivity|].
  destruct (Hg v) as (G1 & G2 & G3). rewrite G1, G2, G3. split; [exact Hk|]. split; [exact Hi|]. split; [exact Hs|]. split.
  - rewrite Hgc; [exact Hc| |exact Hk|rewrite Hi; constructor]. rewrite elem_of_app, elem_of_cons. auto.
  - intros u Hu Hku. apply elem_of_list_fmap in Hu as (u0 & -> & Hu). destruct (Hg u0) as (K1 & K2 & _). rewrite K1 in Hku.
    destruct (Hw u0 Hu Hku) as [Hu1 Hu2]. rewrite K2. split; [|exact Hu2]. rewrite Hgc; [exact Hu1| |exact Hku|now constructor].
    rewrite elem_of_app. auto.
Qed.
Lemma newest_step key id size com new vs o vs' : newest key id size com new vs -> vstep lpage vs o vs' ->
  (forall id', id' ∈ commits key o -> id' ∉ id :: new) -> (com = true -> deletes key o = false) ->
  newest key id size com (creates key o ++ new) vs'.
Proof.
  intros HN H Hcm Hdl.
  destruct H as [k sz i Hf| | |k i v Hi| |k oid v Hfi| | |k i offset len stream v Hi| |k i offset len stream r v Hi| | | |]; cbn [creates app]; try exact HN.
  - destruct HN as [Hn (vn & v & vo & -> & Hk & Hi & Hs & Hc & Hw)]. split.
    + rewrite fmap_cons. apply NoDup_cons. split; [|exact Hn]. intros Hx. apply elem_of_list_fmap in Hx as (w & E & Hx). exact (Hf w Hx (eq_sym E)).
    + eexists (_ :: vn), v, vo. split; [reflexivity|]. repeat (split; [assumption|]). intros w Hx Hkw. rewrite elem_of_app.
      apply elem_of_cons in Hx as [->|Hx].
      * split; [reflexivity|]. left. cbn [v_key] in Hkw. rewrite bool_decide_eq_true_2 by exact Hkw. cbn [v_id v_obj so_id]. constructor.
      * destruct (Hw w Hx Hkw) as [G1 G2]. auto.
  - eapply newest_update; [exact HN|exact Hi|intros u; auto|]. right. intros ->. apply Hcm. cbn [commits]. rewrite bool_decide_eq_true_2 by reflexivity. constructor.
  - destruct HN as [Hn (vn & u & vo & -> & Hk & Hi & Hs & Hc & Hw)]. split; [now apply filter_ids_nodup|].
    apply find_elem in Hfi as (Hv & Hvk & Hvc & _).
    assert (Hne : v_id u <> v_id v).
    { intros E. assert (u = v) as -> by (eapply same_version; [exact Hn| |exact Hv|exact E]; rewrite elem_of_app, elem_of_cons; auto).
      specialize (Hdl ltac:(congruence)). cbn [deletes] in Hdl. apply bool_decide_eq_false in Hdl. congruence. }
    rewrite filter_app, filter_cons, decide_True by exact Hne.
    eexists _, u, _. split; [reflexivity|]. repeat (split; [assumption|]). intros w Hx Hkw. apply elem_of_list_filter in Hx as [_ Hx]. exact (Hw w Hx Hkw).
  - eapply newest_update; [exact HN|exact Hi|intros u; auto|]. left. reflexivity.
  - eapply newest_update; [exact HN|exact Hi|intros u; auto|]. left. reflexivity.
Qed.
Lemma newest_steps key id size com vs l vs' : vsteps lpage vs l vs' -> forall new, newest key id size com new vs ->
  (forall id', id' ∈ l ≫= commits key -> id' ∉ id :: new ++ (l ≫= creates key)) -> (com = true -> forall o, o ∈ l -> deletes key o = false) ->
  exists new', newest key id size com new' vs' /\ forall i, i ∈ new' -> i ∈ new ++ (l ≫= creates key).
Proof.
  induction 1 as [vs|vs o vs1 os vs2 H1 H2 IH]; intros new HN Hcm Hdl.
  - exists new. split; [exact HN|]. intros i Hi. rewrite elem_of_app. auto.
  - pose proof (newest_step _ _ _ _ _ _ _ _ HN H1) as HN1.
    destruct (IH (creates key o ++ new)) as (new' & G1 & G2).
    + apply HN1; [|intros E; apply (Hdl E); constructor]. intros id' Hi Hin. apply (Hcm id').
      * rewrite bind_cons, elem_of_app. auto.
      * rewrite elem_of_cons, elem_of_app in *. tauto.
    + intros id' Hi Hin. apply (Hcm id'); [rewrite bind_cons, elem_of_app; auto|]. rewrite bind_cons. rewrite elem_of_cons, !elem_of_app in *. tauto.
    + intros E o' Ho'. apply (Hdl E). now constructor.
    + exists new'. split; [exact G1|]. intros i Hi. specialize (G2 i Hi). rewrite bind_cons. rewrite !elem_of_app in *. tauto.
Qed.
Lemma newest_found key id size new vs : newest key id size true new vs -> exists v, v_find vs key None = Some v /\ v_id v = id /\ so_size (v_obj v) = size.
Proof.
  intros [_ (vn & v & vo & -> & Hk & Hi & Hs & Hc & Hw)]. exists v. split; [|auto]. unfold v_find. apply find_first. exists vn, vo.
  split; [reflexivity|]. split; [apply is_true; auto|]. intros w Hx. destruct (v_is key true None w) eqn:E; [|reflexivity]. exfalso.
  apply is_true in E as (E1 & E2 & _). destruct (Hw w Hx E1). congruence.
Qed.
End hist.

(** C52: once committed, a version is found under its id, with the size it was
    created with and the bytes written to it, until it is itself deleted (deleting
    other versions, by id, and whatever else happens, does not matter). *)
Theorem C52_committed_version_stays_partial :
  forall c d a es s pre key id mid last,
    conf_sizes c -> li_versioning c = true ->
    allocator_new (li_base c) (li_heap c) (li_spage c) (li_lpage c) (2 ^ 64) DirLeft = Ok a ->
    Forall (event_ok c) es -> calm c (li_init c d a) es ->
    lrun c (li_init c d a) es = Some (s, pre ++ OCommit key id true :: mid ++ [last]) ->
    (forall oid, ODelete key oid true ∈ mid -> exists id', oid = Some id' /\ id' <> id) ->
    (* the object just before it was committed *)
    exists vs v, vsteps (li_lpage c) [] pre vs /\ v_incomplete vs key id = Some v /\
    match last with
    | OInspect k (Some i) r => k = key -> i = id -> r = Some (id, so_size (v_obj v))
    | ORead k (Some i) start fin r =>
        k = key -> i = id ->
        let fin := default (so_size (v_obj v)) fin in
        (start < fin <= so_size (v_obj v) ->
          exists l, r = RBytes l /\ N.of_nat (length l) = fin - start /\
            forall j b, start <= j < fin -> so_bytes (v_obj v) j = Some b -> l !! N.to_nat (j - start) = Some b) /\
        (~ start < fin <= so_size (v_obj v) -> r = RRange)
    | ODelete k (Some i) r => k = key -> i = id -> r = true
    | _ => True
    end.
Proof.
  intros c d a es s pre key id mid last Hc Hv Ha He Hq E Hdel.
  destruct (C52_versions_store_partial c d a es s _ Hc Hv Ha He Hq E) as (vs' & Hss).
  apply vsteps_split in Hss as (vs & H1 & H2). inversion H2 as [|? ? vs1 ? ? Hcm Hrest]; subst.
  apply vsteps_split in Hrest as (vs2 & Hmid & Hlast). inversion Hlast as [|? ? vs3 ? ? Hl Hnil]; subst. clear Hlast Hnil H2.
  inversion Hcm as [| | |? ? v Hinc| | | | | | | | | | |]; subst.
  exists vs, v. split; [exact H1|]. split; [exact Hinc|].
  pose proof (steps_nodup _ _ _ _ H1 (NoDup_nil_2)) as Hn.
  pose proof (find_elem _ _ _ _ _ Hinc) as (Hvin & Hvk & Hvc & Hvi). cbn [id_ok] in Hvi. apply N.eqb_eq in Hvi.
  assert (Hm : v_mark v ∈ v_update vs id v_mark).
  { unfold v_update. apply elem_of_list_fmap. exists v. rewrite Hvi, N.eqb_refl. auto. }
  pose proof (step_nodup _ _ _ _ Hcm Hn) as Hn1.
  assert (Hk : v_mark v ∈ vs2).
  { eapply (steps_keep _ _ _ _ _ Hmid Hn1 Hm); [reflexivity|]. apply Forall_forall. intros o Ho. destruct o as [| | | |k oid [|]| | | |]; try exact I.
    cbn [spares]. intros ->. change (v_key (v_mark v)) with (v_key v) in Ho. rewrite Hvk in Ho. destruct (Hdel oid Ho) as (id' & -> & Hne).
    exists id'. split; [reflexivity|]. change (v_id (v_mark v)) with (v_id v). congruence. }
  pose proof (steps_nodup _ _ _ _ Hmid Hn1) as Hn2.
  pose proof (find_by_id _ _ Hn2 Hk eq_refl) as Hf. change (v_key (v_mark v)) with (v_key v) in Hf. change (v_id (v_mark v)) with (v_id v) in Hf.
  rewrite Hvk, <- Hvi in Hf. clear Hcm.
  destruct last as [| | | |k [i|] r|k [i|] r| |k [i|] start fin r|]; try exact I.
  - intros -> ->. inversion Hl as [| | | | | |? ? Hno| | | | | | | |]; subst; [reflexivity|]. rewrite Hf in Hno. discriminate.
  - intros -> ->. inversion Hl; subst. rewrite Hf. reflexivity.
  - intros -> ->. cbv zeta. inversion Hl as [| | | | | | | | | | | |? ? ? ? w l Hw Hr1 Hr2 Hr3|? ? ? ? w Hw Hr|? ? ? ? Hw]; subst.
    + rewrite Hf in Hw. injection Hw as <-. cbn [v_mark v_obj] in *. split; [intros _; eauto|]. intros Hx. contradiction.
    + rewrite Hf in Hw. injection Hw as <-. cbn [v_mark v_obj] in *. split; [contradiction|reflexivity].
    + rewrite Hf in Hw. discriminate.
Qed.
Print Assumptions C52_committed_version_stays_partial.

(** C48, where it holds: a version that is committed last, and that no version
    created after it was committed before, is the one found without naming an id. *)
Theorem C48_commits_in_creation_order_partial :
  forall c d a es s pre key size id pre2 mid r,
    conf_sizes c -> li_versioning c = true ->
    allocator_new (li_base c) (li_heap c) (li_spage c) (li_lpage c) (2 ^ 64) DirLeft = Ok a ->
    Forall (event_ok c) es -> calm c (li_init c d a) es ->
    lrun c (li_init c d a) es =
      Some (s, pre ++ OCreate key size id :: pre2 ++ OCommit key id true :: mid ++ [OInspect key None r]) ->
    (* between its creation and its commit, only versions created before it are committed *)
    (forall id' size', OCommit key id' true ∈ pre2 -> OCreate key size' id' ∉ OCreate key size id :: pre2) ->
    (* no version is committed or deleted afterwards *)
    (forall id', OCommit key id' true ∉ mid) -> (forall oid, ODelete key oid true ∉ mid) ->
    r = Some (id, size).
Proof.
  intros c d a es s pre key size id pre2 mid r Hc Hv Ha He Hq E Hord Hnc Hnd.
  destruct (C52_versions_store_partial c d a es s _ Hc Hv Ha He Hq E) as (vs' & Hss). set (lpage := li_lpage c) in *.
  apply vsteps_split in Hss as (vs & H1 & H2). inversion H2 as [|? ? vs1 ? ? Hcr Hrest]; subst. clear H2.
  apply vsteps_split in Hrest as (vs2 & Hp2 & H2). inversion H2 as [|? ? vs3 ? ? Hcm Hrest]; subst. clear H2.
  apply vsteps_split in Hrest as (vs4 & Hmid & H2). inversion H2 as [|? ? vs5 ? ? Hl Hnil]; subst. clear H2 Hnil.
  pose proof (steps_nodup _ _ _ _ H1 (NoDup_nil_2)) as Hn. pose proof (step_nodup _ _ _ _ Hcr Hn) as Hn1.
  inversion Hcr; subst.
  assert (HN1 : newest key id size false [] ({| v_key := key; v_obj := {| so_id := id; so_size := size; so_bytes := fun _ => None |}; v_com := false |} :: vs)).
  { split; [exact Hn1|]. eexists [], _, vs. split; [reflexivity|]. repeat (split; [reflexivity|]). intros w Hw. inversion Hw. }
  assert (Hcmt : forall l id', id' ∈ l ≫= commits key -> OCommit key id' true ∈ l).
  { intros l id' Hi. apply elem_of_list_bind in Hi as (o & Hi & Ho). destruct o as [| | |k i [|]| | | | |]; cbn [commits] in Hi; try (now inversion Hi).
    destruct (bool_decide (k = key)) eqn:Ek; [|now inversion Hi]. apply bool_decide_eq_true in Ek as ->. apply elem_of_list_singleton in Hi as ->. exact Ho. }
  assert (Hcre : forall l id', id' ∈ l ≫= creates key -> exists sz, OCreate key sz id' ∈ l).
  { intros l id' Hi. apply elem_of_list_bind in Hi as (o & Hi & Ho). destruct o as [k sz i| | |k i [|]| | | | |]; cbn [creates] in Hi; try (now inversion Hi).
    destruct (bool_decide (k = key)) eqn:Ek; [|now inversion Hi]. apply bool_decide_eq_true in Ek as ->. apply elem_of_list_singleton in Hi as ->. eauto. }
  destruct (newest_steps lpage key id size false _ _ _ Hp2 [] HN1) as (new & HN2 & _); [|discriminate|].
  { intros id' Hi Hin. specialize (Hcmt _ _ Hi). apply elem_of_cons in Hin as [->|Hin].
    - apply (Hord id size Hcmt). constructor.
    - destruct (Hcre _ _ Hin) as (sz & Hx). apply (Hord id' sz Hcmt). now constructor. }
  assert (HN3 : newest key id size true new vs3).
  { inversion Hcm as [| | |? ? w Hinc| | | | | | | | | | |]; subst. destruct HN2 as [Hn2 (vn & v & vo & -> & Hk & Hi & Hs & Hcv & Hw)].
    split; [rewrite update_ids; [exact Hn2|reflexivity]|].
    rewrite fmap_app, fmap_cons in Hn2. apply NoDup_app in Hn2 as (_ & Hd & _).
    assert (E1 : v_update vn id v_mark = vn).
    { unfold v_update. rewrite <- (list_fmap_id vn) at 2. apply list_fmap_ext. intros i u Hu. cbn. destruct (N.eqb_spec (v_id u) id) as [Ex|]; [|reflexivity]. exfalso.
      apply (Hd (v_id u)); [apply elem_of_list_fmap_1; eapply elem_of_list_lookup_2, Hu|]. rewrite Ex, <- Hi. constructor. }
    exists vn, (v_mark v), (v_update vo id v_mark). split.
    - rewrite <- E1 at 2. unfold v_update. rewrite fmap_app, fmap_cons. now rewrite Hi, N.eqb_refl.
    - repeat (split; [assumption || reflexivity|]). exact Hw. }
  destruct (newest_steps lpage key id size true _ _ _ Hmid new HN3) as (new' & HN4 & _).
  { intros id' Hi. exfalso. exact (Hnc id' (Hcmt _ _ Hi)). }
  { intros _ o Ho. destruct o as [| | | |k oi [|]| | | |]; try reflexivity. cbn [deletes]. apply bool_decide_eq_false_2. intros ->. exact (Hnd _ Ho). }
  destruct (newest_found _ _ _ _ _ HN4) as (v & Hf & Hi & Hs). inversion Hl; subst. rewrite Hf. reflexivity.
Qed.
Print Assumptions C48_commits_in_creation_order_partial.

(** ** A history they apply to: two versions of A, the first written, both
    committed in the order of creation, then the second deleted. *)
Lemma cv_sizes : conf_sizes cv.
Proof. apply c0_sizes; [vm_compute; split; discriminate|reflexivity]. Qed.
Definition es_two : list levent :=
  create kA 5 1 0 ++ [wr kA 1 0 5 33] ++ create kA 6 2 1 ++ commit kA 1 2 1 ++ commit kA 2 3 1 ++ [LInspect kA None 9].
Definition obs_two : list lobs :=
  [OCreate kA 5 1; OWrite kA 1 0 5 [Data (replicate 5 33)] WOk; OCreate kA 6 2; OCommit kA 1 true; OCommit kA 2 true;
   OInspect kA None (Some (2, 6))].
Definition es_del : list levent :=
  es_two ++ [LDelete kA (Some 2) 9 0] ++ flush 1 ++ [LFinish 4; LInspect kA None 9; LRead kA (Some 1) 1 None 9 20].
Definition obs_del : list lobs :=
  obs_two ++ [ODelete kA (Some 2) true; OInspect kA None (Some (1, 5)); ORead kA (Some 1) 1 None (RBytes (replicate 4 33))].
Lemma demo_two : demo cv es_two = Some (obs_two, true, true) /\ demo cv es_del = Some (obs_del, true, true).
Proof. split; vm_compute; reflexivity. Qed.
Theorem C48_example :
  exists a s, conf_sizes cv /\ li_versioning cv = true /\
    allocator_new (li_base cv) (li_heap cv) (li_spage cv) (li_lpage cv) (2 ^ 64) DirLeft = Ok a /\
    Forall (event_ok cv) es_two /\ calm cv (li_init cv d0 a) es_two /\
    lrun cv (li_init cv d0 a) es_two =
      Some (s, (take 2 obs_two) ++ OCreate kA 6 2 :: [OCommit kA 1 true] ++ OCommit kA 2 true :: [] ++ [OInspect kA None (Some (2, 6))]) /\
    (forall id' size', OCommit kA id' true ∈ [OCommit kA 1 true] -> OCreate kA size' id' ∉ [OCreate kA 6 2; OCommit kA 1 true]).
Proof.
  destruct (demo_run _ _ _ _ _ (proj1 demo_two)) as (a & s & Ha & Hr & _ & Ho). exists a, s. split; [exact cv_sizes|]. split; [reflexivity|].
  split; [exact Ha|]. split; [events_ok|]. split; [apply one_calm; auto|]. split; [exact Hr|].
  intros id' size' H Hx. apply elem_of_list_singleton in H. injection H as ->. rewrite !elem_of_cons in Hx.
  destruct Hx as [Hx|[Hx|Hx]]; [discriminate Hx|discriminate Hx|inversion Hx].
Qed.
Theorem C52_example :
  exists a s, conf_sizes cv /\ li_versioning cv = true /\
    allocator_new (li_base cv) (li_heap cv) (li_spage cv) (li_lpage cv) (2 ^ 64) DirLeft = Ok a /\
    Forall (event_ok cv) es_del /\ calm cv (li_init cv d0 a) es_del /\
    lrun cv (li_init cv d0 a) es_del =
      Some (s, (take 3 obs_two) ++ OCommit kA 1 true ::
        [OCommit kA 2 true; OInspect kA None (Some (2, 6)); ODelete kA (Some 2) true; OInspect kA None (Some (1, 5))] ++
        [ORead kA (Some 1) 1 None (RBytes (replicate 4 33))]).
Proof.
  destruct (demo_run _ _ _ _ _ (proj2 demo_two)) as (a & s & Ha & Hr & _ & Ho). exists a, s. split; [exact cv_sizes|]. split; [reflexivity|].
  split; [exact Ha|]. split; [events_ok|]. split; [apply one_calm; auto|]. exact Hr.
Qed.
