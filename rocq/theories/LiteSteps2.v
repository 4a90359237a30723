(** More pieces of the operations: changing an object's state, linking a new
    object, returning, starting a create. *)
From Coq Require Import ZifyBool ZifyNat ZifyN.
From stdpp Require Import base numbers list_numbers option gmap sets list.
From Verif Require Import Util Bytes BuddyModel BuddySpec BuddyProofs BuddyInv LayoutModel LayoutProofs MetaModel MetaSpec MetaProofs PropertiesMeta.
From Verif Require Import PageIOModel PageIOSpec PageIOProofs DirectModel DirectBase.
From Verif Require Import JournalModel JournalSpec JournalProofs LiteModel LiteSpec LiteJournal LiteNode LiteRecord LiteInv LiteSteps.
Open Scope N_scope.
Ltac Zify.zify_post_hook ::= idtac.

Definition set_st (o : lobj) (st : N) : lobj := {| lo_off := lo_off o; lo_req := lo_req o; lo_pow2 := lo_pow2 o; lo_st := st |}.

Section steps.
Context (c : liconf) (Hc : conf_sizes c).
Notation spage := (li_spage c).
Notation lpage := (li_lpage c).
Notation ainv := (BuddyInv.Inv (li_base c) (li_heap c) spage lpage (2 ^ 64) DirLeft).
Notation dpg := (dpages spage lpage).
Notation core := (core c).
Notation live := (live c).
Notation bchain := (bchain c).
Notation node_ok := (node_ok c).
Implicit Types (us : list txn) (calls : list lcall) (objs : list lobj).

Lemma chain_replace (P Q : lobj -> N -> Prop) l1 (o o' : lobj) l2 : lo_off o' = lo_off o -> chain P (l1 ++ o :: l2) 0 ->
  (forall x n, x ∈ l1 \/ x ∈ l2 -> P x n -> Q x n) -> (forall n, P o n -> Q o' n) -> chain Q (l1 ++ o' :: l2) 0.
Proof.
  intros E H H1 H2. apply chain_app in H as [A [B C]]. apply chain_app. cbn [first_or] in *. rewrite E. split; [|split].
  - eapply chain_mono; [|exact A]. intros x n Hx. apply H1. auto.
  - apply H2, B.
  - eapply chain_mono; [|exact C]. intros x n Hx. apply H1. auto.
Qed.

(** ** The state of an object *)
Lemma core_set_state a F us t n0 ov calls used x o y leak b tks ps st ov' tk :
  core a F (us ++ [t]) n0 ov (LWait b (Some (n0 + length us)%nat) tks ps :: calls) used (x ++ o :: y) leak ->
  bkt c o = b -> (st = st_incomplete \/ st = st_committed) -> ov_set_state ov (lo_id o) st = (ov', tk) ->
  core a (dev_write F (lo_off o + off_state) [st]) (us ++ [t ++ [(lo_off o + off_state, [st])]]) n0 ov'
    (LWait b (Some (n0 + length us)%nat) (tk :: tks) ps :: calls) used (x ++ set_st o st :: y) leak.
Proof.
  intros HK Hbo Hst Eu. pose proof (core_old _ _ _ _ _ _ _ _ _ _ HK) as Hold. unfold ov_set_state in Eu. injection Eu as <- <-.
  pose proof (objs_nodup c HK) as Hnd.
  assert (Hoo : o ∈ x ++ o :: y) by (rewrite elem_of_app, elem_of_cons; auto).
  assert (Hxy : forall o', o' ∈ x ++ y -> o' ∈ x ++ o :: y /\ o' <> o).
  { intros o' Ho'. split; [rewrite elem_of_app in *; rewrite elem_of_cons; tauto|]. intros ->.
    apply NoDup_app in Hnd as (_ & Hd & Hn). apply elem_of_app in Ho' as [H|H]; [apply (Hd o H); constructor|].
    apply NoDup_cons in Hn as [Hn _]. exact (Hn H). }
  assert (Hin : forall o', o' ∈ x ++ set_st o st :: y -> o' = set_st o st \/ o' ∈ x ++ y).
  { intros o' Ho'. rewrite elem_of_app, elem_of_cons in *. tauto. }
  set (w := (lo_off o + off_state, [st])). set (F' := dev_write F (lo_off o + off_state) [st]).
  assert (Hpo := page_pow c Hc HK o Hoo). pose proof (off_facts c Hc HK o Hoo) as (Hbase & _).
  assert (HF : forall z, z <> lo_off o -> F' z = F z).
  { intros z Hz. apply dev_write_other. unfold touches. cbn [fst snd length]. offs. lia. }
  assert (Hop : in_page (mpage o) (lo_off o)) by (unfold in_page, mpage; cbn [fst snd]; lia).
  assert (Hother : forall o', o' ∈ x ++ y -> ~ in_page (mpage o') (lo_off o)).
  { intros o' Ho' Hz. destruct (Hxy o' Ho') as [H1 H2]. apply H2. eapply (same_page c HK); eassumption. }
  assert (Hidne : forall o', o' ∈ x ++ y -> lo_id o' <> lo_id o).
  { intros o' Ho' E. destruct (Hxy o' Ho') as [H1 H2]. apply H2. eapply (same_id c HK); eassumption. }
  assert (Hpow : forall o', o' ∈ x ++ y -> 256 <= 2 ^ lo_pow2 o') by (intros o' Ho'; apply (page_pow c Hc HK), Hxy, Ho').
  pose proof (core_call_page c HK) as Hcp. pose proof (fresh_id c HK) as Hfi.
  pose proof (k_used _ _ _ _ _ _ _ _ _ _ HK (lo_id o)) as Hou.
  set (cl0 := LWait b (Some (n0 + length us)%nat) tks ps) in *.
  set (cl := LWait b (Some (n0 + length us)%nat) (TkState (lo_id o) (ov_serial ov) :: tks) ps).
  assert (Hw : wkeep (ov_serial ov) (cl0 :: calls) (cl :: calls)) by (apply wkeep_more; cbn; lia).
  assert (Hu : forall addr len, ~ (addr <= lo_off o < addr + len) -> ukeep n0 (us ++ [t]) n0 (us ++ [t ++ [w]]) addr len).
  { intros addr len H. apply ukeep_extend. intros z Ht Hz. unfold touches, w in Ht. cbn [fst snd length] in Ht. offs. apply H. lia. }
  destruct HK as [[f K1] K2 K3 K4 K5 K6 K7 K8 K9 K10].
  assert (Eids : ids (x ++ set_st o st :: y) (cl :: calls) = ids (x ++ o :: y) (cl0 :: calls)).
  { unfold ids. rewrite !fmap_app, !fmap_cons. reflexivity. }
  split.
  - exists f. eapply inv_perm; [exact K1|]. unfold LiteInv.live. rewrite !fmap_app, !fmap_cons, !bind_app, !bind_cons. reflexivity.
  - rewrite Eids. exact K2.
  - rewrite Eids. exact K3.
  - intros o' Ho'. destruct (Hin o' Ho') as [->|Ho2].
    + destruct (K4 o Hoo) as [H1 H2]. split; [exact H1|].
      assert (H3 : rstat spage lpage F (set_st o st)) by exact H2.
      eapply rstat_ext; [exact H3| |apply (sp_lp c Hc)|exact H1]. intros z Hz Hzp. apply HF. cbn [set_st lo_off]. unfold static_off in Hz. lia.
    + destruct (K4 o') as [H1 H2]; [apply Hxy, Ho2|]. split; [exact H1|].
      eapply rstat_ext; [exact H2| |apply (sp_lp c Hc)|exact H1]. intros z Hz Hzp. apply HF. intros E. apply (Hother o' Ho2). rewrite <- E.
      unfold in_page, mpage. cbn [fst snd]. lia.
  - intros cl' Hcl. apply elem_of_cons in Hcl as [->|Hcl].
    + intros tk Ht. apply elem_of_cons in Ht as [->|Ht]; [cbn; lia|]. specialize (Hold _ _ _ _ tk (elem_of_list_here _ _) Ht). cbn [ov_serial]. lia.
    + eapply call_ok_serial; [apply K5; now constructor| | |cbn; lia].
      * intros r raw p off -> Hr. pose proof (K5 _ (elem_of_list_further _ _ _ Hcl)) as (G1 & G2 & _). eapply rec_on_ext; [exact Hr|apply (raw_len c Hc r raw p G1 G2)|].
        intros z Hz. apply HF. intros ->.
        destruct (Hcp r raw p off (or_intror (elem_of_list_further _ _ _ Hcl))) as (_ & _ & Hdis). apply (Hdis o (lo_off o) Hoo); [exact Hz|exact Hop].
      * intros r raw p off Hr. split; [|reflexivity]. cbn [ov_states]. apply lookup_insert_ne.
        apply (Hfi o (cr_id r) Hoo). apply (Hcp r raw p off). destruct Hr as [<-|<-]; [left|right]; now constructor.
  - intros i e. cbn [ov_states]. rewrite lookup_insert_Some. intros [[<- _]|[_ H]]; [|eapply K6, H].
    apply Hou. unfold ids. apply elem_of_app. left. apply elem_of_list_fmap. eauto.
  - exact K7.
  - assert (Hown : forall n pg, owned (x ++ o :: y) (cl0 :: calls) n pg -> owned (x ++ set_st o st :: y) (cl :: calls) n pg).
    { intros n pg. apply owned_mono.
      - intros o' Ho'. rewrite fmap_app, fmap_cons. change (mpage (set_st o st)) with (mpage o). rewrite <- fmap_cons, <- fmap_app. now apply elem_of_list_fmap_1.
      - intros b' m tks' free' H. apply elem_of_cons in H as [[= -> -> -> ->]|H].
        + eexists _, _, _, _. split; [constructor|]. split; [reflexivity|auto].
        + exists b', m, tks', free'. split; [now constructor|auto]. }
    intros j t' w' Hj Hw'. apply lookup_app_Some in Hj as [Hj|[Hjl Hj]].
    + eapply pend_mono; [apply Hown|]. eapply K8; [|exact Hw']. apply lookup_app_l_Some. exact Hj.
    + apply list_lookup_singleton_Some in Hj as [Hj <-]. apply elem_of_app in Hw' as [Hw'|Hw'].
      * eapply pend_mono; [apply Hown|]. eapply K8; [|exact Hw']. apply lookup_app_Some. right. split; [exact Hjl|]. rewrite Hj. reflexivity.
      * apply elem_of_list_singleton in Hw' as ->. right. exists (mpage o). split; [|left; split; reflexivity].
        left. exists (set_st o st). split; [rewrite elem_of_app, elem_of_cons; auto|reflexivity].
  - intros b' Hb'.
    assert (first_off (bchain (x ++ set_st o st :: y) b') = first_off (bchain (x ++ o :: y) b')) as ->.
    { rewrite !bchain_app. destruct (N.eq_dec (bkt c o) b') as [E|E].
      - rewrite !bchain_cons_eq by exact E. destruct (bchain x b'); reflexivity.
      - rewrite !bchain_cons_ne by exact E. reflexivity. }
    eapply head_keep; [now apply K9| |reflexivity|exact Hold|exact Hw|apply Hu].
    + intros z Hz. apply HF. intros ->. apply (heads_low c Hc b' _ Hb') in Hz. lia.
    + intros Hz. apply (heads_low c Hc b' _ Hb') in Hz. lia.
  - intros b'.
    assert (Hkeep : forall o' n, o' ∈ x ++ y -> node_ok F (us ++ [t]) n0 ov (cl0 :: calls) o' n ->
      node_ok F' (us ++ [t ++ [w]]) n0 {| ov_serial := ov_serial ov + 1; ov_heads := ov_heads ov;
        ov_states := <[lo_id o := (ov_serial ov, st)]> (ov_states ov); ov_nexts := ov_nexts ov |} (cl :: calls) o' n).
    { intros o' n Ho' Hnode. specialize (Hpow o' Ho'). specialize (Hother o' Ho'). unfold in_page, mpage in Hother. cbn [fst snd] in Hother.
      eapply node_keep; [exact Hnode| |reflexivity| |exact Hold|exact Hw|apply Hu].
      - intros z Hz. apply HF. intros ->. lia.
      - cbn [ov_states]. apply lookup_insert_ne. intros E. symmetry in E. exact (Hidne o' Ho' E).
      - lia. }
    specialize (K10 b'). destruct (N.eq_dec b b') as [Hbb|Hne].
    2: { rewrite bchain_app, bchain_cons_ne in K10 by congruence. rewrite bchain_app, bchain_cons_ne by (unfold bkt in *; cbn [set_st lo_req]; congruence).
         eapply chain_mono; [|exact K10]. intros o' n Ho'. rewrite <- bchain_app in Ho'. apply bchain_elem in Ho' as [Ho' _]. now apply Hkeep. }
    subst b'. rewrite bchain_app, bchain_cons_eq in K10 by exact Hbo. rewrite bchain_app, bchain_cons_eq by exact Hbo.
    eapply chain_replace; [|exact K10| |]; [reflexivity| |].
    + intros o' n Ho'. apply Hkeep. rewrite elem_of_app. destruct Ho' as [H|H]; apply bchain_elem in H as [H _]; auto.
    + intros n [N1 N2 N3 N4 N5]. split; cbn [set_st lo_off lo_req lo_pow2 lo_st].
      * rewrite <- N1. unfold read_be. f_equal. apply dev_read_same. intros z Hz. apply HF. offs. lia.
      * eapply lok_keep; [exact N2|reflexivity|exact Hold|exact Hw|]. apply Hu. offs. lia.
      * unfold F', read_be. pose proof (dev_read_write F (lo_off o + off_state) [st]) as E. cbn [length] in E. change (N.of_nat 1) with 1 in E. rewrite E.
        destruct Hst as [-> | ->]; reflexivity.
      * eapply lok_set with (sn := ov_serial ov) (n := (n0 + length us)%nat).
        -- cbn [ov_states]. rewrite lookup_insert. reflexivity.
        -- unfold bkt in *. cbn [set_st lo_req]. rewrite Hbo. constructor.
        -- constructor.
        -- intros b' sig tks' free Hl Ht. apply elem_of_cons in Hl as [[= -> -> -> ->]|Hl]; [reflexivity|].
           specialize (Hold _ _ _ _ _ (elem_of_list_further _ _ _ Hl) Ht). cbn in Hold. lia.
        -- rewrite app_length. cbn. lia.
      * exact Hst.
Qed.

(** ** Linking a new object *)
Lemma rec_read d off raw fo len x : rec_on d off raw -> buf_read raw fo len = Some x -> dev_read d (off + fo) len = x.
Proof.
  intros Hr E. pose proof (buf_read_inv _ _ _ _ E) as Hl. pose proof (buf_read_length _ _ _ _ E) as Hx.
  apply list_eq. intros i. destruct (decide (N.of_nat i < len)) as [Hi|Hi].
  - rewrite dev_read_lookup by lia. pose proof (buf_read_lookup _ _ _ _ i E Hi) as Ex. rewrite Ex.
    destruct (lookup_lt_is_Some_2 raw (N.to_nat fo + i)%nat) as [v Hv]; [lia|].
    rewrite Hv. f_equal. rewrite <- (Hr (N.to_nat fo + i)%nat v Hv). f_equal. lia.
  - rewrite !lookup_ge_None_2; [reflexivity|lia|rewrite dev_read_length; lia].
Qed.

Definition new_obj (r : create_req) (off p : N) : lobj := {| lo_off := off; lo_req := r; lo_pow2 := p; lo_st := st_incomplete |}.

Lemma core_link a F us n0 ov calls used objs leak r raw p off b cur ov1 t1 tk1 ov2 tk2 t :
  core a F us n0 ov (LRec r raw p off :: calls) used objs leak ->
  b = bucket_of c (cr_key r) -> cur = first_off (bchain objs b) ->
  update_head ov [] b off = (ov1, t1, tk1) -> ov_set_next ov1 (cr_id r) cur = (ov2, tk2) ->
  t = txn_write t1 (off + off_next) (be_bytes 6 cur) ->
  core a (apply_writes F t) (us ++ [t]) n0 ov2 (LWait b (Some (n0 + length us)%nat) [tk1; tk2] [] :: calls) used
    (new_obj r off p :: objs) leak.
Proof.
  intros HK Eb Ecur Eu En Et. pose proof (core_old _ _ _ _ _ _ _ _ _ _ HK) as Hold.
  assert (Hb : b < 2 ^ li_bpow c) by (rewrite Eb; apply (bucket_lt c Hc)).
  destruct (first_facts c Hc HK (bchain objs b)) as [Hn1 Hn2].
  { intros o Ho. now apply bchain_elem in Ho. }
  rewrite <- Ecur in Hn1, Hn2.
  destruct (core_call_page c HK r raw p off (or_intror (elem_of_list_here _ _))) as (Hlive & Hidc & Hdis).
  pose proof (core_page c Hc HK _ Hlive) as (Hbase & Hendp & _ & Hal & H256). cbn [fst snd] in *.
  assert (Hoff48 : off < 2 ^ 48) by (pose proof (co_end _ Hc); clear -H256 Hendp H; lia).
  destruct (head_value off Hoff48 Hal) as [Hv1 Hv2].
  assert (Hunt : forall z, off <= z < off + 2 ^ p -> untouched us z).
  { intros z Hz. eapply (creating_untouched c Hc HK (LRec r raw p off) (off, p)); [constructor|exact I| |exact Hz].
    cbn [cpages]. apply elem_of_app. right. constructor. }
  pose proof (fresh_id c HK) as Hfi.
  assert (Hfi2 : forall cl', cl' ∈ calls -> forall r' raw' p' off', cl' = LNew r' raw' p' off' \/ cl' = LRec r' raw' p' off' -> cr_id r <> cr_id r').
  { intros cl' Hcl' r' raw' p' off' Hor E. pose proof (k_ids _ _ _ _ _ _ _ _ _ _ HK) as Hn. unfold ids in Hn. apply NoDup_app in Hn as (_ & _ & Hn).
    cbn in Hn. apply NoDup_cons in Hn as [Hn _]. apply Hn. apply elem_of_list_bind. exists cl'. split; [|exact Hcl'].
    destruct Hor as [-> | ->]; cbn [cid]; rewrite E; constructor. }
  assert (Hdis2 : forall r' raw' p' off' z, LRec r' raw' p' off' ∈ calls -> in_page (off', p') z -> ~ in_page (off, p) z).
  { intros r' raw' p' off' z Hl Hz Hz2. apply (Hfi2 _ Hl r' raw' p' off' (or_intror eq_refl)).
    assert (E : LRec r raw p off = LRec r' raw' p' off').
    { pose proof (core_nodup c HK) as Hn. unfold LiteInv.live in Hn. apply NoDup_app in Hn as (_ & _ & Hn). apply NoDup_app in Hn as (_ & _ & Hn).
      apply NoDup_app in Hn as (Hn & _). eapply (nodup_bind_elem (cpages c)) with (z := (off, p)); [exact Hn|constructor|now constructor| |].
      - cbn [cpages]. apply elem_of_app. right. constructor.
      - cbn [cpages]. apply elem_of_app. right.
        assert ((off, p) = (off', p')) as <-; [|constructor].
        eapply (core_share c HK); [exact Hlive| |exact Hz2|exact Hz]. eapply in_live_c; [right; exact Hl|].
        cbn [cpages]. apply elem_of_app. right. constructor. }
    injection E as <- _ _ _. reflexivity. }
  pose proof (k_calls _ _ _ _ _ _ _ _ _ _ HK _ (elem_of_list_here _ _)) as Hcall. cbn [call_ok] in Hcall.
  destruct Hcall as (Hreq & Hcr & Hos & Hon & Hrec).
  pose proof (raw_len c Hc r raw p Hreq Hcr) as [Hrl1 Hrl2].
  assert (Hst : read_be F (off + off_state) 1 = st_incomplete).
  { destruct Hreq as [Hv Hbb]. destruct (C07_created_record_decodes spage lpage r (sp_lp c Hc) Hv Hbb) as (raw' & p' & E' & _ & _ & _ & _ & D).
    rewrite Hcr in E'. injection E' as <- <-. pose proof (dc_state _ _ _ _ _ _ _ D) as Ds. unfold meta_state in Ds.
    destruct (buf_read raw off_state 1) as [v|] eqn:Ev; [|discriminate]. cbn [mbind option_bind] in Ds.
    unfold read_be. rewrite (rec_read F off raw _ _ _ Hrec Ev). destruct (_ || _) in Ds; [|discriminate]. injection Ds as Ds. exact Ds. }
  unfold update_head, ov_set_head in Eu. injection Eu as <- <- <-. unfold ov_set_next in En. cbn [ov_serial ov_heads ov_states ov_nexts] in En.
  injection En as <- <-.
  set (w1 := (bucket_off b, be_bytes 5 (N.shiftr off 8))). set (w2 := (off + off_next, be_bytes 6 cur)).
  assert (t = [w1; w2]) as -> by exact Et. clear Et.
  set (F' := apply_writes F [w1; w2]).
  assert (EF' : F' = dev_write (dev_write F (bucket_off b) (be_bytes 5 (N.shiftr off 8))) (off + off_next) (be_bytes 6 cur)) by reflexivity.
  assert (Hsep : bucket_off b + 5 <= li_base c) by (pose proof (heads_low c Hc b (bucket_off b + 4) Hb ltac:(lia)); lia).
  assert (HF : forall z, ~ (bucket_off b <= z < bucket_off b + 5) -> ~ (off + off_next <= z < off + off_next + 6) -> F' z = F z).
  { intros z H1 H2. rewrite EF'. rewrite !dev_write_other; [reflexivity| |]; unfold touches; cbn [fst snd]; rewrite be_bytes_length; assumption. }
  set (ov2 := {| ov_serial := ov_serial ov + 1 + 1; ov_heads := <[b := (ov_serial ov, off)]> (ov_heads ov); ov_states := ov_states ov;
                 ov_nexts := <[cr_id r := (ov_serial ov + 1, cur)]> (ov_nexts ov) |}).
  set (cl := LWait b (Some (n0 + length us)%nat) [TkHead b (ov_serial ov); TkNext (cr_id r) (ov_serial ov + 1)] []).
  assert (Hw : wkeep (ov_serial ov) (LRec r raw p off :: calls) (cl :: calls)).
  { eapply wkeep_trans; [apply wkeep_drop_head; discriminate|]. apply wkeep_add. intros tk Ht.
    rewrite !elem_of_cons in Ht. destruct Ht as [->|[->|Ht]]; [cbn; lia|cbn; lia|inversion Ht]. }
  assert (Hu : forall addr len, (addr + len <= bucket_off b \/ bucket_off b + 5 <= addr) -> (addr + len <= off + off_next \/ off + off_next + 6 <= addr) ->
    ukeep n0 us n0 (us ++ [[w1; w2]]) addr len).
  { intros addr len H1 H2. apply ukeep_snoc. intros w' z Hw' Ht Hz. rewrite !elem_of_cons in Hw'. destruct Hw' as [->|[->|Hw']]; [| |inversion Hw'];
    unfold touches, w1, w2 in Ht; cbn [fst snd] in Ht; rewrite be_bytes_length in Ht; lia. }
  assert (Hpow : forall o', o' ∈ objs -> 256 <= 2 ^ lo_pow2 o') by (intros o' Ho'; apply (page_pow c Hc HK), Ho').
  assert (Hpg : forall o', o' ∈ objs -> li_base c <= lo_off o') by (intros o' Ho'; apply (off_facts c Hc HK), Ho').
  assert (Hapart : forall o', o' ∈ objs -> lo_off o' + 8 <= off \/ off + 8 <= lo_off o').
  { intros o' Ho'. specialize (Hpow o' Ho'). destruct (N.le_gt_cases (lo_off o' + 8) off) as [|H1]; [auto|].
    destruct (N.le_gt_cases (off + 8) (lo_off o')) as [|H2]; [auto|]. exfalso.
    assert (Hz : in_page (off, p) (N.max off (lo_off o')) /\ in_page (mpage o') (N.max off (lo_off o'))).
    { unfold in_page, mpage. cbn [fst snd]. lia. }
    apply (Hdis o' (N.max off (lo_off o')) Ho'); apply Hz. }
  destruct HK as [[f K1] K2 K3 K4 K5 K6 K7 K8 K9 K10].
  assert (Eids : ids (new_obj r off p :: objs) (cl :: calls) ≡ₚ ids objs (LRec r raw p off :: calls)).
  { unfold ids. rewrite fmap_cons, !bind_cons. cbn [cid new_obj lo_req cl]. clear; perm_solve. }
  split.
  - exists f. eapply inv_perm; [exact K1|]. unfold LiteInv.live. rewrite fmap_cons, !bind_cons. cbn [cpages cl mpage new_obj lo_req lo_off lo_pow2]. change (mpage (new_obj r off p)) with (off, p). clear. perm_solve.
  - rewrite Eids. exact K2.
  - intros i Hi. apply K3. rewrite <- Eids. exact Hi.
  - intros o' Ho'. apply elem_of_cons in Ho' as [->|Ho'].
    + split; [exact Hreq|].
      assert (H3 : rstat spage lpage F (new_obj r off p)) by (eapply rec_on_rstat; [exact Hcr|exact Hrec]).
      eapply rstat_ext; [exact H3| |apply (sp_lp c Hc)|exact Hreq]. intros z Hz Hzp. cbn [new_obj lo_off] in *. apply HF; unfold static_off in Hz; offs; lia.
    + destruct (K4 o' Ho') as [H1 H2]. split; [exact H1|].
      eapply rstat_ext; [exact H2| |apply (sp_lp c Hc)|exact H1]. intros z Hz Hzp. specialize (Hpg o' Ho'). apply HF; [lia|].
      intros Hz2. apply (Hdis o' (lo_off o' + z) Ho'); unfold in_page, mpage; cbn [fst snd]; offs; lia.
  - intros cl' Hcl. apply elem_of_cons in Hcl as [->|Hcl].
    + intros tk Ht. rewrite !elem_of_cons in Ht. destruct Ht as [->|[->|Ht]]; [cbn; lia|cbn; lia|inversion Ht].
    + eapply call_ok_serial; [apply K5; now constructor| | |cbn; lia].
      * intros r' raw' p' off' -> Hr. pose proof (K5 _ (elem_of_list_further _ _ _ Hcl)) as (G1 & G2 & _). eapply rec_on_ext; [exact Hr|apply (raw_len c Hc r' raw' p' G1 G2)|].
        intros z Hz.
        assert (Hlow : li_base c <= off').
        { assert (HI : ainv a (live objs (LRec r raw p off :: calls) leak) f) by exact K1.
          pose proof (page_facts c Hc HI (off', p')) as G. apply G. eapply in_live_c; [right; exact Hcl|]. cbn [cpages]. apply elem_of_app. right. constructor. }
        apply HF; [lia|]. intros Hz2. apply (Hdis2 r' raw' p' off' z Hcl Hz). unfold in_page. cbn [fst snd]. offs. lia.
      * intros r' raw' p' off' Hr. split; [reflexivity|]. cbn [ov_nexts ov2]. apply lookup_insert_ne. eapply Hfi2; eassumption.
  - exact K6.
  - intros i e. cbn [ov_nexts ov2]. rewrite lookup_insert_Some. intros [[<- _]|[_ H]]; [|eapply K7, H].
    apply K3. unfold ids. apply elem_of_app. right. exact Hidc.
  - intros j t' w' Hj Hw'. apply lookup_app_Some in Hj as [Hj|[Hjl Hj]].
    + eapply pend_mono; [|eapply K8; eassumption]. intros pg. apply owned_mono.
      * intros o' Ho'. rewrite fmap_cons. right. now apply elem_of_list_fmap_1.
      * intros b' m tks' free' H. apply elem_of_cons in H as [H|H]; [discriminate|]. exists b', m, tks', free'. split; [now constructor|auto].
    + apply list_lookup_singleton_Some in Hj as [Hj <-]. rewrite !elem_of_cons in Hw'. destruct Hw' as [->|[->|Hw']]; [| |inversion Hw'].
      * left. exists b. split; [exact Hb|]. split; [reflexivity|]. cbn [snd w1]. apply be_bytes_length.
      * right. exists (mpage (new_obj r off p)). split.
        -- left. eexists. split; [constructor|reflexivity].
        -- right. cbn [w2 fst snd mpage new_obj lo_off]. split; [reflexivity|apply be_bytes_length].
  - intros b' Hb'. destruct (N.eq_dec b' b) as [->|Hne].
    + rewrite bchain_cons_eq by (symmetry; exact Eb). cbn [first_off new_obj lo_off]. split.
      * rewrite EF'. unfold read_be. rewrite (dev_read_same (dev_write F (bucket_off b) (be_bytes 5 (N.shiftr off 8)))).
        -- fold (read_be (dev_write F (bucket_off b) (be_bytes 5 (N.shiftr off 8))) (bucket_off b) 5).
           rewrite read_be_write by (try reflexivity; exact Hv1). exact Hv2.
        -- intros z Hz. apply dev_write_other. unfold touches. cbn [fst snd]. rewrite be_bytes_length. offs. lia.
      * eapply lok_set with (sn := ov_serial ov) (n := (n0 + length us)%nat).
        -- cbn [ov_heads ov2]. rewrite lookup_insert. reflexivity.
        -- constructor.
        -- constructor.
        -- intros b' sig tks free Hl Ht. apply elem_of_cons in Hl as [[= -> -> -> ->]|Hl]; [reflexivity|].
           specialize (Hold _ _ _ _ _ (elem_of_list_further _ _ _ Hl) Ht). cbn in Hold. lia.
        -- rewrite app_length. cbn. lia.
    + rewrite bchain_cons_ne by (cbn; unfold bkt; cbn [new_obj lo_req]; congruence).
      eapply head_keep; [now apply K9| | |exact Hold|exact Hw|].
      * intros z Hz. pose proof (heads_low c Hc b' z Hb' Hz) as [_ Hlow]. apply HF; [unfold bucket_off in *; lia|]. offs. lia.
      * cbn [ov_heads ov2]. apply lookup_insert_ne. congruence.
      * pose proof (heads_low c Hc b' (bucket_off b' + 4) Hb' ltac:(lia)) as [_ Hlow]. apply Hu; [unfold bucket_off in *; lia|]. offs. lia.
  - intros b'.
    assert (Hkeep : forall o' n, o' ∈ objs -> node_ok F us n0 ov (LRec r raw p off :: calls) o' n ->
      node_ok F' (us ++ [[w1; w2]]) n0 ov2 (cl :: calls) o' n).
    { intros o' n Ho' Hnode. pose proof (Hpg o' Ho') as G1. pose proof (Hapart o' Ho') as G2.
      eapply node_keep; [exact Hnode| | |reflexivity|exact Hold|exact Hw|apply Hu].
      - intros z Hz. apply HF; [lia|]. offs. lia.
      - cbn [ov_nexts ov2]. apply lookup_insert_ne. intros E. symmetry in E. revert E. apply Hfi; [exact Ho'|exact Hidc].
      - right. lia.
      - offs. lia. }
    assert (Hch : chain (node_ok F' (us ++ [[w1; w2]]) n0 ov2 (cl :: calls)) (bchain objs b') 0).
    { eapply chain_mono; [|apply K10]. intros o' n Ho'. apply bchain_elem in Ho' as [Ho' _]. now apply Hkeep. }
    destruct (N.eq_dec b' b) as [->|Hne].
    2: { rewrite bchain_cons_ne by (unfold bkt; cbn [new_obj lo_req]; congruence). exact Hch. }
    rewrite bchain_cons_eq by (symmetry; exact Eb). cbn [chain]. split; [|exact Hch]. rewrite first_or_0, <- Ecur.
    split; cbn [new_obj lo_off lo_req lo_st].
    + rewrite EF'. apply read_be_write; [reflexivity|exact Hn1].
    + eapply lok_set with (sn := ov_serial ov + 1) (n := (n0 + length us)%nat).
      * cbn [ov_nexts ov2]. rewrite lookup_insert. reflexivity.
      * unfold bkt. cbn [new_obj lo_req]. rewrite <- Eb. constructor.
      * right. constructor.
      * intros b' sig tks free Hl Ht. apply elem_of_cons in Hl as [[= -> -> -> ->]|Hl]; [reflexivity|].
        specialize (Hold _ _ _ _ _ (elem_of_list_further _ _ _ Hl) Ht). cbn in Hold. lia.
      * rewrite app_length. cbn. lia.
    + rewrite <- Hst. unfold read_be. f_equal. apply dev_read_same. intros z Hz. apply HF; offs; lia.
    + unfold lok. cbn [ov_states ov2]. rewrite Hos. intros z Hz.
      assert (Huk : ukeep n0 us n0 (us ++ [[w1; w2]]) (off + off_state) 1) by (apply Hu; offs; lia).
      eapply ukeep_untouched; [exact Huk|exact Hz|]. apply Hunt. offs. lia.
    + auto.
Qed.

(** ** Returning *)
#[local] Instance ticket_dec : EqDecision ticket.
Proof. solve_decision. Defined.
Definition evicted (tk : N -> N -> ticket) (tks : list ticket) (m m' : gmap N (N * N)) : Prop :=
  forall k, m' !! k = match m !! k with
                      | Some (s, v) => if bool_decide (tk k s ∈ tks) then None else Some (s, v)
                      | None => None
                      end.
Lemma evict_map_lookup m k s k' : evict_map m k s !! k' =
  match m !! k' with Some (s', v) => if bool_decide (k' = k /\ s' = s) then None else Some (s', v) | None => None end.
Proof.
  unfold evict_map. destruct (decide (k' = k)) as [->|Hne].
  - destruct (m !! k) as [[s' v]|] eqn:E; [|exact E]. destruct (N.eqb_spec s' s) as [->|Hs].
    + rewrite lookup_delete, bool_decide_true by auto. reflexivity.
    + rewrite E, bool_decide_false by (intros [_ ?]; contradiction). reflexivity.
  - assert (m !! k' = match m !! k' with Some (s', v) => if bool_decide (k' = k /\ s' = s) then None else Some (s', v) | None => None end) as Hm.
    { destruct (m !! k') as [[s' v]|]; [|reflexivity]. rewrite bool_decide_false by (intros [? _]; contradiction). reflexivity. }
    destruct (m !! k) as [[s' v]|]; [|exact Hm]. destruct (s' =? s); [|exact Hm]. rewrite lookup_delete_ne by congruence. exact Hm.
Qed.
Lemma evicted_nil tk m : evicted tk [] m m.
Proof. intros k. destruct (m !! k) as [[s v]|]; [|reflexivity]. rewrite bool_decide_false by (intros H; inversion H). reflexivity. Qed.
Lemma evicted_skip (tk : N -> N -> ticket) t tks m m' : (forall k s, tk k s <> t) -> evicted tk tks m m' -> evicted tk (t :: tks) m m'.
Proof.
  intros Hne H k. rewrite H. destruct (m !! k) as [[s v]|]; [|reflexivity].
  erewrite bool_decide_ext; [reflexivity|]. rewrite elem_of_cons. split; [auto|]. intros [E|E]; [now apply Hne in E|exact E].
Qed.
Lemma evicted_take (tk : N -> N -> ticket) k0 s0 tks m m' : (forall k s, tk k s = tk k0 s0 -> k = k0 /\ s = s0) ->
  evicted tk tks (evict_map m k0 s0) m' -> evicted tk (tk k0 s0 :: tks) m m'.
Proof.
  intros Hinj H k. rewrite H, evict_map_lookup. destruct (m !! k) as [[s v]|]; [|reflexivity].
  destruct (decide (k = k0 /\ s = s0)) as [[-> ->]|Hne].
  - rewrite !bool_decide_true; [reflexivity|constructor|auto].
  - rewrite (bool_decide_false (k = k0 /\ s = s0)) by exact Hne. erewrite bool_decide_ext; [reflexivity|]. rewrite elem_of_cons. split; [auto|].
    intros [E|E]; [now apply Hinj in E|exact E].
Qed.
Lemma evict_fold tks : forall ov, let ov' := fold_left ov_evict tks ov in
  ov_serial ov' = ov_serial ov /\ evicted TkHead tks (ov_heads ov) (ov_heads ov') /\
  evicted TkState tks (ov_states ov) (ov_states ov') /\ evicted TkNext tks (ov_nexts ov) (ov_nexts ov').
Proof.
  induction tks as [|t tks IH]; intros ov; cbn [fold_left].
  - split; [reflexivity|]. split; [|split]; apply evicted_nil.
  - specialize (IH (ov_evict ov t)). cbv zeta in IH. destruct IH as (I1 & I2 & I3 & I4). cbv zeta.
    destruct t as [k s|k s|k s]; cbn [ov_evict ov_serial ov_heads ov_states ov_nexts] in *; (split; [exact I1|]); (split; [|split]);
      try (apply evicted_skip; [discriminate|assumption]).
    + apply evicted_take; [|exact I2]. intros ? ? [= -> ->]. auto.
    + apply evicted_take; [|exact I3]. intros ? ? [= -> ->]. auto.
    + apply evicted_take; [|exact I4]. intros ? ? [= -> ->]. auto.
Qed.

Lemma lok_finish calls n0 us (tk : N -> N -> ticket) m m' b sig tks free k b0 addr len v : evicted tk tks m m' ->
  (forall n, sig = Some n -> (n < n0)%nat) ->
  lok (LWait b sig tks free :: calls) n0 us m k (tk k) b0 addr len v -> lok (LDone :: calls) n0 us m' k (tk k) b0 addr len v.
Proof.
  intros He Hs H. unfold lok in *. rewrite (He k). destruct (m !! k) as [[s v']|]; [|exact H].
  destruct H as [-> [Hh1 Hh2]]. destruct (bool_decide_reflect (tk k s ∈ tks)) as [Hin|Hin].
  - destruct (Hh2 _ _ _ _ (elem_of_list_here _ _) Hin) as (n & -> & Hcov). specialize (Hs n eq_refl).
    intros x Hx t w Ht Hw Htx. apply elem_of_list_lookup in Ht as [j Hj]. specialize (Hcov j t w x Hj Hw Htx Hx). lia.
  - split; [reflexivity|]. split.
    + destruct Hh1 as (sig' & tks' & free' & Hl & Ht). apply elem_of_cons in Hl as [[= -> -> -> ->]|Hl]; [contradiction|].
      exists sig', tks', free'. split; [now constructor|exact Ht].
    + intros b' sig' tks' free' Hl Ht. apply elem_of_cons in Hl as [Hl|Hl]; [discriminate|]. eapply Hh2; [right; exact Hl|exact Ht].
Qed.

Lemma core_finish a F us n0 ov calls used objs leak b sig tks free :
  core a F us n0 ov (LWait b sig tks free :: calls) used objs leak -> (forall n, sig = Some n -> (n < n0)%nat) ->
  exists a', release_all a free = Ok a' /\ core a' F us n0 (fold_left ov_evict tks ov) (LDone :: calls) used objs leak.
Proof.
  intros HK Hs. pose proof (evict_fold tks ov) as He. cbv zeta in He. destruct He as (E1 & E2 & E3 & E4).
  pose proof HK as [[f K1] K2 K3 K4 K5 K6 K7 K8 K9 K10].
  assert (HI : ainv a (free ++ live objs (LDone :: calls) leak) f).
  { eapply inv_perm; [exact K1|]. unfold LiteInv.live. rewrite !bind_cons. cbn [cpages]. clear. perm_solve. }
  eapply release_all_inv in HI as (a' & Ha & HI). exists a'. split; [exact Ha|].
  split; auto.
  - exists f. exact HI.
  - intros cl Hcl. apply elem_of_cons in Hcl as [->|Hcl]; [exact I|]. eapply call_ok_serial; [apply K5; now constructor| | |rewrite E1; lia].
    + auto.
    + intros r raw p off Hor. pose proof (K5 cl (elem_of_list_further _ _ _ Hcl)) as H5. rewrite E3, E4.
      destruct Hor as [-> | ->]; cbn [call_ok] in H5.
      * destruct H5 as (_ & _ & -> & ->). auto.
      * destruct H5 as (_ & _ & -> & -> & _). auto.
  - intros i e. rewrite E3. destruct (ov_states ov !! i) as [[s v]|] eqn:Ei; [|discriminate]. intros _. eapply K6, Ei.
  - intros i e. rewrite E4. destruct (ov_nexts ov !! i) as [[s v]|] eqn:Ei; [|discriminate]. intros _. eapply K7, Ei.
  - intros j t w Hj Hw. destruct (K8 j t w Hj Hw) as [H|(pg & [(o & Ho & ->)|(b' & m & tks' & free' & Hl & Hf & Hm)] & Hd)]; [left; exact H| |].
    + right. exists (mpage o). split; [left; eauto|exact Hd].
    + right. exists pg. split; [|exact Hd]. right. apply elem_of_cons in Hl as [[= -> <- -> ->]|Hl].
      * specialize (Hs m eq_refl). lia.
      * exists b', m, tks', free'. split; [now constructor|auto].
  - intros b' Hb'. destruct (K9 b' Hb') as [H1 H2]. split; [exact H1|]. eapply lok_finish; [exact E2|exact Hs|exact H2].
  - intros b'. eapply chain_mono; [|apply K10]. intros o n _ [N1 N2 N3 N4 N5]. split; auto.
    + eapply lok_finish; [exact E4|exact Hs|exact N2].
    + eapply lok_finish; [exact E3|exact Hs|exact N4].
Qed.

(** ** Starting a create *)
Lemma wkeep_other ser cl calls : (forall b sig tks free, cl <> LWait b sig tks free) -> wkeep ser calls (cl :: calls).
Proof. apply wkeep_cons_other. Qed.

Lemma core_new a a' F us n0 ov calls used objs leak r raw p off f' :
  core a F us n0 ov calls used objs leak -> cr_id r ∉ used ->
  ainv a' ((dpg r ++ [(off, p)]) ++ live objs calls leak) f' ->
  req_ok spage lpage r -> create_record spage lpage r = Some (CrRecord raw p) ->
  core a' F us n0 ov (LNew r raw p off :: calls) (cr_id r :: used) objs leak.
Proof.
  intros HK Hid HI Hr Hcr. pose proof (core_old _ _ _ _ _ _ _ _ _ _ HK) as Hold.
  assert (Hw : wkeep (ov_serial ov) calls (LNew r raw p off :: calls)) by (apply wkeep_cons_other; discriminate).
  destruct HK as [[f K1] K2 K3 K4 K5 K6 K7 K8 K9 K10].
  assert (Eids : ids objs (LNew r raw p off :: calls) ≡ₚ cr_id r :: ids objs calls).
  { unfold ids. rewrite bind_cons. cbn [cid]. clear. perm_solve. }
  split.
  - exists f'. eapply inv_perm; [exact HI|]. unfold LiteInv.live. rewrite bind_cons. cbn [cpages]. clear. perm_solve.
  - rewrite Eids. apply NoDup_cons. split; [|exact K2]. intros H. apply Hid, K3, H.
  - intros i Hi. rewrite Eids in Hi. apply elem_of_cons in Hi as [->|Hi]; [constructor|]. right. now apply K3.
  - exact K4.
  - intros cl Hcl. apply elem_of_cons in Hcl as [->|Hcl]; [|now apply K5]. cbn [call_ok]. split; [exact Hr|]. split; [exact Hcr|].
    split; [destruct (ov_states ov !! cr_id r) as [e|] eqn:E|destruct (ov_nexts ov !! cr_id r) as [e|] eqn:E]; auto; exfalso; apply Hid; [eapply K6, E|eapply K7, E].
  - intros i e H. right. eapply K6, H.
  - intros i e H. right. eapply K7, H.
  - intros j t w Hj Hw'. eapply pend_mono; [|eapply K8; eassumption]. intros pg. apply owned_mono.
    + intros o Ho. now apply elem_of_list_fmap_1.
    + intros b' m tks free H. exists b', m, tks, free. split; [now constructor|auto].
  - intros b' Hb. eapply head_keep; [now apply K9| | | |exact Hw|apply ukeep_refl]; auto.
  - intros b'. eapply chain_mono; [|apply K10]. intros o n _ H. eapply node_keep; [exact H| | | | |exact Hw|apply ukeep_refl]; auto.
Qed.

(** Pages lost by a create that ran out of space. *)
Lemma core_leak a a' F us n0 ov calls used objs leak lost f' :
  core a F us n0 ov calls used objs leak -> ainv a' (lost ++ live objs calls leak) f' ->
  core a' F us n0 ov calls used objs (lost ++ leak).
Proof.
  intros HK HI. destruct HK as [[f K1] K2 K3 K4 K5 K6 K7 K8 K9 K10]. split; auto.
  exists f'. eapply inv_perm; [exact HI|]. unfold LiteInv.live. clear. perm_solve.
Qed.

(** The record of a new object is written. *)
Lemma core_record a F F' us n0 ov calls used objs leak r raw p off :
  core a F us n0 ov (LNew r raw p off :: calls) used objs leak ->
  (forall z, F' z = dev_write F off raw z) ->
  (forall z, off <= z < off + N.of_nat (length raw) -> untouched us z /\ li_base c <= z) /\
  core a F' us n0 ov (LRec r raw p off :: calls) used objs leak.
Proof.
  intros HK HF'.
  pose proof (k_calls _ _ _ _ _ _ _ _ _ _ HK _ (elem_of_list_here _ _)) as Hcall. cbn [call_ok] in Hcall.
  destruct Hcall as (Hreq & Hcr & Hos & Hon). pose proof (raw_len c Hc r raw p Hreq Hcr) as [Hrl1 Hrl2].
  destruct (core_call_page c HK r raw p off (or_introl (elem_of_list_here _ _))) as (Hlive & Hidc & Hdis).
  pose proof (core_page c Hc HK _ Hlive) as (Hbase & Hendp & _ & _ & H256). cbn [fst snd] in *.
  assert (HF : forall z, ~ (off <= z < off + 2 ^ p) -> F' z = F z).
  { intros z Hz. rewrite HF'. apply dev_write_other. unfold touches. cbn [fst snd]. lia. }
  split.
  { intros z Hz. split; [|lia]. eapply (creating_untouched c Hc HK (LNew r raw p off) (off, p)); [constructor|exact I| |].
    - cbn [cpages]. apply elem_of_app. right. constructor.
    - unfold in_page. cbn [fst snd]. lia. }
  assert (HK' : core a F' us n0 ov (LNew r raw p off :: calls) used objs leak).
  { eapply (core_frame c Hc); [| | |exact HK].
    - intros z Hz. apply HF. lia.
    - intros o z Ho Hz. apply HF. intros Hz2. apply (Hdis o z Ho); [exact Hz2|exact Hz].
    - intros r' raw' p' off' z Hl Hz. apply HF. intros Hz2. apply elem_of_cons in Hl as [Hl|Hl]; [discriminate|].
      pose proof (core_nodup c HK) as Hn. unfold LiteInv.live in Hn. apply NoDup_app in Hn as (_ & _ & Hn). apply NoDup_app in Hn as (_ & _ & Hn).
      apply NoDup_app in Hn as (Hn & _).
      assert (E : LNew r raw p off = LRec r' raw' p' off'); [|discriminate].
      eapply (nodup_bind_elem (cpages c)) with (z := (off, p)); [exact Hn|constructor|now constructor| |].
      * cbn [cpages]. apply elem_of_app. right. constructor.
      * cbn [cpages]. apply elem_of_app. right.
        assert ((off, p) = (off', p')) as <-; [|constructor].
        eapply (core_share c HK); [exact Hlive| |exact Hz2|exact Hz]. eapply in_live_c; [right; exact Hl|].
        cbn [cpages]. apply elem_of_app. right. constructor. }
  clear HK. pose proof (core_old _ _ _ _ _ _ _ _ _ _ HK') as Hold.
  assert (Hw : wkeep (ov_serial ov) (LNew r raw p off :: calls) (LRec r raw p off :: calls)).
  { eapply wkeep_trans; [apply wkeep_drop_head; discriminate|apply wkeep_cons_other; discriminate]. }
  destruct HK' as [[f K1] K2 K3 K4 K5 K6 K7 K8 K9 K10]. split; auto.
  - exists f. exact K1.
  - intros cl Hcl. apply elem_of_cons in Hcl as [->|Hcl]; [|apply K5; now constructor]. cbn [call_ok].
    split; [exact Hreq|]. split; [exact Hcr|]. split; [exact Hos|]. split; [exact Hon|].
    intros i v Hi. rewrite HF'. apply dev_write_in; [lia|]. rewrite <- Hi. f_equal. lia.
  - intros j t w Hj Hw'. eapply pend_mono; [|eapply K8; eassumption]. intros pg. apply owned_mono.
    + intros o Ho. now apply elem_of_list_fmap_1.
    + intros b' m tks free H. apply elem_of_cons in H as [H|H]; [discriminate|]. exists b', m, tks, free. split; [now constructor|auto].
  - intros b' Hb. eapply head_keep; [now apply K9| | | |exact Hw|apply ukeep_refl]; auto.
  - intros b'. eapply chain_mono; [|apply K10]. intros o n _ H. eapply node_keep; [exact H| | | | |exact Hw|apply ukeep_refl]; auto.
Qed.
End steps.
