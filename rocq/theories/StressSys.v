(** All tasks of the stress tester together. *)
From Coq Require Import ZifyBool ZifyNat ZifyN.
From stdpp Require Import base numbers option gmap sets functions list.
From Verif Require Import Util Bytes PageIOModel PageIOSpec DirectModel DirectSpec DirectBase DirectSeqSpec DirectSys DirectHist StressModel StressSpec StressProofs StressOwn.
Open Scope N_scope.
Ltac Zify.zify_post_hook ::= idtac.

(** ** Only what is visible matters *)
Lemma visible_app ls1 ls2 : visible (ls1 ++ ls2) = visible ls1 ++ visible ls2.
Proof. apply List.filter_app. Qed.
Lemma stress_hide g ls ts : stress g ls ts -> stress g (visible ls) ts.
Proof.
  induction 1 as [|ls ts k t fin i op H IH H1 H2 H3 H4|ls ts k t fin H IH H1 H2 H3|ls ts k t fin i seen v H IH H1 H2|ls ts k t fin i seen v H IH H1 H2|ls ts H IH].
  - constructor.
  - rewrite visible_app. eapply st_call; try eassumption. intros op' Hin. apply (H4 op'). now apply (proj1 (in_visible (LCall i op') ls eq_refl)).
  - eapply st_panic; eassumption.
  - rewrite visible_app. eapply st_item; eassumption.
  - rewrite visible_app. eapply st_end; eassumption.
  - rewrite visible_app. cbn. rewrite app_nil_r. exact IH.
Qed.
Lemma visible_snoc ls vs l : visible ls = vs ++ [l] -> exists ls1 n, ls = ls1 ++ [l] ++ replicate n LTau /\ visible ls1 = vs.
Proof.
  induction ls as [|x ls IH] using rev_ind; intros H; [destruct vs; discriminate H|]. rewrite visible_app in H. destruct x as [i op|i v|].
  - cbn in H. apply app_inj_2 in H as [H1 H2]; [|reflexivity]. injection H2 as <-. exists ls, 0%nat. split; [reflexivity|exact H1].
  - cbn in H. apply app_inj_2 in H as [H1 H2]; [|reflexivity]. injection H2 as <-. exists ls, 0%nat. split; [reflexivity|exact H1].
  - cbn in H. rewrite app_nil_r in H. destruct (IH H) as (ls1 & n & -> & H1). exists ls1, (S n). split; [|exact H1].
    rewrite <- !app_assoc. do 2 f_equal. rewrite replicate_S_end. reflexivity.
Qed.
Lemma stress_taus g ls ts n : stress g ls ts -> stress g (ls ++ replicate n LTau) ts.
Proof.
  intros H. induction n as [|n IH]; [cbn; rewrite app_nil_r; exact H|]. rewrite replicate_S_end, app_assoc. apply st_tau, IH.
Qed.
Lemma all_taus ls : visible ls = [] -> exists n, ls = replicate n LTau.
Proof.
  induction ls as [|x ls IH]; [exists 0%nat; reflexivity|]. destruct x; cbn; [discriminate..|]. intros H. destruct (IH H) as (n & ->). exists (S n). reflexivity.
Qed.
Lemma stress_show g vs ts : stress g vs ts -> forall ls, visible ls = vs -> stress g ls ts.
Proof.
  induction 1 as [|ls ts k t fin i op H IH H1 H2 H3 H4|ls ts k t fin H IH H1 H2 H3|ls ts k t fin i seen v H IH H1 H2|ls ts k t fin i seen v H IH H1 H2|ls ts H IH]; intros ls' E.
  - apply all_taus in E as (n & ->). apply (stress_taus g [] _ n). constructor.
  - apply visible_snoc in E as (ls1 & n & -> & E). rewrite app_assoc. apply stress_taus. eapply st_call; eauto. intros op' Hin.
    apply (H4 op'). rewrite <- E. now apply (proj2 (in_visible (LCall i op') ls1 eq_refl)).
  - eapply st_panic; eauto.
  - apply visible_snoc in E as (ls1 & n & -> & E). rewrite app_assoc. apply stress_taus. eapply st_item; eauto.
  - apply visible_snoc in E as (ls1 & n & -> & E). rewrite app_assoc. apply stress_taus. eapply st_end; eauto.
  - exfalso. assert (LTau ∈ visible ls') as Hin by (rewrite E; apply elem_of_app; right; constructor).
    unfold visible in Hin. apply elem_of_list_In, filter_In in Hin as [_ Hin]. discriminate Hin.
Qed.
Lemma stress_visible g ls ls' ts : stress g ls ts -> visible ls' = visible ls -> stress g ls' ts.
Proof. intros H E. eapply stress_show; [apply stress_hide, H|exact E]. Qed.

(** ** The calls are within the limits *)
Lemma stress_valid g lpage ls ts : stress_cfg g lpage -> stress g ls ts ->
  (forall k tok off, ts !! k = Some (TQueued (TWrite tok off)) -> off < ob_len g k) /\ valid_calls lpage ls.
Proof.
  intros Hg. induction 1 as [|ls ts k t fin i op H IH H1 H2 H3 H4|ls ts k t fin H IH H1 H2 H3|ls ts k t fin i seen v H IH H1 H2|ls ts k t fin i seen v H IH H1 H2|ls ts H IH].
  - split; [|intros i op Hin; inversion Hin]. intros k tok off Hk. apply lookup_replicate in Hk as [Hk _]. discriminate Hk.
  - destruct IH as [IH1 IH2]. split.
    + intros k' tok off Hk. apply list_lookup_insert_Some in Hk as [(_ & Hk & _)|[_ Hk]]; [discriminate Hk|eauto].
    + intros i' op' Hin. apply elem_of_app in Hin as [Hin|Hin]; [eapply IH2; exact Hin|]. apply elem_of_list_singleton in Hin. injection Hin as -> ->.
      unfold task_call in H3. destruct (ob_key g k) as [key|]; [|discriminate H3]. cbn [mbind option_bind] in H3. destruct t; try (apply (inj Some) in H3 as <-; exact I).
      * destruct (pool_get g _ _); [|discriminate H3]. cbn [mbind option_bind] in H3. apply (inj Some) in H3 as <-. cbn [valid_op].
        apply IH1 in H1. pose proof (ob_len_bound _ _ Hg k) as Hb. pose proof (sc_fits _ _ Hg) as Hf. generalize dependent (2 ^ lpage). intros. lia.
      * destruct (_ <? _); [|discriminate H3]. apply (inj Some) in H3 as <-. cbn [valid_op]. lia.
  - destruct IH as [IH1 IH2]. split; [|exact IH2]. intros k' tok off Hk. apply list_lookup_insert_Some in Hk as [(_ & Hk & _)|[_ Hk]]; [discriminate Hk|eauto].
  - destruct IH as [IH1 IH2]. split.
    + intros k' tok off Hk. apply list_lookup_insert_Some in Hk as [(_ & Hk & _)|[_ Hk]]; [discriminate Hk|eauto].
    + intros i' op' Hin. apply elem_of_app in Hin as [Hin|Hin]; [eapply IH2; exact Hin|]. apply elem_of_list_singleton in Hin. discriminate Hin.
  - destruct IH as [IH1 IH2]. split.
    + intros k' tok off Hk. apply list_lookup_insert_Some in Hk as [(<- & Hk & _)|[_ Hk]]; [|eauto]. destruct (after g k t fin (seen ++ [v])) as [t'| |] eqn:E; [|discriminate Hk..].
      injection Hk as ->. unfold after in E. pose proof (ob_len_bound _ _ Hg k) as Hb.
      repeat match type of E with context [match ?x with _ => _ end] => destruct x eqn:?; try discriminate E end; injection E as <- <-; [lia|]. now apply N.ltb_lt.
    + intros i' op' Hin. apply elem_of_app in Hin as [Hin|Hin]; [eapply IH2; exact Hin|]. apply elem_of_list_singleton in Hin. discriminate Hin.
  - destruct IH as [IH1 IH2]. split; [exact IH1|]. intros i' op' Hin. apply elem_of_app in Hin as [Hin|Hin]; [eapply IH2; exact Hin|]. apply elem_of_list_singleton in Hin. discriminate Hin.
Qed.

(** ** The invariant *)
Definition st_task (st : tstate) : option task := match st with TQueued t | TRunning _ t _ _ => Some t | _ => None end.
Definition st_tok (st : tstate) : option N := t ← st_task st; task_tok t.
Definition fits (g : stcfg) (k : nat) (key : list N) (S : sstate) (procs : list sproc) (ls : list label) (st : tstate) : Prop :=
  match st with
  | TQueued t => ready g k key S t
  | TRunning i t fin seen => (exists p, procs !! i = Some p /\ linked g k key S t fin seen p) /\ exists op, task_call g k t fin = Some op /\ LCall i op ∈ ls
  | TOver => ss_com S !! key = None
  | TFailed => exists i, LCall i (OCreate key (ob_len g k)) ∈ ls /\ LVis i (VRet RPanicked) ∈ ls
  end.
Record Inv (g : stcfg) (z : ssys) (ls : list label) (ts : list tstate) : Prop := {
  iv_len : length ts = sg_objects g;
  iv_com : com_ok (z_state z);
  iv_fits : forall k st, ts !! k = Some st -> exists key, ob_key g k = Some key /\ fits g k key (z_state z) (z_procs z) ls st;
  iv_own : forall i p, z_procs z !! i = Some p -> p = SDone \/ exists k t fin seen, ts !! k = Some (TRunning i t fin seen);
  iv_toks : forall k k' st st' tok, ts !! k = Some st -> ts !! k' = Some st' -> st_tok st = Some tok -> st_tok st' = Some tok -> k = k';
  iv_ids : forall k st tok, ts !! k = Some st -> st_tok st = Some tok -> tok ∈ ss_ids (z_state z);
  iv_idx : forall k k' i t fin seen t' fin' seen', ts !! k = Some (TRunning i t fin seen) -> ts !! k' = Some (TRunning i t' fin' seen') -> k = k';
}.
Lemma inv_pub g z ls ts : Inv g z ls ts -> pub_ok (z_state z) (z_procs z).
Proof.
  intros HI tok id x Hin. apply elem_of_list_lookup in Hin as (i & Hi). destruct (iv_own _ _ _ _ HI _ _ Hi) as [E|(k & t & fin & seen & Hk)]; [discriminate E|].
  destruct (iv_fits _ _ _ _ HI _ _ Hk) as (key & _ & (p & Hp & Hl) & _). assert (p = SPublished tok id x) as -> by congruence.
  inversion Hl as [| | | |? ? co ? ? Hco Hok| |]; subst. exists key, co. split; [exact Hco|]. pose proof (ok_id _ _ _ _ Hok). congruence.
Qed.
Lemma insert_cases {A} (l : list A) i j x y : <[i := x]> l !! j = Some y -> (i = j /\ y = x) \/ (i <> j /\ l !! j = Some y).
Proof. intros H. apply list_lookup_insert_Some in H as [(-> & -> & _)|H]; auto. Qed.

Section Steps.
  Context (g : stcfg) (lpage : N) (Hg : stress_cfg g lpage).

  Lemma inv_start : Inv g {| z_state := ss_empty; z_procs := [] |} [] (replicate (sg_objects g) (TQueued TCreate)).
  Proof using Hg.
    constructor; cbn [z_state z_procs].
    - apply replicate_length.
    - constructor; cbn [ss_empty ss_com]; intros *; rewrite lookup_empty; discriminate.
    - intros k st H. apply lookup_replicate in H as [-> _]. destruct (ob_key_some _ _ Hg k) as (key & Hk). exists key. split; [exact Hk|]. reflexivity.
    - intros i p H. discriminate H.
    - intros k k' st st' tok H _ E. apply lookup_replicate in H as [-> _]. discriminate E.
    - intros k st tok H E. apply lookup_replicate in H as [-> _]. discriminate E.
    - intros k k' i t fin seen t' fin' seen' H. apply lookup_replicate in H as [H _]. discriminate H.
  Qed.

  Lemma inv_call z ls ts k t fin op : Inv g z ls ts -> ts !! k = Some (TQueued t) -> picks g k t fin -> task_call g k t fin = Some op ->
    Inv g {| z_state := z_state z; z_procs := z_procs z ++ [SCall op] |} (ls ++ [LCall (length (z_procs z)) op]) (<[k := TRunning (length (z_procs z)) t fin []]> ts).
  Proof using.
    intros HI Hk Hp Hc. pose proof HI as [I1 I2 I3 I4 I5 I6 I7]. constructor; cbn [z_state z_procs].
    - rewrite insert_length. exact I1.
    - exact I2.
    - intros k' st Hk'. apply insert_cases in Hk' as [[<- ->]|[Hne Hk']].
      + destruct (I3 _ _ Hk) as (key & E & F). exists key. split; [exact E|]. cbn [fits] in *. split.
        * exists (SCall op). split; [apply list_lookup_middle; reflexivity|]. eapply lk_call; eassumption.
        * exists op. split; [exact Hc|]. apply elem_of_app. right. constructor.
      + destruct (I3 _ _ Hk') as (key & E & F). exists key. split; [exact E|]. destruct st; cbn [fits] in *; [exact F| |exact F|].
        * destruct F as ((p & Fp & Fl) & op' & F1 & F2). split; [exists p; split; [now apply lookup_app_l_Some|exact Fl]|]. exists op'. split; [exact F1|]. apply elem_of_app. now left.
        * destruct F as (i & F1 & F2). exists i. split; apply elem_of_app; now left.
    - intros i p Hi. apply lookup_app_Some in Hi as [Hi|[Hl Hi]].
      + destruct (I4 _ _ Hi) as [->|(k' & t' & fin' & seen' & Hk')]; [now left|]. right. exists k', t', fin', seen'. rewrite list_lookup_insert_ne; [exact Hk'|]. intros ->. congruence.
      + right. apply list_lookup_singleton_Some in Hi as [Hi _]. exists k, t, fin, []. replace i with (length (z_procs z)) by lia. apply list_lookup_insert. eapply lookup_lt_Some; exact Hk.
    - intros k1 k2 st1 st2 tok H1 H2 E1 E2. apply insert_cases in H1 as [[<- ->]|[Hn1 H1]]; apply insert_cases in H2 as [[<- ->]|[Hn2 H2]].
      + reflexivity.
      + exact (I5 _ _ (TQueued t) st2 tok Hk H2 E1 E2).
      + exact (I5 _ _ st1 (TQueued t) tok H1 Hk E1 E2).
      + exact (I5 _ _ _ _ tok H1 H2 E1 E2).
    - intros k' st tok H E. apply insert_cases in H as [[<- ->]|[Hn H]]; [exact (I6 _ (TQueued t) tok Hk E)|exact (I6 _ _ _ H E)].
    - assert (Hnew : forall k' t' fin' seen', ts !! k' = Some (TRunning (length (z_procs z)) t' fin' seen') -> False).
      { intros k' t' fin' seen' Hk'. destruct (I3 _ _ Hk') as (key & _ & (p & Hq & _) & _). apply lookup_lt_Some in Hq. lia. }
      intros k1 k2 i t1 fin1 seen1 t2 fin2 seen2 H1 H2. apply insert_cases in H1 as [[<- E1]|[Hn1 H1]]; apply insert_cases in H2 as [[<- E2]|[Hn2 H2]].
      + reflexivity.
      + injection E1 as -> -> -> ->. exfalso. eapply Hnew; exact H2.
      + injection E2 as -> -> -> ->. exfalso. eapply Hnew; exact H1.
      + exact (I7 _ _ _ _ _ _ _ _ _ H1 H2).
  Qed.

  Lemma call_some z ls ts k t fin : Inv g z ls ts -> ts !! k = Some (TQueued t) -> task_call g k t fin <> None.
  Proof using Hg.
    intros HI Hk. destruct (iv_fits _ _ _ _ HI _ _ Hk) as (key & E & F). cbn [fits] in F. unfold task_call. rewrite E. cbn [mbind option_bind]. destruct t; try discriminate.
    - destruct F as ([Ha1 _] & _). pose proof (chunk_len_ok g k chunk_offset Ha1) as Hcl. rewrite (pool_data _ _ Hg) by lia. discriminate.
    - destruct F as (F & _). rewrite (proj2 (N.ltb_lt _ _) F). discriminate.
  Qed.

  (** A step of the call of object [k]. *)
  Lemma inv_move z ls ts k i t fin seen p S' p' v l st' : Inv g z ls ts -> ts !! k = Some (TRunning i t fin seen) -> z_procs z !! i = Some p ->
    sstep lpage (z_state z) (z_procs z) p S' p' v ->
    l = (match v with Some v => LVis i v | None => LTau end) ->
    st' = (match v with
           | None => TRunning i t fin seen
           | Some v => if is_final v then state_of (after g k t fin (seen ++ [v])) else TRunning i t fin (seen ++ [v])
           end) ->
    Inv g {| z_state := S'; z_procs := <[i := p']> (z_procs z) |} (ls ++ [l]) (<[k := st']> ts).
  Proof using Hg.
    intros HI Hk Hi Hs El Est. pose proof (inv_pub _ _ _ _ HI) as HP. pose proof HI as [I1 I2 I3 I4 I5 I6 I7].
    destruct (I3 _ _ Hk) as (key & Ekey & (p0 & Hp0 & Hl) & op & Hop & Hin). assert (p0 = p) as -> by congruence.
    destruct (own_step g lpage Hg k key Ekey _ _ _ _ _ _ _ _ _ I2 HP Hl Hs) as [HK HM].
    assert (Hlt : (i < length (z_procs z))%nat) by (eapply lookup_lt_Some; exact Hi). assert (Hltk : (k < length ts)%nat) by (eapply lookup_lt_Some; exact Hk).
    assert (Htok : st_tok st' = None \/ st_tok st' = task_tok t \/ exists tok, st_tok st' = Some tok /\ tok ∉ ss_ids (z_state z)).
    { rewrite Est. destruct v as [v|]; [|right; left; reflexivity]. destruct (is_final v); [|right; left; reflexivity]. destruct HM as [_ HM].
      destruct (after g k t fin (seen ++ [v])) as [t'| |]; [|left; reflexivity..]. destruct HM as (_ & [HM|[HM|HM]]); cbn [state_of]; unfold st_tok; cbn [st_task mbind option_bind]; eauto. }
    assert (Hids : forall tok, st_tok st' = Some tok -> tok ∈ ss_ids S').
    { intros tok E. rewrite Est in E. destruct v as [v|].
      - destruct (is_final v).
        + destruct HM as [_ HM]. destruct (after g k t fin (seen ++ [v])) as [t'| |]; [|discriminate E..]. destruct HM as (HM & _). cbn [state_of] in E.
          unfold st_tok in E. cbn [st_task mbind option_bind] in E. destruct t'; try discriminate E; cbn [task_tok ready] in *; injection E as ->; apply HM.
        + apply (kp_ids _ _ _ _ HK). apply (I6 _ _ tok Hk E).
      - apply (kp_ids _ _ _ _ HK). apply (I6 _ _ tok Hk E). }
    assert (Hnew : forall k' st tok, k <> k' -> ts !! k' = Some st -> st_tok st = Some tok -> st_tok st' <> Some tok).
    { intros k' st tok Hne Hk' E E'. destruct Htok as [Htok|[Htok|(tok' & Htok & Hn)]].
      - congruence.
      - apply Hne. refine (I5 k k' _ _ tok Hk Hk' _ E). unfold st_tok. cbn [st_task mbind option_bind]. congruence.
      - assert (tok' = tok) as -> by congruence. apply Hn. exact (I6 _ _ _ Hk' E). }
    constructor; cbn [z_state z_procs].
    - rewrite insert_length. exact I1.
    - eapply com_step; eassumption.
    - intros k' st Hk'. apply insert_cases in Hk' as [[<- ->]|[Hne Hk']].
      + exists key. split; [exact Ekey|]. subst st' l. destruct v as [v|].
        * destruct (is_final v) eqn:Ef.
          -- destruct HM as [-> HM]. destruct (after g k t fin (seen ++ [v])) as [t'| |]; cbn [state_of fits].
             ++ apply HM.
             ++ exact HM.
             ++ destruct HM as [-> ->]. exists i. unfold task_call in Hop. rewrite Ekey in Hop. cbn [mbind option_bind] in Hop. apply (inj Some) in Hop as <-.
                split; apply elem_of_app; [now left|]. right. constructor.
          -- cbn [fits]. split; [exists p'; split; [now apply list_lookup_insert|exact HM]|]. exists op. split; [exact Hop|]. apply elem_of_app. now left.
        * cbn [fits]. split; [exists p'; split; [now apply list_lookup_insert|exact HM]|]. exists op. split; [exact Hop|]. apply elem_of_app. now left.
      + destruct (I3 _ _ Hk') as (key' & E' & F). exists key'. split; [exact E'|].
        assert (Hkk : key' <> key).
        { intros ->. apply Hne. eapply (ob_keys_differ _ _ Hg); [| |exact Ekey|exact E']; rewrite <- I1; [exact Hltk|]. eapply lookup_lt_Some; exact Hk'. }
        assert (Htt : forall t', st_task st = Some t' -> task_tok t' = None \/ task_tok t' <> task_tok t).
        { intros t' Et. destruct (task_tok t') as [tok|] eqn:Etok; [|now left]. right. intros E. apply Hne. refine (I5 k k' _ _ tok Hk Hk' _ _).
          - unfold st_tok. cbn [st_task mbind option_bind]. congruence.
          - unfold st_tok. rewrite Et. cbn [mbind option_bind]. exact Etok. }
        destruct st as [t'|i' t' fin' seen'| |]; cbn [fits] in *.
        * eapply ready_kept; [exact HK|exact Hkk|apply Htt; reflexivity|exact F].
        * destruct F as ((q & Fq & Fl) & op' & F1 & F2). split.
          -- exists q. split; [|eapply linked_kept; [exact HK|exact Hkk|apply Htt; reflexivity|exact Fl]]. rewrite list_lookup_insert_ne; [exact Fq|].
             intros ->. apply Hne. eapply I7; [exact Hk|exact Hk'].
          -- exists op'. split; [exact F1|]. apply elem_of_app. now left.
        * rewrite (kp_com _ _ _ _ HK) by exact Hkk. exact F.
        * destruct F as (j & F1 & F2). exists j. split; apply elem_of_app; now left.
    - intros j q Hj. apply insert_cases in Hj as [[<- ->]|[Hne Hj]].
      + subst st'. destruct v as [v|]; [destruct (is_final v)|].
        * left. apply HM.
        * right. exists k, t, fin, (seen ++ [v]). now apply list_lookup_insert.
        * right. exists k, t, fin, seen. now apply list_lookup_insert.
      + destruct (I4 _ _ Hj) as [->|(k' & t' & fin' & seen' & Hk')]; [now left|]. right. exists k', t', fin', seen'. rewrite list_lookup_insert_ne; [exact Hk'|]. intros ->. congruence.
    - intros k1 k2 st1 st2 tok H1 H2 E1 E2. apply insert_cases in H1 as [[<- ->]|[Hn1 H1]]; apply insert_cases in H2 as [[<- ->]|[Hn2 H2]].
      + reflexivity.
      + exfalso. eapply Hnew; [exact Hn2|exact H2|exact E2|exact E1].
      + exfalso. eapply Hnew; [exact Hn1|exact H1|exact E1|exact E2].
      + exact (I5 _ _ _ _ tok H1 H2 E1 E2).
    - intros k' st tok H E. apply insert_cases in H as [[<- ->]|[Hn H]]; [now apply Hids|]. apply (kp_ids _ _ _ _ HK). exact (I6 _ _ _ H E).
    - assert (Hidx : forall j t' fin' seen', st' = TRunning j t' fin' seen' -> j = i).
      { intros j t' fin' seen' E. rewrite Est in E. destruct v as [v|]; [destruct (is_final v); [|congruence]|congruence]. destruct (after g k t fin (seen ++ [v])); discriminate E. }
      intros k1 k2 j t1 fin1 seen1 t2 fin2 seen2 H1 H2. apply insert_cases in H1 as [[<- E1]|[Hn1 H1]]; apply insert_cases in H2 as [[<- E2]|[Hn2 H2]].
      + reflexivity.
      + pose proof (Hidx _ _ _ _ (eq_sym E1)) as ->. exact (I7 _ _ _ _ _ _ _ _ _ Hk H2).
      + pose proof (Hidx _ _ _ _ (eq_sym E2)) as ->. exact (I7 _ _ _ _ _ _ _ _ _ H1 Hk).
      + exact (I7 _ _ _ _ _ _ _ _ _ H1 H2).
  Qed.

  Lemma no_step_done S all S' p' v : ~ sstep lpage S all SDone S' p' v.
  Proof using. intros H. inversion H. Qed.
  Lemma spec_snoc_inv z ls l z2 : spec_steps lpage z (ls ++ [l]) z2 -> exists z1, spec_steps lpage z ls z1 /\ spec_step lpage z1 l z2.
  Proof using.
    intros H. remember (ls ++ [l]) as w eqn:E. destruct H as [|z ls1 z1 l1 z2 H1 H2]; [destruct ls; discriminate E|].
    apply app_inj_2 in E as [-> E]; [|reflexivity]. injection E as ->. eauto.
  Qed.

  Lemma spec_nil_inv z z2 : spec_steps lpage z [] z2 -> z2 = z.
  Proof using. intros H. remember (@nil label) as w eqn:E. destruct H as [|z ls1 z1 l1 z2 H1 H2]; [reflexivity|]. destruct ls1; discriminate E. Qed.
  Lemma inv_run ls ts : stress g ls ts -> forall z, spec_steps lpage {| z_state := ss_empty; z_procs := [] |} ls z -> Inv g z ls ts.
  Proof using Hg.
    induction 1 as [|ls ts k t fin i op H IH H1 H2 H3 H4|ls ts k t fin H IH H1 H2 H3|ls ts k t fin i seen v H IH H1 H2|ls ts k t fin i seen v H IH H1 H2|ls ts H IH]; intros z Hz.
    - apply spec_nil_inv in Hz as ->. apply inv_start.
    - apply spec_snoc_inv in Hz as (z1 & Hz1 & Hz2). specialize (IH _ Hz1). remember (LCall i op) as l eqn:El. destruct Hz2 as [z1 op'|z1 j s S' s' v Hj Hst]; [|destruct v; discriminate El].
      injection El as <- ->. now apply inv_call.
    - exfalso. eapply call_some; [apply IH, Hz|exact H1|exact H3].
    - apply spec_snoc_inv in Hz as (z1 & Hz1 & Hz2). specialize (IH _ Hz1). remember (LVis i v) as l eqn:El. destruct Hz2 as [z1 op'|z1 j s S' s' v' Hj Hst]; [discriminate El|].
      destruct v' as [v'|]; [|discriminate El]. injection El as -> ->. eapply inv_move; [exact IH|exact H1|exact Hj|exact Hst|reflexivity|]. cbn beta iota. rewrite H2. reflexivity.
    - apply spec_snoc_inv in Hz as (z1 & Hz1 & Hz2). specialize (IH _ Hz1). remember (LVis i v) as l eqn:El. destruct Hz2 as [z1 op'|z1 j s S' s' v' Hj Hst]; [discriminate El|].
      destruct v' as [v'|]; [|discriminate El]. injection El as -> ->. eapply inv_move; [exact IH|exact H1|exact Hj|exact Hst|reflexivity|]. cbn beta iota. rewrite H2. reflexivity.
    - apply spec_snoc_inv in Hz as (z1 & Hz1 & Hz2). specialize (IH _ Hz1). remember LTau as l eqn:El. destruct Hz2 as [z1 op'|z1 j s S' s' v' Hj Hst]; [discriminate El|].
      destruct v' as [v'|]; [discriminate El|]. destruct (iv_own _ _ _ _ IH _ _ Hj) as [->|(k & t & fin & seen & Hk)]; [exfalso; eapply no_step_done; exact Hst|].
      rewrite <- (list_insert_id ts k _ Hk). eapply inv_move; [exact IH|exact Hk|exact Hj|exact Hst|reflexivity|reflexivity].
  Qed.
End Steps.

(** ** On a store *)
Lemma stress_direct_inv g c pages ls ts : cfg_ok c -> stress_cfg g (dc_lpage c) -> stress_direct g c pages ls ts ->
  exists ls' z, visible ls' = visible ls /\ Inv g z ls' ts.
Proof.
  intros Hc Hg [y0 y Hf Hs Hr]. destruct (stress_valid _ _ _ _ Hg Hr) as [_ Hv]. pose proof (fresh_good _ _ _ (ck_pages _ Hc) Hf) as HG.
  destruct (good_steps _ _ _ _ _ Hc Hv HG Hs) as (ls' & z' & lk & zz & H1 & H2 & _). exists ls', z'. split; [exact H2|].
  eapply (inv_run _ _ Hg); [|exact H1]. eapply stress_visible; [exact Hr|exact H2].
Qed.
