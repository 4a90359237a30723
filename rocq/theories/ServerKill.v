(** The server killed at any point refines the specification of ServerKillSpec.v. *)
From Coq Require Import ZifyBool ZifyNat ZifyN.
From stdpp Require Import base numbers option gmap sets functions list.
From Verif Require Import Util Bytes PageIOModel PageIOSpec TokenModel TokenProofs HttpModel BatchProofs DirectModel DirectSteps DirectSpec DirectBase DirectInv DirectTup DirectRel DirectSeqSpec DirectSeq.
From Verif Require Import DirectSys DirectLoadModel DirectLog DirectAlive DirectOld DirectRestart DirectRestartSpec DirectRestart4 PropertiesToken PropertiesDirect PropertiesDirectConc PropertiesRestart.
From Verif Require Import ServerModel ServerSpec ServerProofs ServerHist ServerCrashSpec ServerCrash ServerKillSpec.
Open Scope N_scope.
Ltac Zify.zify_post_hook ::= idtac.

(** ** Where the call under way began *)
Lemma visible_split L : forall a x b, visible L = a ++ x :: b -> exists l1 l2, L = l1 ++ x :: l2 /\ visible l1 = a /\ visible l2 = b.
Proof.
  induction L as [|l L IH]; intros a x b E; [destruct a; discriminate E|].
  cbn [visible List.filter] in E. destruct (is_visible l) eqn:El.
  - destruct a as [|y a]; cbn [app] in E; injection E as -> E.
    + exists [], L. split; [reflexivity|]. split; [reflexivity|exact E].
    + destruct (IH _ _ _ E) as (l1 & l2 & -> & <- & H). exists (y :: l1), l2. split; [reflexivity|]. split; [|exact H].
      cbn [visible List.filter]. rewrite El. reflexivity.
  - destruct (IH _ _ _ E) as (l1 & l2 & -> & <- & H). exists (l :: l1), l2. split; [reflexivity|]. split; [|exact H].
    cbn [visible List.filter]. rewrite El. reflexivity.
Qed.
Lemma dsteps_split c y0 ls y : dsteps c y0 ls y -> forall l1 l2, ls = l1 ++ l2 -> exists y1, dsteps c y0 l1 y1 /\ dsteps c y1 l2 y.
Proof.
  induction 1 as [y|y0 ls y1 l y2 Hs IH Hstep]; intros l1 l2 E.
  - symmetry in E. apply app_eq_nil in E as [-> ->]. exists y. split; constructor.
  - destruct l2 as [|x l2] using rev_ind.
    + rewrite app_nil_r in E. subst l1. exists y2. split; [econstructor; eassumption|constructor].
    + rewrite app_assoc in E. apply app_inj_tail in E as [E ->]. destruct (IH _ _ E) as (ym & H1 & H2). exists ym. split; [exact H1|].
      econstructor; eassumption.
Qed.
Lemma alive_steps_old_from c y ls y' z lk : cfg_ok c -> valid_calls (dc_lpage c) ls -> byte_keys ls -> no_panics ls -> Alive c y z lk ->
  (forall had, OldInv c (y_sh y) (y_procs y) had) -> dsteps c y ls y' ->
  exists ls' z' lk', spec_steps (dc_lpage c) z ls' z' /\ visible ls' = visible ls /\ Alive c y' z' lk' /\
    OldInv c (y_sh y') (y_procs y') (was_committed (dc_lpage c) z ls' z').
Proof.
  intros Hc Hv Hb Hn HG HO0 Hs. induction Hs as [y|y ls y1 l y2 Hs IH St].
  - exists [], z, lk. split; [constructor|]. split; [reflexivity|]. split; [exact HG|]. apply HO0.
  - assert (Hin : forall x, x ∈ ls -> x ∈ ls ++ [l]) by (intros; apply elem_of_app; now left).
    assert (Hl : l ∈ ls ++ [l]) by (apply elem_of_app; right; constructor).
    destruct IH as (ls1 & z1 & lk1 & H1 & H2 & H3 & HO);
      [intros i op Hi; eapply Hv, Hin, Hi|intros i k s Hi; eapply Hb, Hin, Hi|intros i Hi; eapply Hn, Hin, Hi|exact HG|exact HO0|].
    assert (Hp : panic_label l = false) by (eapply no_panics_label; eassumption).
    destruct (alive_step c y1 l y2 z1 lk1) as (ls2 & z2 & lk2 & H4 & H5 & H6 & _); auto.
    { destruct l; cbn; auto. eapply Hv, Hl. }
    { destruct l as [i op| |]; cbn; auto. destruct op; auto. eapply Hb, Hl. }
    exists (ls1 ++ ls2), z2, lk2. split; [eapply spec_app; eassumption|]. split; [rewrite !visible_app; now rewrite H2, H5|]. split; [exact H6|].
    eapply (old_dstep c y1 l y2 z1 lk1); [exact Hc|exact H3|exact St| | |exact HO].
    + intros key co. apply was_app, H4.
    + intros key co Hco. eapply was_app; [exact H4|]. now apply was_now.
Qed.

(** ** The call under way *)
Lemma answers_final lpage Q op vs Q' : answers lpage Q op vs Q' -> exists v, v ∈ vs /\ is_final v = true.
Proof.
  intros Ha. inversion Ha; subst; try (eexists; split; [left|reflexivity]).
  exists (VEnd RDone). split; [|reflexivity]. right. apply elem_of_app. right. left.
Qed.
Section Pend.
  Variables (lpage : N) (Q : qstate) (n : nat) (op : dop) (vs : list vis).
  Hypothesis Hfin : Forall (fun v => is_final v = false) vs.
  Lemma pend_inv zm ls z : z_procs zm = replicate n SDone -> Same (z_state zm) Q -> spec_steps lpage zm ls z ->
    forall t, visible ls ++ t = LCall n op :: map (LVis n) vs ->
    (visible ls = [] /\ z_procs z = replicate n SDone /\ Same (z_state z) Q) \/
    exists vs1 p, visible ls = LCall n op :: map (LVis n) vs1 /\ z_procs z = replicate n SDone ++ [p] /\ p <> SDone /\ mid lpage Q op vs1 p (z_state z).
  Proof using Hfin.
    intros Hp0 HS0 H. induction H as [z|z ls z1 l z2 H IH St]; intros t E; [left; auto|].
    rewrite visible_app in *. rewrite <- app_assoc in E. destruct (IH Hp0 HS0 _ E) as [(HL & Hp & HS)|(vs1 & p & HL & Hp & Hne & HM)]; clear IH; rewrite HL in *.
    - destruct St as [z1 op'|z1 i s S' s' v Hi Hs].
      + right. cbn [visible List.filter is_visible app] in *. injection E as E1 <- _. exists [], (SCall op'). rewrite Hp, replicate_length. cbn [z_procs z_state map].
        split; [reflexivity|]. split; [reflexivity|]. split; [discriminate|]. now constructor.
      + rewrite Hp in Hi. apply lookup_replicate in Hi as [-> _]. inversion Hs.
    - destruct St as [z1 op'|z1 i s S' s' v Hi Hs].
      + exfalso. cbn [visible List.filter is_visible app] in E. injection E as E. assert (LCall (length (z_procs z1)) op' ∈ map (LVis n) vs) as Hin by (rewrite <- E; apply elem_of_app; right; left).
        apply elem_of_list_In, in_map_iff in Hin as (? & ? & _). discriminate.
      + assert (i = n /\ s = p) as [-> ->].
        { rewrite Hp in Hi. apply lookup_app_Some in Hi as [Hi|[Hl Hi]].
          - apply lookup_replicate in Hi as [-> _]. inversion Hs.
          - rewrite replicate_length in *. destruct (i - n)%nat eqn:En; [|discriminate]. cbn in Hi. split; [lia|congruence]. }
        rewrite Hp in Hs. destruct (mid_step _ _ _ _ _ _ _ _ _ _ HM Hs) as [(Hne' & Hf' & HM')|(-> & Q' & Ha & HS')].
        * right. eexists _, s'. cbn [z_procs z_state].
          split; [|split; [rewrite Hp; rewrite insert_app_r_alt by (rewrite replicate_length; lia); rewrite replicate_length, Nat.sub_diag; reflexivity|split; [exact Hne'|exact HM']]].
          cbn [app]. f_equal. rewrite map_app. f_equal. destruct v; reflexivity.
        * exfalso. apply answers_final in Ha as (w & Hin & Hw).
          assert (w ∈ vs) as Hin'.
          { cbn [app] in E. injection E as E. assert (map (LVis n) (vs1 ++ match v with Some v => [v] | None => [] end) ++ t = map (LVis n) vs) as E'.
            { rewrite <- E, map_app, <- app_assoc. f_equal. destruct v; reflexivity. }
            assert (LVis n w ∈ map (LVis n) vs) as K by (rewrite <- E'; apply elem_of_app; left; apply elem_of_list_In, in_map, elem_of_list_In, Hin).
            apply elem_of_list_In, in_map_iff in K as (w' & E2 & K). injection E2 as ->. now apply elem_of_list_In. }
          rewrite Forall_forall in Hfin. rewrite (Hfin _ Hin') in Hw. discriminate Hw.
  Qed.

  Lemma took_stays z1 ls z p : z_procs z1 = replicate n SDone ++ [p] -> match p with SPublished _ _ _ | SDeleted _ | SDiscarded => True | _ => False end ->
    spec_steps lpage z1 ls z -> forall a t, a ++ visible ls ++ t = map (LVis n) vs -> z = z1.
  Proof using Hfin.
    intros Hp Ht H. induction H as [z|z ls z1 l z2 H IH St]; intros a t E; [reflexivity|].
    rewrite visible_app, <- app_assoc in E. specialize (IH Hp a _ E). subst z1.
    assert (Hmem : forall x, x ∈ visible [l] -> x ∈ map (LVis n) vs) by (intros x Hx; rewrite <- E; rewrite !elem_of_app; auto).
    exfalso. destruct St as [z op'|z i s S' s' v Hi Hs].
    - specialize (Hmem _ ltac:(left)). apply elem_of_list_In, in_map_iff in Hmem as (? & ? & _). discriminate.
    - rewrite Hp in Hi. apply lookup_app_Some in Hi as [Hi|[Hl Hi]]; [apply lookup_replicate in Hi as [-> _]; inversion Hs|].
      rewrite replicate_length in *. destruct (i - n)%nat eqn:En; [|discriminate]. cbn in Hi. injection Hi as ->.
      assert (exists v', v = Some v' /\ is_final v' = true) as (v' & -> & Hf) by (inversion Hs; subst; try contradiction; eauto).
      specialize (Hmem _ ltac:(left)). apply elem_of_list_In, in_map_iff in Hmem as (w & E2 & Hin). injection E2 as _ ->.
      apply elem_of_list_In in Hin. rewrite Forall_forall in Hfin. rewrite (Hfin _ Hin) in Hf. discriminate Hf.
  Qed.

  (** The objects there have been since it began. *)
  Lemma was_pend zm ls z key co : z_procs zm = replicate n SDone -> Same (z_state zm) Q -> visible ls = LCall n op :: map (LVis n) vs ->
    was_committed lpage zm ls z key co -> q_com Q !! key = Some co \/ ss_com (z_state z) !! key = Some co.
  Proof using Hfin.
    intros Hp HS HL (ls1 & z1 & ls2 & -> & H1 & H2 & Hco). rewrite visible_app in HL.
    destruct (pend_inv zm ls1 z1 Hp HS H1 _ HL) as [(_ & _ & HS1)|(vs1 & p & HL1 & Hp1 & _ & HM)]; [left; now rewrite <- (sm_com _ _ HS1)|].
    rewrite HL1 in HL. cbn [app] in HL. injection HL as HL.
    assert (Hstay : match p with SPublished _ _ _ | SDeleted _ | SDiscarded => True | _ => False end -> ss_com (z_state z) !! key = Some co).
    { intros Ht. rewrite (took_stays z1 ls2 z p Hp1 Ht H2 (map (LVis n) vs1) []); [exact Hco|]. rewrite app_nil_r. exact HL. }
    inversion HM; subst; try (right; apply Hstay; exact I); left;
      match goal with HS1 : Same _ Q |- _ => pose proof (sm_com _ _ HS1) as Hcom end.
    - now rewrite <- Hcom.
    - match goal with E : _ = z_state z1 |- _ => rewrite <- E in Hco end. now rewrite <- Hcom.
    - match goal with HS1 : Same _ (q_part _ _ _ _ _) |- _ => pose proof (sm_com _ _ HS1) as Hcom' end. rewrite Hcom' in Hco. exact Hco.
    - match goal with E : _ = z_state z1 |- _ => rewrite <- E in Hco end. now rewrite <- Hcom.
    - now rewrite <- Hcom.
  Qed.
End Pend.

(** ** The state when it began *)
Record qwf (lpage : N) (Q : qstate) : Prop := {
  qw_com : forall k1 k2 c1 c2, q_com Q !! k1 = Some c1 -> q_com Q !! k2 = Some c2 -> co_id c1 = co_id c2 -> k1 = k2;
  qw_up : forall tok u off l, q_up Q !! tok = Some u -> qu_parts u off = Some l -> valid_part lpage (qu_size u) off (N.of_nat (length l));
  qw_ids : forall key co, q_com Q !! key = Some co -> co_id co ∈ q_ids Q;
}.
Lemma good_qwf c y z lk zz Q : Good c y z lk zz -> Same (z_state z) Q -> qwf (dc_lpage c) Q.
Proof.
  intros [(qs & sp & Hp1 & Hp2 & HS & _ & _ & HR)] HQ. constructor; [| |exact (sm_old _ _ HQ)].
  - intros k1 k2 c1 c2 E1 E2 Hid. rewrite <- (sm_com _ _ HQ) in E1, E2.
    pose proof (rl_com _ _ _ _ HR k1) as R1. pose proof (rl_com _ _ _ _ HR k2) as R2. rewrite E1 in R1. rewrite E2 in R2.
    destruct (h_com (y_sh y) !! k1) as [r1|] eqn:F1; [|contradiction]. destruct (h_com (y_sh y) !! k2) as [r2|] eqn:F2; [|contradiction].
    destruct R1 as (o1 & O1 & I1 & _). destruct R2 as (o2 & O2 & I2 & _).
    assert (r1 = r2) as -> by (eapply id_unique; [exact HS|exact O1|exact O2|congruence]).
    destruct (s_com _ _ HS _ _ F1) as (a & A1 & A2 & _). destruct (s_com _ _ HS _ _ F2) as (b & B1 & B2 & _). congruence.
  - intros tok u off l Eu El. destruct (same_some_r _ _ _ _ HQ Eu) as (us & Es & K1 & K2 & K3 & K4 & K5).
    destruct (rl_ref _ _ _ _ HR _ _ Es) as [r Hr]. destruct (rl_up _ _ _ _ HR _ _ Hr) as (u' & Eu' & ob & O1 & O2 & O3 & O4 & O5 & O6).
    rewrite Es in Eu'. injection Eu' as <-. destruct (O6 off) as (_ & _ & P). rewrite K5 in P. cbn [quiet pt_data] in P.
    destruct (P _ El) as (_ & V & _). rewrite O4, K2 in V. exact V.
Qed.

Definition seen_state (S : sstate) : qstate := {| q_up := seen <$> ss_up S; q_com := ss_com S; q_ids := ss_ids S |}.
Lemma crash_seen lpage had z S' : crash lpage had z S' -> Same S' (seen_state S').
Proof.
  intros HC. constructor; cbn [seen_state q_up q_com q_ids].
  - intros tok. rewrite lookup_fmap. destruct (ss_up S' !! tok) as [u|] eqn:E; cbn [fmap option_fmap option_map]; [|exact I].
    assert (up_open u = true /\ forall off, up_parts u off = quiet (pt_data (up_parts u off))) as [H1 H2].
    { destruct (ss_up (z_state z) !! tok) as [u0|] eqn:E0.
      - rewrite (cr_up _ _ _ _ HC _ _ E0) in E. injection E as <-. split; reflexivity.
      - destruct (cr_up_new _ _ _ _ HC _ _ E E0) as [_ _ ->|co _ _ (_ & _ & _ & R1 & R2) _|co _ (_ & _ & _ & R1 & R2)].
        + split; reflexivity.
        + split; [exact R1|]. intros off. rewrite R2. reflexivity.
        + split; [exact R1|]. intros off. rewrite R2. reflexivity. }
    unfold up_same, seen. cbn. repeat (split; [reflexivity || assumption|]). exact H2.
  - reflexivity.
  - reflexivity.
  - apply (cr_ids _ _ _ _ HC).
Qed.
Lemma more_refl u : upload_more u u.
Proof. constructor; auto. Qed.
Lemma restores_more lpage u u' co : restores lpage u' (qu_key u) co -> co_size co = qu_size u -> co_created co = qu_created u -> has_written u (co_bytes co) ->
  (forall off l, qu_parts u off = Some l -> valid_part lpage (qu_size u) off (N.of_nat (length l))) -> upload_more u (seen u').
Proof.
  intros (R1 & R2 & R3 & _ & R5) Hs Hcr Hw Hv. constructor; cbn [seen qu_key qu_size qu_created qu_parts]; [exact R1|congruence|congruence|].
  intros off l E Hl. destruct (Hv _ _ E) as [V1 V2]. rewrite R5. cbn [whole_part pt_data]. rewrite V1, Hs. cbn [N.eqb andb].
  assert (Hlen : (0 < length l)%nat) by (destruct l; [contradiction|cbn; clear; lia]).
  assert (off < qu_size u) as Hlt by (revert V2 Hlen; clear; generalize (2 ^ lpage), (qu_size u); intros; lia).
  apply N.ltb_lt in Hlt as Hlt'. rewrite Hlt'. f_equal. apply list_eq. intros i.
  assert (length l = N.to_nat (N.min (2 ^ lpage) (qu_size u - off))) as HL by (revert V2 Hlen; clear; generalize (2 ^ lpage), (qu_size u); intros; lia).
  destruct (l !! i) as [b|] eqn:Eb.
  - rewrite list_lookup_fmap, lookup_seq_lt by (rewrite <- HL; eapply lookup_lt_Some, Eb). cbn [fmap option_fmap option_map Nat.add]. f_equal. eapply Hw; eassumption.
  - apply lookup_ge_None in Eb. apply lookup_ge_None. rewrite fmap_length, seq_length, <- HL. exact Eb.
Qed.
Lemma same_object_refl co : same_object co co.
Proof. repeat split. Qed.

Section Crash.
  Variables (lpage : N) (had : list N -> cobj -> Prop) (z : ssys) (S' : sstate) (Q : qstate) (n : nat).
  Hypothesis HW : qwf lpage Q.
  Hypothesis Hhad : forall key co, had key co -> q_com Q !! key = Some co \/ ss_com (z_state z) !! key = Some co.
  Hypothesis HC : crash lpage had z S'.

  (** The uploads that were there and are not involved. *)
  Lemma crash_up id : ss_up (z_state z) !! id <> None \/ ss_up S' !! id = None -> 
    forall Q1, Same (z_state z) Q1 -> match q_up Q1 !! id, seen <$> ss_up S' !! id with Some u, Some u' => upload_more u u' | None, None => True | _, _ => False end.
  Proof using HC.
    intros H Q1 HQ. pose proof (sm_up _ _ HQ id) as M. destruct (ss_up (z_state z) !! id) as [u|] eqn:E.
    - destruct (q_up Q1 !! id) as [q|]; [|contradiction]. rewrite (cr_up _ _ _ _ HC _ _ E). cbn [fmap option_fmap option_map].
      destruct M as (A1 & A2 & A3 & A4 & A5). constructor; cbn; auto. intros off l El _. rewrite A5. exact El.
    - destruct (q_up Q1 !! id); [contradiction|]. destruct H as [H|H]; [contradiction|]. rewrite H. exact I.
  Qed.

  Lemma published_crash tok u id bytes old : z_procs z = replicate n SDone ++ [SPublished tok id old] -> q_up Q !! tok = Some u -> id ∉ q_ids Q ->
    has_written u bytes -> Same (z_state z) (q_publish Q tok u id bytes) -> old = co_id <$> q_com Q !! qu_key u ->
    alike Q (seen_state S') \/ alike (q_publish Q tok u id bytes) (seen_state S') \/
    (is_Some (q_com Q !! qu_key u) /\ alike (q_drop Q tok) (seen_state S')).
  Proof using HW Hhad HC.
    intros Hp Hu Hid Hby HS Hold.
    assert (Hpub : forall t i, publishing_from z t i -> t = tok /\ i = id).
    { intros t i [rep Hin]. apply (last_call _ _ _ _ Hp) in Hin; [|discriminate]. injection Hin as -> -> _. auto. }
    assert (Hrem : forall i, removing z i -> old = Some i).
    { intros i [(t & new & Hin)|Hin]; (apply (last_call _ _ _ _ Hp) in Hin; [|discriminate]); [|discriminate Hin]. now injection Hin as _ _ <-. }
    pose proof (sm_com _ _ HS) as Hcom. cbn [q_publish q_com] in Hcom.
    set (key := qu_key u) in *. set (cnew := {| co_id := id; co_size := qu_size u; co_created := qu_created u; co_bytes := bytes |}) in *.
    assert (Hfresh : forall k co, q_com Q !! k = Some co -> co_id co <> id) by (intros k co E <-; apply Hid; eapply (qw_ids _ _ HW); exact E).
    (* an object of the old state that is being removed *)
    assert (F0 : forall k co co0, old = Some (co_id co) -> had k co0 -> same_object co0 co -> k = key /\ q_com Q !! key = Some co0).
    { intros k co co0 Ho Hh (Hi & _). rewrite Hold in Ho. destruct (q_com Q !! key) as [cold|] eqn:Ek; [|discriminate Ho]. cbn in Ho. injection Ho as Ho.
      assert (q_com Q !! k = Some co0) as E0.
      { destruct (Hhad _ _ Hh) as [E|E]; [exact E|]. rewrite Hcom in E. apply lookup_insert_Some in E as [[<- <-]|[_ E]]; [|exact E].
        exfalso. cbn [cnew co_id] in Hi. apply (Hfresh _ _ Ek). congruence. }
      assert (k = key) as -> by (eapply (qw_com _ _ HW); [exact E0|exact Ek|congruence]). split; [reflexivity|congruence]. }
    assert (F1 : forall k, k <> key -> ss_com S' !! k = q_com Q !! k).
    { intros k Hk. assert (Hz : ss_com (z_state z) !! k = q_com Q !! k) by (rewrite Hcom; apply lookup_insert_ne; congruence).
      assert (Hback : forall co, ss_com S' !! k = Some co -> q_com Q !! k = Some co).
      { intros co E. destruct (cr_com _ _ _ _ HC _ _ E) as [E'|(Hr & co0 & Hh & Hso)]; [now rewrite <- Hz|]. apply Hrem in Hr.
        destruct (F0 _ _ _ Hr Hh Hso). contradiction. }
      destruct (ss_com S' !! k) as [co|] eqn:E; [symmetry; apply Hback; reflexivity|]. destruct (q_com Q !! k) as [co|] eqn:Eq; [exfalso|reflexivity].
      destruct (cr_com_kept _ _ _ _ HC k co Hz) as [K|[(co' & K & _)|(t & w & K & _)]]; [congruence|congruence|].
      apply Hpub in K as [_ K]. eapply Hfresh; eassumption. }
    assert (F2 : forall i, i <> tok -> match q_up Q !! i, seen <$> ss_up S' !! i with Some u, Some u' => upload_more u u' | None, None => True | _, _ => False end).
    { intros i Hi. pose proof (crash_up i) as K. specialize (fun H => K H _ HS). cbn [q_publish q_up] in K. rewrite lookup_delete_ne in K by congruence. apply K.
      destruct (ss_up (z_state z) !! i) as [w|] eqn:E; [left; discriminate|]. right. destruct (ss_up S' !! i) as [w|] eqn:E'; [exfalso|reflexivity].
      destruct (cr_up_new _ _ _ _ HC _ _ E' E) as [Hin _ _|co Hpf _ _ _|co Hin _].
      - apply (last_call _ _ _ _ Hp) in Hin; discriminate.
      - apply Hpub in Hpf as [? _]. contradiction.
      - apply (last_call _ _ _ _ Hp) in Hin; discriminate. }
    assert (Hztok : ss_up (z_state z) !! tok = None).
    { pose proof (sm_up _ _ HS tok) as M. cbn [q_publish q_up] in M. rewrite lookup_delete in M. destruct (ss_up (z_state z) !! tok); [contradiction|reflexivity]. }
    assert (Hzkey : ss_com (z_state z) !! key = Some cnew) by (rewrite Hcom; apply lookup_insert).
    assert (Hsub : {[id]} ∪ q_ids Q ⊆ ss_ids S') by (pose proof (proj1 (cr_ids _ _ _ _ HC)) as K; rewrite (sm_ids _ _ HS) in K; exact K).
    assert (Hsub' : q_ids Q ⊆ ss_ids S') by set_solver.
    assert (Hrest : forall w, restores lpage w key cnew -> upload_more u (seen w)).
    { intros w Hr. eapply restores_more; [exact Hr|reflexivity|reflexivity|exact Hby|]. intros off l. apply (qw_up _ _ HW _ _ _ _ Hu). }
    (* the upload is there again, and the key is as it was *)
    assert (Hback : forall w, ss_up S' !! tok = Some w -> restores lpage w key cnew ->
      match q_com Q !! key, ss_com S' !! key with Some co, Some co' => same_object co co' | None, None => True | _, _ => False end -> alike Q (seen_state S')).
    { intros w Ew Hr Hk. constructor; cbn [seen_state q_com q_up q_ids]; [| |exact Hsub'].
      - intros k. destruct (decide (k = key)) as [->|Hne]; [exact Hk|]. rewrite F1 by exact Hne. destruct (q_com Q !! k); [apply same_object_refl|exact I].
      - intros i. rewrite lookup_fmap. destruct (decide (i = tok)) as [->|Hne]; [|apply F2, Hne]. rewrite Hu, Ew. cbn [fmap option_fmap option_map]. apply Hrest, Hr. }
    destruct (ss_com S' !! key) as [co|] eqn:Ek.
    - destruct (cr_com _ _ _ _ HC _ _ Ek) as [E'|(Hr & co0 & Hh & Hso)].
      + (* the new object *)
        rewrite Hzkey in E'. injection E' as <-. right. left. constructor; cbn [seen_state q_com q_up q_ids q_publish]; [| |exact Hsub].
        * intros k. destruct (decide (k = key)) as [->|Hne].
          -- fold key. rewrite lookup_insert, Ek. apply same_object_refl.
          -- fold key. rewrite lookup_insert_ne by congruence. rewrite F1 by exact Hne. destruct (q_com Q !! k); [apply same_object_refl|exact I].
        * intros i. rewrite lookup_fmap. destruct (decide (i = tok)) as [->|Hne]; [|rewrite lookup_delete_ne by congruence; apply F2, Hne].
          rewrite lookup_delete. destruct (ss_up S' !! tok) as [w|] eqn:Ew; [exfalso|exact I].
          destruct (cr_up_new _ _ _ _ HC _ _ Ew Hztok) as [Hin _ _|co Hpf _ _ Hno|co Hin _].
          -- apply (last_call _ _ _ _ Hp) in Hin; discriminate.
          -- apply Hpub in Hpf as [_ Hpf]. apply (Hno _ _ Ek). rewrite Hpf. reflexivity.
          -- apply (last_call _ _ _ _ Hp) in Hin; discriminate.
      + (* the old object *)
        apply Hrem in Hr. destruct (F0 _ _ _ Hr Hh Hso) as [_ Hq].
        destruct (ss_up S' !! tok) as [w|] eqn:Ew.
        * left. destruct (cr_up_new _ _ _ _ HC _ _ Ew Hztok) as [Hin _ _|co1 Hpf Hh1 Hr1 Hno|co1 Hin _].
          -- apply (last_call _ _ _ _ Hp) in Hin; discriminate.
          -- apply Hpub in Hpf as [_ Hpf].
             assert (co1 = cnew /\ up_key w = key) as [-> Hwk].
             { destruct (Hhad _ _ Hh1) as [E|E]; [exfalso; eapply Hfresh; eassumption|]. rewrite Hcom in E. apply lookup_insert_Some in E as [[<- <-]|[_ E]]; [auto|].
               exfalso. eapply Hfresh; eassumption. }
             rewrite Hwk in Hr1. apply (Hback w eq_refl Hr1). rewrite Hq. exact Hso.
          -- apply (last_call _ _ _ _ Hp) in Hin; discriminate.
        * right. right. split; [rewrite Hq; eauto|]. constructor; cbn [seen_state q_com q_up q_ids q_drop]; [| |exact Hsub'].
          -- intros k. destruct (decide (k = key)) as [->|Hne]; [rewrite Hq, Ek; exact Hso|]. rewrite F1 by exact Hne. destruct (q_com Q !! k); [apply same_object_refl|exact I].
          -- intros i. rewrite lookup_fmap. destruct (decide (i = tok)) as [->|Hne]; [rewrite lookup_delete, Ew; exact I|]. rewrite lookup_delete_ne by congruence. apply F2, Hne.
    - (* none *)
      left. destruct (cr_com_both _ _ _ _ HC _ _ Hzkey Ek) as (t & rep & Hin & Hrp). apply (last_call _ _ _ _ Hp) in Hin; [|discriminate]. injection Hin as _ ->.
      assert (q_com Q !! key = None) as Hq.
      { destruct (q_com Q !! key) as [cold|] eqn:Eq; [exfalso|reflexivity]. cbn in Hold. destruct (Hrp _ Hold) as [t' Hpf].
        apply Hpub in Hpf as [_ Hpf]. eapply Hfresh; eassumption. }
      destruct (cr_com_kept _ _ _ _ HC _ _ Hzkey) as [K|[(co' & K & _)|(t' & w & Hpf & Ew & Hr)]]; [congruence|congruence|].
      apply Hpub in Hpf as [-> _]. apply (Hback w Ew Hr). rewrite Hq. exact I.
  Qed.

  Lemma deleted_crash key co : z_procs z = replicate n SDone ++ [SDeleted (co_id co)] -> q_com Q !! key = Some co -> Same (z_state z) (q_remove Q key) ->
    alike Q (seen_state S') \/ alike (q_remove Q key) (seen_state S').
  Proof using HW Hhad HC.
    intros Hp Hk HS.
    assert (Hpub : forall t i, ~ publishing_from z t i).
    { intros t i [rep Hin]. apply (last_call _ _ _ _ Hp) in Hin; discriminate. }
    assert (Hrem : forall i, removing z i -> i = co_id co).
    { intros i [(t & new & Hin)|Hin]; (apply (last_call _ _ _ _ Hp) in Hin; [|discriminate]); [discriminate Hin|]. now injection Hin as ->. }
    pose proof (sm_com _ _ HS) as Hcom. cbn [q_remove q_com] in Hcom.
    assert (F0 : forall k co' co0, co_id co' = co_id co -> had k co0 -> same_object co0 co' -> k = key /\ co0 = co).
    { intros k co' co0 Ho Hh (Hi & _).
      assert (q_com Q !! k = Some co0) as E0.
      { destruct (Hhad _ _ Hh) as [E|E]; [exact E|]. rewrite Hcom in E. apply lookup_delete_Some in E as [_ E]. exact E. }
      assert (k = key) as -> by (eapply (qw_com _ _ HW); [exact E0|exact Hk|congruence]). split; [reflexivity|congruence]. }
    assert (F1 : forall k, k <> key -> ss_com S' !! k = q_com Q !! k).
    { intros k Hne. assert (Hz : ss_com (z_state z) !! k = q_com Q !! k) by (rewrite Hcom; apply lookup_delete_ne; congruence).
      assert (Hback : forall co', ss_com S' !! k = Some co' -> q_com Q !! k = Some co').
      { intros co' E. destruct (cr_com _ _ _ _ HC _ _ E) as [E'|(Hr & co0 & Hh & Hso)]; [now rewrite <- Hz|]. apply Hrem in Hr.
        destruct (F0 _ _ _ Hr Hh Hso). contradiction. }
      destruct (ss_com S' !! k) as [co'|] eqn:E; [symmetry; apply Hback; reflexivity|]. destruct (q_com Q !! k) as [co'|] eqn:Eq; [exfalso|reflexivity].
      destruct (cr_com_kept _ _ _ _ HC k co' Hz) as [K|[(co'' & K & _)|(t & w & K & _)]]; [congruence|congruence|]. eapply Hpub, K. }
    assert (F2 : forall i, match q_up Q !! i, seen <$> ss_up S' !! i with Some u, Some u' => upload_more u u' | None, None => True | _, _ => False end).
    { intros i. pose proof (crash_up i) as K. specialize (fun H => K H _ HS). cbn [q_remove q_up] in K. apply K.
      destruct (ss_up (z_state z) !! i) as [w|] eqn:E; [left; discriminate|]. right. destruct (ss_up S' !! i) as [w|] eqn:E'; [exfalso|reflexivity].
      destruct (cr_up_new _ _ _ _ HC _ _ E' E) as [Hin _ _|co1 Hpf _ _ _|co1 Hin _].
      - apply (last_call _ _ _ _ Hp) in Hin; discriminate.
      - eapply Hpub, Hpf.
      - apply (last_call _ _ _ _ Hp) in Hin; discriminate. }
    assert (Hsub : q_ids Q ⊆ ss_ids S') by (pose proof (proj1 (cr_ids _ _ _ _ HC)) as K; rewrite (sm_ids _ _ HS) in K; exact K).
    destruct (ss_com S' !! key) as [co'|] eqn:Ek.
    - left. destruct (cr_com _ _ _ _ HC _ _ Ek) as [E'|(Hr & co0 & Hh & Hso)]; [rewrite Hcom, lookup_delete in E'; discriminate E'|].
      apply Hrem in Hr. destruct (F0 _ _ _ Hr Hh Hso) as [_ ->].
      constructor; cbn [seen_state q_com q_up q_ids]; [| |exact Hsub].
      + intros k. destruct (decide (k = key)) as [->|Hne]; [rewrite Hk, Ek; exact Hso|]. rewrite F1 by exact Hne. destruct (q_com Q !! k); [apply same_object_refl|exact I].
      + intros i. rewrite lookup_fmap. apply F2.
    - right. constructor; cbn [seen_state q_com q_up q_ids q_remove]; [| |exact Hsub].
      + intros k. destruct (decide (k = key)) as [->|Hne]; [rewrite lookup_delete, Ek; exact I|].
        rewrite lookup_delete_ne by congruence. rewrite F1 by exact Hne. destruct (q_com Q !! k); [apply same_object_refl|exact I].
      + intros i. rewrite lookup_fmap. apply F2.
  Qed.
End Crash.

(** ** The request under way *)
Lemma alike_refl Q : alike Q Q.
Proof.
  constructor; [| |reflexivity].
  - intros k. destruct (q_com Q !! k); [apply same_object_refl|exact I].
  - intros i. destruct (q_up Q !! i); [apply more_refl|exact I].
Qed.
Lemma any_of s Q e Q' : survives s Q e Q' -> survives_any s Q e Q'.
Proof.
  intros [rq r Q1 H|rq Q1 H|ids H]; [constructor; exact H| |constructor; exact H]. constructor. eapply la_loses; [exact H|apply alike_refl].
Qed.
Lemma any_all_of s Q es Q' : survives_all s Q es Q' -> survives_any_all s Q es Q'.
Proof. induction 1; [constructor|]. econstructor; [apply any_of; eassumption|assumption]. Qed.
Lemma survives_any_app s Q es1 es2 Q' : survives_any_all s Q (es1 ++ es2) Q' <-> exists Q1, survives_any_all s Q es1 Q1 /\ survives_any_all s Q1 es2 Q'.
Proof.
  revert Q. induction es1 as [|e es1 IH]; intros Q; cbn [app].
  - split; [intros H; exists Q; split; [constructor|exact H]|]. intros (Q1 & H1 & H2). inversion H1; subst. exact H2.
  - split.
    + intros H. inversion H; subst. match goal with H : survives_any_all _ _ (_ ++ _) _ |- _ => apply IH in H as (Q2 & K1 & K2) end.
      exists Q2. split; [econstructor; eassumption|exact K2].
    + intros (Q1 & H1 & H2). inversion H1; subst. econstructor; [eassumption|]. apply IH. eauto.
Qed.
Lemma cut_finish p cs op vs vs' : cut p cs (Some (op, vs)) -> cut p (cs ++ [(op, vs')]) None.
Proof.
  intros H. remember (Some (op, vs)) as pend eqn:E. induction H as [p|op0 k vs0|op0 k vs0 cs pend H IH]; [discriminate E| |].
  - injection E as -> ->. cbn [app]. constructor. constructor.
  - cbn [app]. constructor. apply IH, E.
Qed.
Definition took (p : sproc) : bool := match p with SPublished _ _ _ | SDeleted _ | SDiscarded => true | _ => false end.
Lemma not_took_calm z n p : z_procs z = replicate n SDone ++ [p] -> took p = false -> calm z.
Proof.
  intros Hp Ht q Hin. rewrite Hp in Hin. apply elem_of_app in Hin as [Hin|Hin].
  - apply elem_of_replicate in Hin as [-> _]. exact I.
  - apply elem_of_list_singleton in Hin as ->. destruct p; try exact I; discriminate Ht.
Qed.

Section Kill.
  Variable s : server.
  Hypothesis mac_len : forall m, length (sv_mac s m) = 32%nat.
  Hypothesis mac_byte : forall m, Forall is_byte (sv_mac s m).

  Lemma call_commit rq id ine k : is_root rq = false -> handle s rq = Call (OCommit id ine) k ->
    exists key tok receipts size, needs rq = Some (CommitObject key) /\ permitted s rq (CommitObject key) /\ rq_method rq = HPut tok receipts /\
      names s tok id size /\ receipts_for s receipts id size.
  Proof using mac_len mac_byte.
    intros Hroot H. unfold handle in H. rewrite Hroot in H. unfold needs. rewrite decide_False by (unfold is_root in Hroot; now apply bool_decide_eq_false in Hroot).
    destruct (rq_method rq) as [range| |size' body'|tok receipts|tok offset' len' body'| |] eqn:Em.
    - unfold h_read in H. repeat case_match; discriminate H.
    - unfold h_inspect in H. destruct (negb _); discriminate H.
    - unfold h_create in H. destruct (negb _); discriminate H.
    - unfold h_commit, endpoint_commit in H. set (key := parse_key (rq_path rq)) in *. fold (auth_ok s rq (CommitObject key)) in H.
      destruct (auth_ok s rq (CommitObject key)) eqn:Ea; cbn [negb] in H; [|discriminate H].
      destruct (parse_upload_token (sv_mac s) tok) as [[[id' part] size]|] eqn:Ep; [|discriminate H].
      destruct (verify_write_receipts _ _ _ _ _) eqn:Ev; [|discriminate H].
      unfold on_partition in H. cbn [it_partition it_object] in H. destruct (N.eqb_spec part 0) as [->|Hp]; [|discriminate H].
      apply receipts_iff in Ev; [|assumption..].
      injection H as <- _ _. exists key, tok, receipts, size. split; [reflexivity|]. split; [apply auth_ok_iff in Ea; assumption|]. split; [reflexivity|]. split; [exact Ep|exact Ev].
    - unfold h_write, on_partition in H. repeat case_match; discriminate H.
    - unfold h_delete in H. destruct (negb _); discriminate H.
    - discriminate H.
  Qed.

  (** The crash, the request [rq] being under way, after its call took effect. *)
  Lemma lost_took rq cs op vs Q Q1 (had : list N -> cobj -> Prop) z S' n p : request_ok s rq ->
    (forall op vs id, (op, vs) ∈ cs -> VRet (RCreated id) ∈ vs -> id < 2 ^ 128) ->
    cut (handle s rq) cs (Some (op, vs)) -> chain (sv_lpage s) Q cs Q1 -> z_procs z = replicate n SDone ++ [p] -> mid (sv_lpage s) Q1 op vs p (z_state z) ->
    took p = true -> fine_op (sv_lpage s) op -> qwf (sv_lpage s) Q1 ->
    (forall key co, had key co -> q_com Q1 !! key = Some co \/ ss_com (z_state z) !! key = Some co) ->
    crash (sv_lpage s) had z S' -> loses_any s Q rq (seen_state S').
  Proof using mac_len mac_byte.
    intros Hok Hids Hcut Hc Hp HM Ht Hfine HW Hhad HC.
    pose proof (lost_finished s mac_len mac_byte rq cs _ Q Q1 Hok Hids Hcut Hc) as Hfin.
    assert (Hdone : forall r Q2, answers (sv_lpage s) Q1 op [VRet r] Q2 -> (forall id, r <> RCreated id) -> loses s Q rq Q2).
    { intros r Q2 Ha Hr. eapply (lost_finished s mac_len mac_byte rq (cs ++ [(op, [VRet r])]) None Q Q2 Hok).
      - intros op' vs' id Hin Hv. apply elem_of_app in Hin as [Hin|Hin]; [eauto|]. apply elem_of_list_singleton in Hin. injection Hin as -> ->.
        apply elem_of_list_singleton in Hv. injection Hv as <-. exfalso. eapply Hr. reflexivity.
      - eapply cut_finish, Hcut.
      - apply chain_app. exists Q1. split; [exact Hc|]. econstructor; [exact Ha|constructor]. }
    inversion HM; subst; try discriminate Ht.
    - (* published *)
      destruct (published_crash (sv_lpage s) had z S' Q1 n HW Hhad HC tok u id bytes _ Hp) as [A|[A|[Hs A]]]; try assumption; try reflexivity.
      + eapply la_loses; [exact Hfin|exact A].
      + eapply la_loses; [|exact A]. eapply Hdone; [apply an_commit; eassumption|discriminate].
      + destruct (is_root rq) eqn:Hroot.
        * destruct (root_batch s mac_len mac_byte rq Hroot) as [[r E]|(size & body & Hn & Hpm & Em & E)]; rewrite E in Hcut; [apply cut_ret_inv in Hcut as [_ Hcut]; discriminate Hcut|].
          apply loop_cut with (Q := Q) (Q' := Q1) in Hcut as (Q0 & B1 & B2 & B3 & B4); [|clear; lia| |exact Hc].
          -- eapply la_loses; [|exact A]. eapply lost_batch; [exact Hn|exact Hpm|exact Em|exact B1|exact B2|]. destruct B3 as [K1 K2]. split; [exact K1|].
             intros i Hi. cbn [q_drop q_up]. rewrite lookup_delete_ne; [apply K2, Hi|]. intros <-. exact (B4 Hi).
          -- unfold request_ok in Hok. rewrite Em in Hok. apply Hok.
        * destruct (handle_shape s rq Hroot) as [[r E]|(op & f & E)]; rewrite E in Hcut; [apply cut_ret_inv in Hcut as [_ Hcut]; discriminate Hcut|].
          apply cut_call_inv in Hcut as [[_ Ep]|[[-> [vs' Ep]]|(vs' & cs' & -> & Hcut)]]; [discriminate Ep| |apply cut_ret_inv in Hcut as [_ Hcut]; discriminate Hcut].
          injection Ep as <- <-. apply chain_nil_inv in Hc as ->. destruct (call_commit _ _ _ _ Hroot E) as (key & tk & receipts & size & A1 & A2 & A3 & A4 & A5).
          eapply la_upload; eassumption.
    - (* given up: this call is not made *)
      destruct Hfine as [_ Hfine]. discriminate Hfine.
    - (* deleted *)
      match goal with Hf : q_find _ _ _ _ |- _ => pose proof Hf as [Hk _] end.
      destruct (deleted_crash (sv_lpage s) had z S' Q1 n HW Hhad HC key co Hp Hk) as [A|A]; try assumption.
      + eapply la_loses; [exact Hfin|exact A].
      + eapply la_loses; [|exact A]. eapply Hdone; [eapply an_delete; eassumption|discriminate].
  Qed.
End Kill.

(** ** One session *)
Lemma spares_removing c y z lk : Alive c y z lk -> spares y -> forall id, ~ removing z id.
Proof.
  intros [[(qs & sp & Hp1 & Hp2 & _ & _ & _ & HR)] _ _ _] Hsp id [(tok & new & Hin)|Hin].
  - rewrite Hp2 in Hin. apply elem_of_list_fmap in Hin as ([p q] & E & Hin). cbn [snd] in E. subst q.
    pose proof (rl_pcs _ _ _ _ HR _ _ Hin) as Hr. specialize (Hsp p). rewrite Hp1 in Hsp. specialize (Hsp (elem_of_list_fmap_1 fst _ _ Hin)).
    destruct p; cbn [pc_rel] in Hr; try contradiction; destruct Hr as (_ & _ & Hr); destruct existing; contradiction.
  - rewrite Hp2 in Hin. apply elem_of_list_fmap in Hin as ([p q] & E & Hin). cbn [snd] in E. subst q.
    pose proof (rl_pcs _ _ _ _ HR _ _ Hin) as Hr. specialize (Hsp p). rewrite Hp1 in Hsp. specialize (Hsp (elem_of_list_fmap_1 fst _ _ Hin)).
    destruct p; cbn [pc_rel] in Hr; contradiction.
Qed.
Lemma calm_spares c y z lk : Alive c y z lk -> calm z -> spares y.
Proof.
  intros [[(qs & sp & Hp1 & Hp2 & _ & _ & _ & HR)] _ _ _] Hcalm p Hin. rewrite Hp1 in Hin. apply elem_of_list_fmap in Hin as ([p' q] & -> & Hin). cbn [fst].
  pose proof (rl_pcs _ _ _ _ HR _ _ Hin) as Hr. specialize (Hcalm q). rewrite Hp2 in Hcalm. specialize (Hcalm (elem_of_list_fmap_1 snd _ _ Hin)).
  destruct p'; try exact I; cbn [pc_rel] in Hr; try (destruct existing; try exact I); try (destruct q; contradiction); destruct c0 as [[]|]; destruct q; contradiction.
Qed.
Lemma replicate_all {A} (x : A) l : Forall (eq x) l -> l = replicate (length l) x.
Proof. induction 1 as [|y l <- _ IH]; [reflexivity|]. cbn [length replicate]. now rewrite <- IH. Qed.
Lemma spec_procs_length lpage z ls z' : spec_steps lpage z ls z' -> (length (z_procs z') = length (z_procs z) + length (List.filter (fun l => match l with LCall _ _ => true | _ => false end) (visible ls)))%nat.
Proof.
  induction 1 as [z|z ls z1 l z2 H IH St]; [cbn; lia|]. rewrite visible_app, List.filter_app, app_length.
  destruct St as [z1 op|z1 i q S' q' v Hi Hs]; cbn [z_procs].
  - rewrite app_length. cbn [length visible List.filter is_visible]. lia.
  - rewrite insert_length. destruct v; cbn [length visible List.filter is_visible]; lia.
Qed.
Lemma call_labels_count n cs : length (List.filter (fun l => match l with LCall _ _ => true | _ => false end) (call_labels n cs)) = length cs.
Proof.
  revert n. induction cs as [|[op vs] cs IH]; intros n; [reflexivity|]. cbn [call_labels List.filter length]. rewrite List.filter_app, app_length, IH.
  assert (List.filter (fun l => match l with LCall _ _ => true | _ => false end) (map (LVis n) vs) = []) as ->; [|reflexivity].
  induction vs as [|v vs IHv]; [reflexivity|exact IHv].
Qed.

Section Session.
  Variable s : server.
  Hypothesis mac_len : forall m, length (sv_mac s m) = 32%nat.
  Hypothesis mac_byte : forall m, Forall is_byte (sv_mac s m).

  Lemma session_labels c y0 y ls h css cs pend lost : sv_lpage s < 32 -> sv_lpage s = dc_lpage c -> dsteps c y0 ls y ->
    Forall2 (fun x cs => runs (handle s (fst x)) cs (snd x)) h css ->
    match lost with Some rq => cut (handle s rq) cs pend | None => cs = [] /\ pend = None end ->
    (forall op vs, (op, vs) ∈ cs -> VRet RPanicked ∉ vs) ->
    (forall op vs, pend = Some (op, vs) -> Forall (fun v => is_final v = false) vs) ->
    visible ls = call_labels 0 (concat css ++ cs ++ option_list pend) -> Forall (event_ok s) (session_events h lost) ->
    (forall i op, LCall i op ∈ ls -> fine_op (sv_lpage s) op) /\ no_panics ls /\ (forall op vs, pend = Some (op, vs) -> fine_op (sv_lpage s) op) /\
    (y_procs y0 = [] -> forall op vs id, (op, vs) ∈ concat css ++ cs -> VRet (RCreated id) ∈ vs -> id < 2 ^ 128).
  Proof using.
    intros Hlt Hlp Hd HF Hcut Hnp Hpend HL Hok. unfold session_events in Hok. apply Forall_app in Hok as [Hok1 Hok2].
    assert (Hok1' : Forall (fun x => request_ok s (fst x) /\ Forall is_byte (rq_path (fst x)) /\ snd x <> Aborted) h).
    { rewrite Forall_forall. intros [rq r] Hin. rewrite Forall_forall in Hok1. apply (Hok1 (Answered rq r)).
      apply elem_of_list_In, in_map_iff. exists (rq, r). split; [reflexivity|]. now apply elem_of_list_In. }
    assert (Hfine1 : Forall (fun c => fine_op (sv_lpage s) (fst c)) (concat css) /\ forall op vs, (op, vs) ∈ concat css -> VRet RPanicked ∉ vs).
    { clear -HF Hok1' Hlt. induction HF as [|[rq r] cs h css Hr HF IH]; [split; [constructor|]; intros op vs Hin; apply elem_of_nil in Hin; contradiction|].
      apply Forall_cons_1 in Hok1' as [(A1 & A2 & A3) Hok]. cbn [fst snd] in *. destruct (IH Hok) as [I1 I2]. cbn [concat]. split.
      - apply Forall_app. split; [|exact I1]. eapply makes_runs; [apply (handle_makes s); [exact Hlt|exact A1|exact A2]|exact Hr].
      - intros op vs Hin. apply elem_of_app in Hin as [Hin|Hin]; [|eauto]. eapply fails_runs; [apply handle_fails|exact Hr|exact A3|exact Hin]. }
    destruct Hfine1 as [Hfine1 Hnp1].
    assert (Hfine2 : Forall (fun c => fine_op (sv_lpage s) (fst c)) (cs ++ option_list pend)).
    { destruct lost as [rq|]; cbn [option_list map] in *.
      - apply Forall_inv in Hok2 as [A1 A2]. eapply makes_cut; [apply (handle_makes s); [exact Hlt|exact A1|exact A2]|exact Hcut].
      - destruct Hcut as [-> ->]. constructor. }
    pose proof (proj2 (Forall_app _ _ _) (conj Hfine1 Hfine2)) as Hfine. cbn beta in Hfine. split; [|split; [|split]].
    - intros i op Hin. assert (LCall i op ∈ visible ls) as Hin' by (apply visible_elem; auto). rewrite HL in Hin'.
      apply call_labels_call in Hin' as (_ & vs & Hl). apply elem_of_list_lookup_2 in Hl. rewrite Forall_forall in Hfine. apply (Hfine _ Hl).
    - intros i Hin. assert (LVis i (VRet RPanicked) ∈ visible ls) as Hin' by (apply visible_elem; auto). rewrite HL in Hin'.
      apply call_labels_vis_inv in Hin' as (op & vs & Hin1 & Hin2). apply elem_of_app in Hin1 as [Hin1|Hin1]; [exact (Hnp1 _ _ Hin1 Hin2)|].
      apply elem_of_app in Hin1 as [Hin1|Hin1]; [exact (Hnp _ _ Hin1 Hin2)|].
      destruct pend as [[op' vs']|]; cbn [option_list] in Hin1; [|apply elem_of_nil in Hin1; contradiction].
      apply elem_of_list_singleton in Hin1. injection Hin1 as -> ->. pose proof (Hpend _ _ eq_refl) as Hf. rewrite Forall_forall in Hf.
      specialize (Hf _ Hin2). discriminate Hf.
    - intros op vs ->. apply Forall_app in Hfine2 as [_ Hf]. apply Forall_inv in Hf. exact Hf.
    - intros H0 op vs id Hin Hv.
      destruct (call_labels_vis 0 (concat css ++ cs ++ option_list pend) op vs _ ltac:(rewrite app_assoc; apply elem_of_app; left; exact Hin) Hv) as [i Hi].
      rewrite <- HL in Hi. apply visible_elem in Hi as [Hi _]. exact (created_bound _ _ _ _ Hd H0 _ _ Hi).
  Qed.

  (** What was answered, and the calls of the request under way. *)
  Lemma session_chain Q0 Q h css cs lost : chain (sv_lpage s) Q0 (concat css ++ cs) Q ->
    Forall2 (fun x cs => runs (handle s (fst x)) cs (snd x)) h css ->
    (forall op vs id, (op, vs) ∈ concat css ++ cs -> VRet (RCreated id) ∈ vs -> id < 2 ^ 128) -> Forall (event_ok s) (session_events h lost) ->
    exists Q1, survives_all s Q0 (map (fun x => Answered (fst x) (snd x)) h) Q1 /\ chain (sv_lpage s) Q1 cs Q.
  Proof using mac_len mac_byte.
    intros Hc HF Hids Hok. apply chain_app in Hc as (Q1 & Hc1 & Hc2). exists Q1. split; [|exact Hc2]. apply serves_survives.
    unfold session_events in Hok. apply Forall_app in Hok as [Hok1 _].
    eapply histories_refine; [exact mac_len|exact mac_byte| | |exact HF|exact Hc1].
    - rewrite Forall_forall. intros [rq r] Hin. rewrite Forall_forall in Hok1. apply (Hok1 (Answered rq r)).
      apply elem_of_list_In, in_map_iff. exists (rq, r). split; [reflexivity|]. now apply elem_of_list_In.
    - intros op vs id Hin. eapply Hids, elem_of_app. left. exact Hin.
  Qed.

  (** A session that is not continued. *)
  Lemma session_good c y0 S0 Q0 h lost y lk zz : cfg_ok c -> sv_lpage s = dc_lpage c ->
    Good c y0 {| z_state := S0; z_procs := [] |} lk zz -> y_procs y0 = [] -> Same S0 Q0 -> served_any s c y0 h lost y ->
    Forall (event_ok s) (session_events h lost) -> exists Q, survives_all s Q0 (session_events h lost) Q.
  Proof using mac_len mac_byte.
    intros Hc Hlp HG H0 HS [ls css cs pend Hd HF Ho1 Hcut Ho2 Hnp Hpend HL] Hok.
    pose proof (ck_lpage _ Hc) as Hlt. rewrite <- Hlp in Hlt.
    destruct (session_labels c y0 y ls h css cs pend lost Hlt Hlp Hd HF Hcut Hnp Hpend HL Hok) as (Hfine & _ & _ & Hids). specialize (Hids H0).
    destruct (good_any c y0 ls y _ lk zz Hc ltac:(intros i op Hin; rewrite <- Hlp; apply (Hfine _ _ Hin)) HG Hd) as (ls' & z & lk' & zz' & T1 & T2 & _).
    rewrite <- Hlp in T1.
    destruct (calls_state (sv_lpage s) S0 Q0 ls' z (concat css ++ cs) pend HS T1) as (Q & Hch & _).
    { rewrite <- app_assoc, T2. exact HL. }
    { apply Forall_app. auto. }
    { exact Hpend. }
    destruct (session_chain _ _ _ _ _ lost Hch HF Hids Hok) as (Q1 & H1 & H2).
    unfold session_events in *. destruct lost as [rq|]; cbn [option_list map] in *.
    - exists Q. apply survives_app. exists Q1. split; [exact H1|]. apply survives_one. constructor.
      apply Forall_app in Hok as [_ Hok2]. apply Forall_inv in Hok2 as [Hrq _].
      eapply (lost_finished s mac_len mac_byte rq cs pend); [exact Hrq| |exact Hcut|exact H2]. intros op vs id Hin. eapply Hids, elem_of_app. right. exact Hin.
    - destruct Hcut as [-> ->]. rewrite app_nil_r. eauto.
  Qed.

  Lemma session_any c y0 S0 Q0 h lost y : cfg_ok c -> sv_lpage s = dc_lpage c ->
    Alive c y0 {| z_state := S0; z_procs := [] |} [] -> y_procs y0 = [] -> Same S0 Q0 -> served_any s c y0 h lost y ->
    Forall (event_ok s) (session_events h lost) ->
    exists z lk, Alive c y z lk /\
      forall S', (forall had : list N -> cobj -> Prop, (forall key co, ss_com (z_state z) !! key = Some co -> had key co) ->
                    OldInv c (y_sh y) (y_procs y) had -> crash (dc_lpage c) had z S') -> (calm z -> clean_crash z S') ->
        exists Q', survives_any_all s Q0 (session_events h lost ++ [Killed]) Q' /\ Same S' Q'.
  Proof using mac_len mac_byte.
    intros Hc Hlp HA H0 HS [ls css cs pend Hd HF Ho1 Hcut Ho2 Hnp Hpend HL] Hok.
    pose proof (ck_lpage _ Hc) as Hlt. rewrite <- Hlp in Hlt.
    destruct (session_labels c y0 y ls h css cs pend lost Hlt Hlp Hd HF Hcut Hnp Hpend HL Hok) as (Hfine & Hnpl & Hfp & Hids). specialize (Hids H0).
    assert (Hids2 : forall op vs id, (op, vs) ∈ cs -> VRet (RCreated id) ∈ vs -> id < 2 ^ 128) by (intros op vs id Hin; eapply Hids, elem_of_app; right; exact Hin).
    assert (Ho : Forall over (concat css ++ cs)) by (apply Forall_app; auto).
    destruct pend as [[op vs]|].
    - (* a call is under way *)
      specialize (Hpend _ _ eq_refl). specialize (Hfp _ _ eq_refl). cbn [option_list] in HL.
      destruct lost as [rq|]; [|destruct Hcut as [_ Hcut]; discriminate Hcut].
      assert (Hrq : request_ok s rq).
      { unfold session_events in Hok. apply Forall_app in Hok as [_ Hok2]. cbn [option_list map] in Hok2. apply Forall_inv in Hok2 as [Hrq _]. exact Hrq. }
      assert (HL' : visible ls = call_labels 0 (concat css ++ cs) ++ LCall (length (concat css ++ cs)) op :: map (LVis (length (concat css ++ cs))) vs).
      { rewrite HL, app_assoc, call_labels_app. change (option_list (Some (op, vs))) with [(op, vs)]. cbn [call_labels Nat.add]. repeat rewrite app_nil_r. reflexivity. }
      set (n := length (concat css ++ cs)) in *.
      apply visible_split in HL' as (l1 & l2 & -> & V1 & V2).
      destruct (dsteps_split _ _ _ _ Hd l1 (LCall n op :: l2) eq_refl) as (ym & D1 & D2).
      assert (In1 : forall x, x ∈ l1 -> x ∈ l1 ++ LCall n op :: l2) by (intros; apply elem_of_app; auto).
      assert (In2 : forall x, x ∈ LCall n op :: l2 -> x ∈ l1 ++ LCall n op :: l2) by (intros; apply elem_of_app; auto).
      edestruct (fun A B C => alive_steps c y0 l1 ym _ Hc A B C HA D1) as (l1' & zm & lkm & T1 & T2 & T3 & _).
      { intros i o Hin. rewrite <- Hlp. apply (Hfine _ _ (In1 _ Hin)). }
      { intros i k z0 Hin. apply (Hfine _ _ (In1 _ Hin)). }
      { intros i Hin. apply (Hnpl i), In1, Hin. }
      rewrite <- Hlp in T1.
      destruct (calls_state (sv_lpage s) S0 Q0 l1' zm (concat css ++ cs) None HS T1) as (Q & Hch & Hdm & HSm).
      { cbn [option_list]. rewrite T2, V1. first [reflexivity | rewrite app_nil_r; reflexivity | idtac "HERE"; match goal with |- ?g => idtac g end]. }
      { exact Ho. }
      { discriminate. }
      assert (Hpm : z_procs zm = replicate n SDone).
      { rewrite (replicate_all _ _ Hdm). f_equal. rewrite (spec_procs_length _ _ _ _ T1). cbn [z_procs length Nat.add]. rewrite T2, V1. apply call_labels_count. }
      assert (HO : forall had, OldInv c (y_sh ym) (y_procs ym) had).
      { intros had. eapply calm_old; [apply (al_good _ _ _ _ T3)|]. intros q Hq. rewrite Forall_forall in Hdm. rewrite <- (Hdm _ Hq). exact I. }
      edestruct (fun A B C => alive_steps_old_from c ym (LCall n op :: l2) y zm lkm Hc A B C T3 HO D2) as (l2' & z & lk & U1 & U2 & U3 & U4).
      { intros i o Hin. rewrite <- Hlp. apply (Hfine _ _ (In2 _ Hin)). }
      { intros i k z0 Hin. apply (Hfine _ _ (In2 _ Hin)). }
      { intros i Hin. apply (Hnpl i), In2, Hin. }
      assert (V3 : visible l2' = LCall n op :: map (LVis n) vs) by (rewrite U2; cbn [visible List.filter is_visible]; f_equal; exact V2).
      pose proof U1 as U1'. rewrite <- Hlp in U1'.
      destruct (pend_inv (sv_lpage s) Q n op vs Hpend zm l2' z Hpm HSm U1' [] ltac:(rewrite app_nil_r; exact V3)) as [(V & _)|(vs1 & p & V & Hpz & Hne & HM)]; [rewrite V3 in V; discriminate V|].
      assert (vs1 = vs) as ->.
      { rewrite V3 in V. injection V as V. clear -V. revert vs1 V. induction vs as [|v vs IH]; intros [|w ws] E; try discriminate E; [reflexivity|]. cbn [map] in E. injection E as -> E. f_equal. apply IH. exact E. }
      destruct (session_chain _ _ _ _ _ (Some rq) Hch HF Hids Hok) as (Q1 & H1 & H2).
      exists z, lk. split; [exact U3|]. intros S' HC1 HC2. unfold session_events. cbn [option_list map]. destruct (took p) eqn:Et.
      + specialize (HC1 _ (fun key co E => was_now _ _ _ _ _ _ U1 E) U4). rewrite <- Hlp in HC1.
        exists (seen_state S'). split; [|eapply crash_seen, HC1].
        rewrite <- app_assoc. apply survives_any_app. exists Q1. split; [apply any_all_of, H1|].
        econstructor; [constructor; eapply (lost_took s mac_len mac_byte rq cs op vs Q1 Q); try eassumption|].
        * rewrite Hlp. eapply good_qwf; [apply (al_good _ _ _ _ T3)|exact HSm].
        * intros key co Hw. eapply (was_pend (sv_lpage s) Q n op vs Hpend zm l2' z); eassumption.
        * econstructor; [|constructor]. exact (sy_killed s (seen_state S') (ss_ids S') ltac:(reflexivity)).
      + pose proof (not_took_calm _ _ _ Hpz Et) as Hcalm.
        destruct (lost_crash s mac_len mac_byte rq cs (Some (op, vs)) Q1 Q z S' Hrq Hids2 Hcut H2 Hcalm) as (Q' & K1 & K2).
        { exists n, p. split; [exact Hpz|exact HM]. }
        { exact (HC2 Hcalm). }
        exists Q'. split; [|exact K2]. rewrite <- app_assoc. apply survives_any_app. exists Q1. split; [apply any_all_of, H1|]. apply any_all_of, K1.
    - (* none *)
      destruct (session_system s mac_len mac_byte c y0 S0 Q0 h lost y Hc Hlp HA H0 HS) as (z & lk & K1 & K2 & _ & K4).
      + eapply served_intro; try eassumption. intros op vs E. discriminate E.
      + exact Hok.
      + exists z, lk. split; [exact K1|]. intros S' _ HC2. destruct (K4 S' (HC2 K2)) as (Q' & A & B). exists Q'. split; [apply any_all_of, A|exact B].
  Qed.

  Lemma runs_survives c pages es y : cfg_ok c -> server_runs s c pages es y -> Forall (event_ok s) es ->
    sv_lpage s = dc_lpage c /\ alloc_ok c /\ (exists Q, survives_any_all s q_empty es Q) /\ exists z lk, Alive c y z lk /\
      forall S', (forall had : list N -> cobj -> Prop, (forall key co, ss_com (z_state z) !! key = Some co -> had key co) ->
                    OldInv c (y_sh y) (y_procs y) had -> crash (dc_lpage c) had z S') -> (calm z -> clean_crash z S') ->
        exists Q', survives_any_all s q_empty (es ++ [Killed]) Q' /\ Same S' Q'.
  Proof using mac_len mac_byte.
    intros Hc H. induction H as [y0 h lost y HF Hlp Hsv|es y1 y2 h lost y3 Hl IH Hex Hsp Hre Hsv]; intros Hok.
    - split; [exact Hlp|]. split; [exists (h_alloc (y_sh y0)); exact (fp_alloc _ _ _ HF)|].
      pose proof (fresh_alive c pages y0 (ck_pages _ Hc) HF) as HA. split.
      + destruct (session_good c y0 _ q_empty h lost y _ _ Hc Hlp (al_good _ _ _ _ HA) (fp_procs _ _ _ HF) same_empty Hsv Hok) as [Q HQ]. exists Q. apply any_all_of, HQ.
      + eapply session_any; [exact Hc|exact Hlp|exact HA|apply (fp_procs _ _ _ HF)|apply same_empty|exact Hsv|exact Hok].
    - apply Forall_app in Hok as [Hok1 Hok2]. apply Forall_cons_1 in Hok2 as [_ Hok2].
      destruct (IH Hok1) as (Hlp & Hal & _ & z & lk & HA & Hcr). split; [exact Hlp|]. split; [exact Hal|].
      destruct Hre as (init & t & order & Hld & Hop).
      destruct (restart_alive c y1 z lk init t order Hc HA Hex Hal Hld) as (y2' & S2 & lk2 & R1 & [R2 R3] & _ & _ & R5 & _).
      assert (y2' = y2) as -> by congruence.
      pose proof (R5 (spares_removing _ _ _ _ HA Hsp)) as HA2.
      destruct (Hcr S2 R2 R3) as (Q2 & G1 & G2).
      assert (y_procs y2 = []) as H0 by (apply opening_procs in Hop; exact Hop).
      replace (es ++ Killed :: session_events h lost) with ((es ++ [Killed]) ++ session_events h lost) by (rewrite <- app_assoc; reflexivity).
      split.
      + destruct (session_good c y2 _ Q2 h lost y3 _ _ Hc Hlp (al_good _ _ _ _ HA2) H0 G2 Hsv Hok2) as [Q HQ]. exists Q. apply survives_any_app. exists Q2. split; [exact G1|]. apply any_all_of, HQ.
      + destruct (session_any c y2 S2 Q2 h lost y3 Hc Hlp HA2 H0 G2 Hsv Hok2) as (z' & lk' & K1 & K4).
        exists z', lk'. split; [exact K1|]. intros S' C1 C2. destruct (K4 S' C1 C2) as (Q' & L1 & L2). exists Q'. split; [|exact L2].
        rewrite <- app_assoc. apply survives_any_app. eauto.
  Qed.

  Theorem killed_survives c pages es y : cfg_ok c -> server_killed s c pages es y -> Forall (event_ok s) es -> exists Q, survives_any_all s q_empty es Q.
  Proof using mac_len mac_byte.
    intros Hc [es' y' H|es' y1 y2 h lost y3 Hl Hex Hre Hsv] Hok; [apply (runs_survives c pages es' y' Hc H Hok)|].
    apply Forall_app in Hok as [Hok1 Hok2]. apply Forall_cons_1 in Hok2 as [_ Hok2].
    destruct (runs_survives c pages es' y1 Hc Hl Hok1) as (Hlp & Hal & _ & z & lk & HA & Hcr).
    destruct Hre as (init & t & order & Hld & Hop).
    destruct (restart_alive c y1 z lk init t order Hc HA Hex Hal Hld) as (y2' & S2 & lk2 & R1 & [R2 R3] & R4 & _).
    assert (y2' = y2) as -> by congruence.
    destruct (Hcr S2 R2 R3) as (Q2 & G1 & G2).
    assert (y_procs y2 = []) as H0 by (apply opening_procs in Hop; exact Hop).
    destruct (session_good c y2 _ Q2 h lost y3 _ _ Hc Hlp R4 H0 G2 Hsv Hok2) as [Q HQ]. exists Q.
    replace (es' ++ Killed :: session_events h lost) with ((es' ++ [Killed]) ++ session_events h lost) by (rewrite <- app_assoc; reflexivity).
    apply survives_any_app. exists Q2. split; [exact G1|]. apply any_all_of, HQ.
  Qed.

  (** The histories of ServerCrashSpec.v are among these. *)
  Theorem lives_runs c pages es y : cfg_ok c -> server_lives s c pages es y -> Forall (event_ok s) es -> server_runs s c pages es y.
  Proof using mac_len mac_byte.
    assert (Hany : forall y h lost y', served s c y h lost y' -> served_any s c y h lost y').
    { intros y0 h lost y' [ls css cs pend Hd HF Ho1 Hcut Ho2 Hnp Hpend HL]. econstructor; try eassumption. intros op vs E. apply (Hpend _ _ E). }
    intros Hc H. induction H as [y0 h lost y HF Hlp Hsv|es y1 y2 h lost y3 Hl IH Hex Hre Hsv]; intros Hok.
    - apply (runs_first s c pages y0); auto.
    - apply Forall_app in Hok as [Hok1 _].
      destruct (lives_survives s mac_len mac_byte c pages es y1 Hc Hl Hok1) as (_ & _ & z & lk & HA & Hcalm & _).
      eapply runs_again; [apply IH, Hok1|exact Hex|eapply calm_spares; eassumption|exact Hre|apply Hany, Hsv].
  Qed.
End Session.
