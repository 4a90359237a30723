(** Histories of the server: what is stored stays until it is replaced or deleted. *)
From Coq Require Import ZifyBool ZifyNat ZifyN.
From stdpp Require Import base numbers option gmap sets functions list.
From Verif Require Import Util Bytes PageIOModel PageIOSpec TokenModel TokenProofs HttpModel BatchProofs DirectModel DirectSpec DirectBase DirectSeqSpec PropertiesToken ServerModel ServerSpec ServerProofs.
Open Scope N_scope.
Ltac Zify.zify_post_hook ::= idtac.

Lemma serves_all_app s Q h1 h2 Q' : serves_all s Q (h1 ++ h2) Q' <-> exists Q1, serves_all s Q h1 Q1 /\ serves_all s Q1 h2 Q'.
Proof.
  revert Q. induction h1 as [|[rq r] h1 IH]; intros Q; cbn [app].
  - split; [intros H; exists Q; split; [constructor|exact H]|]. intros (Q1 & H1 & H2). inversion H1; subst. exact H2.
  - split.
    + intros H. inversion H; subst. match goal with H : serves_all _ _ (_ ++ _) _ |- _ => apply IH in H as (Q2 & K1 & K2) end.
      exists Q2. split; [econstructor; eassumption|exact K2].
    + intros (Q1 & H1 & H2). inversion H1; subst. econstructor; [eassumption|]. apply IH. eauto.
Qed.
Lemma serves_all_cons s Q rq r h Q' : serves_all s Q ((rq, r) :: h) Q' -> exists Q1, serves s Q rq r Q1 /\ serves_all s Q1 h Q'.
Proof. intros H. inversion H; subst. eauto. Qed.

Lemma batch_keeps Q B n Q' : batch_stores Q B n Q' -> keeps_uploads Q Q'.
Proof.
  induction 1 as [Q key data tail o Q1 r Q' _ _ _ _ _ Hk _ IH| |].
  - eapply keeps_trans; eassumption.
  - assumption.
  - apply keeps_refl.
Qed.
Lemma batch_frames Q B n Q' : batch_stores Q B n Q' -> exists es tail,
  Forall valid_entry es /\ B = concat (map entry_bytes es) ++ tail /\
  (n = None \/ n = Some (N.of_nat (length es)) /\ forall e tail', valid_entry e -> tail <> entry_bytes e ++ tail') /\
  (forall key, key ∉ map fst es -> q_com Q' !! key = q_com Q !! key) /\
  (forall e1 key data e2, es = e1 ++ (key, data) :: e2 -> key ∉ map fst e2 -> exists o, q_com Q' !! key = Some o /\ content o = data).
Proof.
  induction 1 as [Q key data tail o Q1 r Q' Hv Hq Hd _ _ _ _ (es & tail' & I1 & -> & I2 & I3 & I4)|Q B Q' Hn Hq _|Q B].
  - exists ((key, data) :: es), tail'. split; [constructor; assumption|]. split; [cbn [map concat]; rewrite <- app_assoc; reflexivity|].
    split; [|split].
    + destruct I2 as [->|[-> I2]]; [left; reflexivity|right]. split; [|exact I2]. cbn [fmap option_fmap option_map length]. f_equal. clear. lia.
    + intros k Hk. cbn [map fst] in Hk. apply not_elem_of_cons in Hk as [Hk1 Hk2]. rewrite I3 by exact Hk2. rewrite Hq. apply lookup_insert_ne. congruence.
    + intros e1 k d e2 E Hk. destruct e1 as [|e e1].
      * cbn [app] in E. injection E as -> -> ->. rewrite I3 by exact Hk. exists o. rewrite Hq. split; [apply lookup_insert|exact Hd].
      * injection E as _ E. eapply I4; eassumption.
  - exists [], B. split; [constructor|]. split; [reflexivity|]. split; [right; auto|]. split; [intros key _; rewrite Hq; reflexivity|].
    intros e1 k d e2 E. destruct e1; discriminate E.
  - exists [], B. split; [constructor|]. split; [reflexivity|]. split; [left; reflexivity|]. split; [auto|].
    intros e1 k d e2 E. destruct e1; discriminate E.
Qed.

(** ** One request *)
Section Step.
  Variable s : server.
  Hypothesis Hmac : is_mac (sv_mac s).
  Lemma issued id size : id < 2 ^ 128 -> size < 2 ^ 64 -> names s (upload_token (sv_mac s) (Itoken id 0) size) id size.
  Proof using Hmac. intros H1 H2. apply parse_upload_issued; [apply Hmac|apply Hmac|split; [exact H1|reflexivity]|exact H2]. Qed.

  (** An upload keeps its key and size, and its parts except those a PATCH names; once
      closed it stays closed. *)
  Lemma up_step Q rq r Q' id : serves s Q rq r Q' -> id ∈ q_ids Q ->
    id ∈ q_ids Q' /\
    (q_up Q' !! id = None \/ exists u u', q_up Q !! id = Some u /\ q_up Q' !! id = Some u' /\ qu_key u' = qu_key u /\ qu_size u' = qu_size u /\
       forall o, (forall tok len body, rq_method rq = HPatch tok o len body -> upload_of s tok <> Some (Itoken id 0)) -> qu_parts u' o = qu_parts u o).
  Proof using Hmac.
    intros H Hid.
    assert (Hsame : q_up Q !! id = None \/ exists u u', q_up Q !! id = Some u /\ q_up Q !! id = Some u' /\ qu_key u' = qu_key u /\ qu_size u' = qu_size u /\
       forall o, (forall tok len body, rq_method rq = HPatch tok o len body -> upload_of s tok <> Some (Itoken id 0)) -> qu_parts u' o = qu_parts u o).
    { destruct (q_up Q !! id) as [u|]; [right; exists u, u; auto 8|auto]. }
    assert (Hpart : forall tok offset len body id' size u d, rq_method rq = HPatch tok offset len body -> names s tok id' size -> q_up Q !! id' = Some u ->
      id ∈ q_ids (q_part Q id' u offset d) /\
      (q_up (q_part Q id' u offset d) !! id = None \/ exists u0 u', q_up Q !! id = Some u0 /\ q_up (q_part Q id' u offset d) !! id = Some u' /\ qu_key u' = qu_key u0 /\ qu_size u' = qu_size u0 /\
       forall o, (forall tok len body, rq_method rq = HPatch tok o len body -> upload_of s tok <> Some (Itoken id 0)) -> qu_parts u' o = qu_parts u0 o)).
    { intros tok offset len body id' size u d Em Hn Hu. split; [exact Hid|]. cbn [q_part q_up].
      destruct (decide (id = id')) as [->|Hne].
      - right. rewrite Hu, lookup_insert. eexists _, _. split; [reflexivity|]. split; [reflexivity|]. cbn [qu_key qu_size qu_parts].
        split; [reflexivity|]. split; [reflexivity|]. intros o Ho. apply fn_lookup_insert_ne. intros <-.
        apply (Ho _ _ _ Em). unfold upload_of. rewrite Hn. reflexivity.
      - rewrite lookup_insert_ne by congruence. exact Hsame. }
    destruct H; try (split; [exact Hid|exact Hsame]); try (eapply Hpart; eassumption).
    - (* create *) cbn [q_new q_ids q_up]. split; [set_solver|]. rewrite lookup_insert_ne by set_solver. exact Hsame.
    - (* commit *) cbn [q_publish q_ids q_up]. split; [set_solver|]. destruct (decide (id = id0)) as [->|Hne].
      + left. apply lookup_delete.
      + rewrite lookup_delete_ne by congruence. exact Hsame.
    - (* batch *) destruct (batch_keeps _ _ _ _ H2) as [K1 K2]. split; [apply K1, Hid|]. rewrite K2 by exact Hid. exact Hsame.
  Qed.

  (** What the tokens given out name. *)
  Definition known (h : history) (Q : qstate) : Prop := forall tok key size, upload_for h tok key size ->
    exists id, names s tok id size /\ id ∈ q_ids Q /\ forall u, q_up Q !! id = Some u -> qu_key u = key /\ qu_size u = size.
  Lemma known_step h Q rq r Q' : request_ok s rq -> known h Q -> serves s Q rq r Q' -> known (h ++ [(rq, r)]) Q'.
  Proof using Hmac.
    intros Hok HK H tok key size (rq' & Hin & Hn).
    apply elem_of_app in Hin as [Hin|Hin].
    - destruct (HK tok key size) as (id & H1 & H2 & H3); [exists rq'; auto|].
      exists id. destruct (up_step _ _ _ _ id H H2) as [K1 K2]. split; [exact H1|]. split; [exact K1|].
      intros u Hu. destruct K2 as [K2|(u0 & u' & K2 & K3 & K4 & K5 & _)]; [congruence|]. rewrite K3 in Hu. injection Hu as <-.
      rewrite K4, K5. apply H3, K2.
    - apply elem_of_list_singleton in Hin. injection Hin as -> <-.
      inversion H; subst; try (match goal with E : match ?x with _ => _ end = _ |- _ => destruct x; discriminate E end).
      match goal with E : needs _ = Some (CreateObject key0 _) |- _ => rewrite Hn in E; injection E as <- <- end.
      assert (size < 2 ^ 64) as Hs.
      { unfold request_ok in Hok. match goal with E : rq_method _ = _ |- _ => rewrite E in Hok end. apply Hok. }
      exists id. split; [apply issued; assumption|]. cbn [q_new q_ids q_up]. split; [set_solver|].
      intros u Hu. rewrite lookup_insert in Hu. injection Hu as <-. auto.
  Qed.
  Lemma known_all h Q h' Q' : Forall (fun x => request_ok s (fst x)) h' -> known h Q -> serves_all s Q h' Q' -> known (h ++ h') Q'.
  Proof using Hmac.
    revert h Q. induction h' as [|[rq r] h' IH]; intros h Q Hok HK H.
    - inversion H; subst. rewrite app_nil_r. exact HK.
    - apply serves_all_cons in H as (Q1 & H1 & H2). apply Forall_cons_1 in Hok as [Hok1 Hok].
      replace (h ++ (rq, r) :: h') with ((h ++ [(rq, r)]) ++ h') by (rewrite <- app_assoc; reflexivity).
      eapply IH; [exact Hok| |exact H2]. eapply known_step; eassumption.
  Qed.
  Lemma known_empty : known [] q_empty.
  Proof using. intros tok key size (rq & H & _). apply elem_of_nil in H. contradiction. Qed.

  (** What is stored under a key. *)
  Lemma com_step h Q rq r Q' key : known h Q -> serves s Q rq r Q' -> untouched h key rq r -> q_com Q' !! key = q_com Q !! key.
  Proof using.
    intros HK H (U1 & U2 & U3). inversion H; subst; try reflexivity.
    - (* commit *) destruct (U2 tok receipts ltac:(assumption) eq_refl) as (key' & size' & Huf & Hne).
      destruct (HK _ _ _ Huf) as (id' & N1 & _ & N3).
      match goal with N0 : names s tok id size |- _ => unfold names in *; rewrite N1 in N0; injection N0 as <- <- end.
      match goal with Hu : q_up Q !! _ = Some u |- _ => apply N3 in Hu as [Hu _] end.
      cbn [q_publish q_com]. apply lookup_insert_ne. congruence.
    - (* delete *) cbn [q_remove q_com]. apply lookup_delete_ne. intros ->. apply U1; [assumption|reflexivity].
    - (* batch *) match goal with B : batch_stores _ _ _ _ |- _ => apply batch_frames in B as (es & tail & B1 & B2 & _ & B3 & _) end.
      apply B3. eapply U3; eassumption.
  Qed.
  Lemma com_all h Q h' Q' key : Forall (fun x => request_ok s (fst x)) h' -> known h Q -> serves_all s Q h' Q' -> leaves_alone h key h' ->
    q_com Q' !! key = q_com Q !! key.
  Proof using Hmac.
    revert h Q. induction h' as [|[rq r] h' IH]; intros h Q Hok HK H HL.
    - inversion H; subst. reflexivity.
    - apply serves_all_cons in H as (Q1 & H1 & H2). apply Forall_cons_1 in Hok as [Hok1 Hok].
      rewrite (IH (h ++ [(rq, r)]) Q1).
      + eapply com_step; [exact HK|exact H1|]. specialize (HL [] rq r h' eq_refl). rewrite app_nil_r in HL. exact HL.
      + exact Hok.
      + eapply known_step; eassumption.
      + exact H2.
      + intros h1 rq' r' h2 ->. specialize (HL ((rq, r) :: h1) rq' r' h2 eq_refl). rewrite <- app_assoc. exact HL.
  Qed.
  Lemma last_answer Q rq r Q' key o data : serves s Q rq r Q' -> q_com Q !! key = Some o -> content o = data -> answers_with s key data rq r.
  Proof using.
    intros H Ho <-. exists (co_id o). split.
    - intros range Hn Hp Em. inversion H; subst; try congruence.
      + exfalso. match goal with A : _ \/ _ |- _ => destruct A as [(? & ? & ? & ?)|(? & ?)]; congruence end.
      + match goal with A : needs rq = Some (ReadObject ?k) |- _ => rewrite Hn in A; injection A as <- end.
        match goal with A : rq_method rq = HGet ?k |- _ => rewrite Em in A; injection A as <- end.
        rewrite Ho. reflexivity.
    - intros Hn Hp. inversion H; subst; try congruence.
      + exfalso. match goal with A : needs rq = Some ?a, C : _ \/ _ |- _ => rewrite Hn in A; injection A as <- end.
        unfold needs in Hn. match goal with A : _ \/ _ |- _ => destruct A as [(? & ? & ? & E)|(? & E)]; rewrite E in Hn end; destruct (decide _); discriminate Hn.
      + exfalso. unfold needs in Hn. match goal with A : rq_method rq = _ |- _ => rewrite A in Hn end. destruct (decide _); discriminate Hn.
      + match goal with A : needs rq = Some (InspectObject ?k) |- _ => rewrite Hn in A; injection A as <- end.
        rewrite Ho, content_length. reflexivity.
  Qed.

  Lemma up_all Q h Q' id : serves_all s Q h Q' -> id ∈ q_ids Q ->
    id ∈ q_ids Q' /\
    (q_up Q' !! id = None \/ exists u u', q_up Q !! id = Some u /\ q_up Q' !! id = Some u' /\ qu_key u' = qu_key u /\ qu_size u' = qu_size u /\
       forall o, (forall rq r tok len body, (rq, r) ∈ h -> rq_method rq = HPatch tok o len body -> upload_of s tok <> Some (Itoken id 0)) -> qu_parts u' o = qu_parts u o).
  Proof using Hmac.
    revert Q. induction h as [|[rq r] h IH]; intros Q H Hid.
    - inversion H; subst. split; [exact Hid|]. destruct (q_up Q' !! id) as [u|]; [right; exists u, u; auto 8|auto].
    - apply serves_all_cons in H as (Q1 & H1 & H2). destruct (up_step _ _ _ _ _ H1 Hid) as [K1 K2].
      destruct (IH Q1 H2 K1) as [J1 J2]. split; [exact J1|].
      destruct J2 as [J2|(u1 & u2 & J2 & J3 & J4 & J5 & J6)]; [left; exact J2|].
      destruct K2 as [K2|(u & u1' & K2 & K3 & K4 & K5 & K6)]; [congruence|].
      rewrite K3 in J2. injection J2 as <-. right. exists u, u2. split; [exact K2|]. split; [exact J3|].
      split; [congruence|]. split; [congruence|]. intros o Ho. rewrite J6, K6; [reflexivity| |].
      + intros tok len body Em. eapply Ho; [left|exact Em].
      + intros rq' r' tok len body Hin Em. eapply Ho; [right; exact Hin|exact Em].
  Qed.
  Lemma receipt_step Q rq receipt Q' tok offset len body id size : serves s Q rq (RespReceipt 202 receipt) Q' ->
    rq_method rq = HPatch tok offset len body -> names s tok id size ->
    exists u, q_up Q !! id = Some u /\ Q' = q_part Q id u offset (Some (stream_bytes body)).
  Proof using.
    intros H Em Hn. inversion H; subst; try (match goal with E : match ?x with _ => _ end = _ |- _ => destruct x; discriminate E end).
    match goal with E : rq_method rq = _ |- _ => rewrite Em in E; injection E as <- <- _ <- end.
    match goal with N0 : names s tok id0 _ |- _ => unfold names in *; rewrite Hn in N0; injection N0 as <- <- end. eauto.
  Qed.
  Lemma part_kept Q h Q' tok id size offset bytes u : serves_all s Q h Q' -> names s tok id size -> id ∈ q_ids Q ->
    last_written s h tok offset bytes -> q_up Q' !! id = Some u -> qu_parts u offset = Some bytes.
  Proof using Hmac.
    intros H Hn Hid (h1 & rq & receipt & h2 & len & body & -> & Em & <- & Hlast) Hu.
    apply serves_all_app in H as (Q1 & H1 & H2). apply serves_all_cons in H2 as (Q2 & H2 & H3).
    destruct (receipt_step _ _ _ _ _ _ _ _ _ _ H2 Em Hn) as (u1 & Hu1 & ->).
    destruct (up_all _ _ _ _ H1 Hid) as [Hid1 _].
    destruct (up_all _ _ _ id H3 ltac:(exact Hid1)) as [_ [K|(u0 & u' & K1 & K2 & _ & _ & K3)]]; [congruence|].
    rewrite Hu in K2. injection K2 as <-. cbn [q_part q_up] in K1. rewrite lookup_insert in K1. injection K1 as <-.
    rewrite K3; [cbn [qu_parts]; apply fn_lookup_insert|].
    intros rq' r' tok' len' body' Hin Em'. pose proof (Hlast _ _ _ _ _ Hin Em') as Hne. intros E. apply Hne. rewrite E. unfold upload_of. rewrite Hn. reflexivity.
  Qed.
  Lemma written_content u bytes data : qu_size u = N.of_nat (length data) ->
    (forall i, i * 2 ^ sv_lpage s < N.of_nat (length data) ->
       qu_parts u (i * 2 ^ sv_lpage s) = Some (take (N.to_nat (2 ^ sv_lpage s)) (drop (N.to_nat (i * 2 ^ sv_lpage s)) data))) ->
    has_written u bytes -> forall i b, data !! i = Some b -> bytes (N.of_nat i) = b.
  Proof using.
    intros Hs Hp Hw i b Hi. assert (0 < 2 ^ sv_lpage s) as HL by (apply N.neq_0_lt_0, N.pow_nonzero; discriminate).
    revert Hp HL. generalize (2 ^ sv_lpage s) as L. intros L Hp HL.
    pose proof (N.div_mod (N.of_nat i) L ltac:(clear -HL; lia)) as E. pose proof (N.mod_lt (N.of_nat i) L ltac:(clear -HL; lia)) as Hm.
    set (p := N.of_nat i / L) in *. set (m := N.of_nat i mod L) in *. clearbody p m.
    pose proof (lookup_lt_Some _ _ _ Hi) as Hlt. rewrite (N.mul_comm L p) in E.
    assert (p * L < N.of_nat (length data)) as Hpl by (clear -E Hlt; lia).
    rewrite E. rewrite <- (N2Nat.id m). eapply Hw; [apply Hp, Hpl|].
    rewrite lookup_take by (clear -Hm; lia). rewrite lookup_drop. rewrite <- Hi. f_equal. clear -E. lia.
  Qed.

  Theorem uploaded_is_served pre create tok mid commit receipts post lastrq r key data Q :
    let before := pre ++ [(create, RespUpload 202 tok)] ++ mid ++ [(commit, Resp 201)] in
    Forall (fun x => request_ok s (fst x)) (before ++ post ++ [(lastrq, r)]) ->
    serves_all s q_empty (before ++ post ++ [(lastrq, r)]) Q ->
    needs create = Some (CreateObject key (N.of_nat (length data))) -> rq_method commit = HPut tok receipts ->
    (forall i, i * 2 ^ sv_lpage s < N.of_nat (length data) ->
       last_written s mid tok (i * 2 ^ sv_lpage s) (take (N.to_nat (2 ^ sv_lpage s)) (drop (N.to_nat (i * 2 ^ sv_lpage s)) data))) ->
    leaves_alone before key post -> answers_with s key data lastrq r.
  Proof using Hmac.
    intros before Hok H Hn Em Hparts HL.
    apply Forall_app in Hok as [Hok1 Hok2]. apply Forall_app in Hok2 as [Hok2 _].
    apply serves_all_app in H as (Q4 & H & Hrest).
    pose proof (known_all [] q_empty before Q4 Hok1 known_empty H) as HK4. cbn [app] in HK4.
    unfold before in H, Hok1.
    rewrite !Forall_app in Hok1. destruct Hok1 as (Ok1 & Ok2 & Ok3 & _).
    apply serves_all_app in H as (Q0 & Hpre & H). apply serves_all_app in H as (Q1 & Hcreate & H). apply serves_all_app in H as (Q2 & Hmid & H).
    pose proof (known_all [] q_empty pre Q0 Ok1 known_empty Hpre) as HK0. cbn [app] in HK0.
    pose proof (known_all _ _ _ _ Ok2 HK0 Hcreate) as HK1.
    destruct (HK1 tok key (N.of_nat (length data))) as (id & N1 & N2 & N3).
    { exists create. split; [|exact Hn]. apply elem_of_app. right. left. }
    apply serves_all_cons in H as (Q3 & Hcommit & Hnil). inversion Hnil; subst. clear Hnil.
    (* the commit *)
    assert (exists o, q_com Q4 !! key = Some o /\ content o = data) as (o & Ho1 & Ho2).
    { inversion Hcommit; subst; try congruence;
        try (match goal with E : match ?x with _ => _ end = _ |- _ => destruct x; discriminate E end);
        try (exfalso; unfold needs in *; rewrite Em in *; repeat case_match; discriminate);
        try (exfalso; match goal with E : _ \/ _ |- _ => destruct E as [[? _]|[? _]]; discriminate end).
      match goal with E : rq_method commit = _ |- _ => rewrite Em in E; injection E as <- <- end.
      match goal with N0 : names s tok id0 _ |- _ => unfold names in *; rewrite N1 in N0; injection N0 as <- <- end.
      match goal with Hu0 : q_up Q2 !! id = Some _ |- _ => rename Hu0 into Hu end.
      destruct (up_all _ _ _ _ Hmid N2) as [_ [K|(u0 & u' & K1 & K2 & K3 & K4 & _)]]; [congruence|].
      rewrite Hu in K2. injection K2 as <-. destruct (N3 _ K1) as [E1 E2]. rewrite E1 in K3. rewrite E2 in K4.
      cbn [q_publish q_com]. rewrite K3, lookup_insert. eexists. split; [reflexivity|].
      apply content_of; cbn [co_size co_bytes]; [congruence|].
      apply (written_content u); [exact K4| |assumption].
      intros i Hi. eapply part_kept; [exact Hmid|exact N1|exact N2|apply Hparts, Hi|exact Hu]. }
    (* afterwards *)
    apply serves_all_app in Hrest as (Q5 & Hpost & Hlast). apply serves_all_cons in Hlast as (Q6 & Hlast & _).
    eapply last_answer; [exact Hlast| |exact Ho2].
    rewrite (com_all before Q4 post Q5 key Hok2 HK4 Hpost HL). exact Ho1.
  Qed.

  Theorem batch_is_served pre batch size body rb post lastrq r Q :
    let before := pre ++ [(batch, rb)] in
    Forall (fun x => request_ok s (fst x)) (before ++ post ++ [(lastrq, r)]) ->
    serves_all s q_empty (before ++ post ++ [(lastrq, r)]) Q ->
    needs batch = Some BatchCreateObjects -> permitted s batch BatchCreateObjects -> rq_method batch = HPost size body ->
    exists es tail, Forall valid_entry es /\ concat body = concat (map entry_bytes es) ++ tail /\
      (rb = Aborted \/ rb = RespCount 200 (N.of_nat (length es)) /\ forall e tail', valid_entry e -> tail <> entry_bytes e ++ tail') /\
      forall e1 key data e2, es = e1 ++ (key, data) :: e2 -> key ∉ map fst e2 -> leaves_alone before key post -> answers_with s key data lastrq r.
  Proof using Hmac.
    intros before Hok H Hn Hp Em.
    apply Forall_app in Hok as [Hok1 Hok2]. apply Forall_app in Hok2 as [Hok2 _].
    apply serves_all_app in H as (Q4 & H & Hrest).
    pose proof (known_all [] q_empty before Q4 Hok1 known_empty H) as HK4. cbn [app] in HK4.
    unfold before in H. apply serves_all_app in H as (Q0 & Hpre & H). apply serves_all_cons in H as (Q3 & Hb & Hnil). inversion Hnil; subst. clear Hnil.
    apply serves_all_app in Hrest as (Q5 & Hpost & Hlast). apply serves_all_cons in Hlast as (Q6 & Hlast & _).
    assert (exists n, batch_stores Q0 (concat body) n Q4 /\ rb = match n with Some n => RespCount 200 n | None => Aborted end) as (n & Hbs & Erb).
    { inversion Hb; subst; try congruence.
      - exfalso. unfold needs in Hn. destruct (decide _); [|destruct (rq_method batch); discriminate Hn].
        match goal with X : _ \/ _ |- _ => destruct X as [(? & ? & ? & EE)|(? & EE)] end; rewrite EE in Hn; discriminate Hn.
      - match goal with E : rq_method batch = HPost _ _ |- _ => rewrite Em in E; injection E as <- <- end. eauto. }
    apply batch_frames in Hbs as (es & tail & B1 & B2 & B3 & _ & B5). exists es, tail. split; [exact B1|]. split; [exact B2|]. split.
    - destruct B3 as [->|[-> B3]]; [left; exact Erb|right; split; [exact Erb|exact B3]].
    - intros e1 key data e2 E Hk HL. destruct (B5 _ _ _ _ E Hk) as (o & Ho1 & Ho2).
      eapply last_answer; [exact Hlast| |exact Ho2]. rewrite (com_all before Q4 post Q5 key Hok2 HK4 Hpost HL). exact Ho1.
  Qed.
End Step.
