(** Data through kills at any point. *)
From Coq Require Import ZifyBool ZifyNat ZifyN.
From stdpp Require Import base numbers option gmap sets functions list.
From Verif Require Import Util Bytes PageIOModel PageIOSpec TokenModel TokenProofs HttpModel BatchProofs DirectModel DirectSpec DirectBase DirectSeqSpec DirectDrive DirectSeq.
From Verif Require Import DirectSys DirectLoadModel DirectAlive DirectRestartSpec DirectRestart4 PropertiesToken.
From Verif Require Import ServerModel ServerSpec ServerProofs ServerHist ServerCrashSpec ServerCrash ServerKillSpec ServerKill.
Open Scope N_scope.
Ltac Zify.zify_post_hook ::= idtac.

Lemma any_cons s Q e es Q' : survives_any_all s Q (e :: es) Q' -> exists Q1, survives_any s Q e Q1 /\ survives_any_all s Q1 es Q'.
Proof. intros H. inversion H; subst. eauto. Qed.
Lemma any_answered s Q rq r Q' : survives_any s Q (Answered rq r) Q' -> serves s Q rq r Q'.
Proof. intros H. inversion H; subst. assumption. Qed.
Lemma any_nil s Q Q' : survives_any_all s Q [] Q' -> Q' = Q.
Proof. intros H. inversion H; subst. reflexivity. Qed.

Lemma same_object_content co co' data : same_object co co' -> content co = data -> content co' = data.
Proof.
  intros (H1 & H2 & H3 & H4) <-. unfold content, byte_range. rewrite <- H2. apply map_ext_in. intros i Hi. apply in_seq in Hi. apply H4. lia.
Qed.

Lemma alike_content Q Q' key : alike Q Q' -> content <$> q_com Q' !! key = content <$> q_com Q !! key.
Proof.
  intros [HC _ _]. specialize (HC key). destruct (q_com Q !! key) as [o|], (q_com Q' !! key) as [o'|]; try contradiction; [|reflexivity].
  cbn [fmap option_fmap option_map]. f_equal. exact (same_object_content _ _ _ HC eq_refl).
Qed.

(** A part of an upload that had contents has kept them. *)
Definition same_upload (Q Q' : qstate) (id : N) (o_ok : N -> Prop) : Prop :=
  q_up Q' !! id = None \/ exists u u', q_up Q !! id = Some u /\ q_up Q' !! id = Some u' /\ qu_key u' = qu_key u /\ qu_size u' = qu_size u /\
    forall o l, o_ok o -> qu_parts u o = Some l -> l <> [] -> qu_parts u' o = Some l.

Section Events.
  Variable s : server.
  Hypothesis Hmac : is_mac (sv_mac s).

  Lemma answer_as Q rq r Q' key d : serves s Q rq r Q' -> content <$> q_com Q !! key = d -> answers_as s key d rq r.
  Proof using.
    intros H <-. destruct (q_com Q !! key) as [o|] eqn:Ho; cbn [fmap option_fmap option_map answers_as].
    - eapply last_answer; [exact H|exact Ho|reflexivity].
    - split.
      + intros range Hn Hp Em. inversion H; subst; try congruence.
        * exfalso. match goal with A : _ \/ _ |- _ => destruct A as [(? & ? & ? & ?)|(? & ?)]; congruence end.
        * match goal with A : needs rq = Some (ReadObject ?k) |- _ => rewrite Hn in A; injection A as <- end.
          match goal with A : rq_method rq = HGet ?k |- _ => rewrite Em in A; injection A as <- end.
          rewrite Ho. cbn [fmap option_fmap option_map]. unfold endpoint_read.
          destruct range as [h|]; cbn [mbind option_bind]; [|left; reflexivity].
          destruct (default [] (range_specs h)) as [|a [|b l]]; cbn [head default from_option id];
            try (right; split; [discriminate|reflexivity]); (destruct (range_start _); [left; reflexivity|right; split; [discriminate|reflexivity]]).
      + intros Hn Hp. inversion H; subst; try congruence.
        * exfalso. match goal with A : needs rq = Some ?a, C : _ \/ _ |- _ => rewrite Hn in A; injection A as <- end.
          unfold needs in Hn. match goal with A : _ \/ _ |- _ => destruct A as [(? & ? & ? & E)|(? & E)]; rewrite E in Hn end; destruct (decide _); discriminate Hn.
        * exfalso. unfold needs in Hn. match goal with A : rq_method rq = _ |- _ => rewrite A in Hn end. destruct (decide _); discriminate Hn.
        * match goal with A : needs rq = Some (InspectObject ?k) |- _ => rewrite Hn in A; injection A as <- end. rewrite Ho. reflexivity.
  Qed.
  (** The answer to a GET of the whole object. *)
  Lemma whole_answer Q rq r Q' key : serves s Q rq r Q' -> needs rq = Some (ReadObject key) -> permitted s rq (ReadObject key) -> rq_method rq = HGet None ->
    Q' = Q /\ shown r = content <$> q_com Q !! key.
  Proof using.
    intros H Hn Hp Em. inversion H; subst; try congruence.
    - exfalso. match goal with A : _ \/ _ |- _ => destruct A as [(? & ? & ? & ?)|(? & ?)]; congruence end.
    - match goal with A : needs rq = Some (ReadObject ?k) |- _ => rewrite Hn in A; injection A as <- end.
      match goal with A : rq_method rq = HGet ?k |- _ => rewrite Em in A; injection A as <- end.
      split; [reflexivity|]. destruct (q_com Q' !! key) as [o|]; [|reflexivity]. cbn [fmap option_fmap option_map]. unfold endpoint_read.
      cbn [mbind option_bind default from_option head fst snd range_start range_end id].
      destruct (read_check Direct _ _ _) eqn:E.
      + exfalso. unfold read_check in E. revert E. destruct (_ || _) eqn:E1; [|discriminate]. lia.
      + cbn [shown]. f_equal. rewrite N.sub_0_r, Nnat.Nat2N.id. cbn [N.to_nat drop]. apply take_ge. lia.
  Qed.

  Lemma up_step_any Q e Q' id : survives_any s Q e Q' -> id ∈ q_ids Q ->
    id ∈ q_ids Q' /\ same_upload Q Q' id (fun o => forall rq tok len body, ev_makes e rq -> rq_method rq = HPatch tok o len body -> upload_of s tok <> Some (Itoken id 0)).
  Proof using Hmac.
    intros H Hid.
    assert (Hold : forall Q1, survives s Q e Q1 -> id ∈ q_ids Q1 /\ same_upload Q Q1 id (fun o => forall rq tok len body, ev_makes e rq -> rq_method rq = HPatch tok o len body -> upload_of s tok <> Some (Itoken id 0))).
    { intros Q1 H1. destruct (up_step_ev s Hmac _ _ _ _ H1 Hid) as [K1 K2]. split; [exact K1|]. destruct K2 as [K2|(u & u' & A1 & A2 & A3 & A4 & A5)]; [left; exact K2|right].
      exists u, u'. do 4 (split; [assumption|]). intros o l Ho Hl _. rewrite A5; [exact Hl|exact Ho]. }
    assert (Halike : forall Q1 Q2 (P : N -> Prop), alike Q1 Q2 -> id ∈ q_ids Q1 /\ same_upload Q Q1 id P -> id ∈ q_ids Q2 /\ same_upload Q Q2 id P).
    { intros Q1 Q2 P [_ HU HI] [K1 K2]. split; [apply HI, K1|]. specialize (HU id). destruct K2 as [K2|(u & u' & A1 & A2 & A3 & A4 & A5)].
      - rewrite K2 in HU. left. destruct (q_up Q2 !! id); [contradiction|reflexivity].
      - rewrite A2 in HU. destruct (q_up Q2 !! id) as [u2|] eqn:E2; [|contradiction]. destruct HU as [U1 U2 _ U4]. right. exists u, u2. split; [exact A1|]. split; [exact E2|].
        split; [congruence|]. split; [congruence|]. intros o l Ho Hl Hne. apply U4; [|exact Hne]. apply A5; assumption. }
    destruct H as [rq r Q' H|rq Q' H|ids H].
    - apply Hold. constructor. exact H.
    - destruct H as [Q0 H1 H2|key tok receipts id' size u _ _ _ _ _ Hu _ HA].
      + eapply Halike; [exact H2|]. apply Hold. constructor. exact H1.
      + eapply Halike; [exact HA|]. split; [exact Hid|]. destruct (decide (id = id')) as [->|Hne]; [left; apply lookup_delete|].
        unfold same_upload. cbn [q_drop q_up]. rewrite lookup_delete_ne by congruence. destruct (q_up Q !! id) as [u0|]; [right; exists u0, u0; auto 8|auto].
    - apply Hold. constructor. exact H.
  Qed.
  Lemma up_all_any Q es Q' id : survives_any_all s Q es Q' -> id ∈ q_ids Q ->
    id ∈ q_ids Q' /\ same_upload Q Q' id (fun o => forall rq tok len body, made es rq -> rq_method rq = HPatch tok o len body -> upload_of s tok <> Some (Itoken id 0)).
  Proof using Hmac.
    revert Q. induction es as [|e es IH]; intros Q H Hid.
    - apply any_nil in H as ->. split; [exact Hid|]. unfold same_upload. destruct (q_up Q !! id) as [u|]; [right; exists u, u; auto 8|auto].
    - apply any_cons in H as (Q1 & H1 & H2). destruct (up_step_any _ _ _ _ H1 Hid) as [K1 K2].
      destruct (IH Q1 H2 K1) as [J1 J2]. split; [exact J1|].
      destruct J2 as [J2|(u1 & u2 & J2 & J3 & J4 & J5 & J6)]; [left; exact J2|].
      destruct K2 as [K2|(u & u1' & K2 & K3 & K4 & K5 & K6)]; [congruence|].
      rewrite K3 in J2. injection J2 as <-. right. exists u, u2. split; [exact K2|]. split; [exact J3|].
      split; [congruence|]. split; [congruence|]. intros o l Ho Hl Hne. apply J6; [|apply K6; [|exact Hl|exact Hne]|exact Hne].
      + intros rq tok len body Hm Em. eapply Ho; [|exact Em]. apply made_elem in Hm as (e' & Hin & He'). apply made_elem. exists e'. split; [right; exact Hin|exact He'].
      + intros rq tok len body He Em. eapply Ho; [apply made_elem; exists e; split; [left|exact He]|exact Em].
  Qed.

  Lemma known_step_any es Q e Q' : event_ok s e -> known s (answered es) Q -> survives_any s Q e Q' -> known s (answered (es ++ [e])) Q'.
  Proof using Hmac.
    intros Hok HK H. rewrite answered_app.
    assert (Hold : answered [e] = [] -> known s (answered es ++ answered [e]) Q').
    { intros ->. rewrite app_nil_r. intros tok key size Hu. destruct (HK _ _ _ Hu) as (id & H1 & H2 & H3).
      exists id. destruct (up_step_any _ _ _ id H H2) as [K1 K2]. split; [exact H1|]. split; [exact K1|].
      intros u Hu'. destruct K2 as [K2|(u0 & u' & K2 & K3 & K4 & K5 & _)]; [congruence|]. rewrite K3 in Hu'. injection Hu' as <-.
      rewrite K4, K5. apply H3, K2. }
    destruct e as [rq r|rq|]; [|apply Hold; reflexivity..].
    apply any_answered in H. cbn. eapply known_step; [exact Hmac|apply Hok|exact HK|eassumption].
  Qed.
  Lemma known_all_any es Q es' Q' : Forall (event_ok s) es' -> known s (answered es) Q -> survives_any_all s Q es' Q' -> known s (answered (es ++ es')) Q'.
  Proof using Hmac.
    revert es Q. induction es' as [|e es' IH]; intros es Q Hok HK H.
    - apply any_nil in H as ->. rewrite app_nil_r. exact HK.
    - apply any_cons in H as (Q1 & H1 & H2). apply Forall_cons_1 in Hok as [Hok1 Hok].
      replace (es ++ e :: es') with ((es ++ [e]) ++ es') by (rewrite <- app_assoc; reflexivity).
      eapply IH; [exact Hok| |exact H2]. eapply known_step_any; eassumption.
  Qed.

  Lemma com_step_any es Q e Q' key : known s (answered es) Q -> survives_any s Q e Q' ->
    match e with Answered rq r => untouched (answered es) key rq r | Lost rq => untouched_lost (answered es) key rq | Killed => True end ->
    content <$> q_com Q' !! key = content <$> q_com Q !! key.
  Proof using.
    intros HK H U. destruct H as [rq r Q' H|rq Q' H|ids H].
    - f_equal. eapply com_step_ev; [exact HK|constructor; exact H|exact U].
    - destruct H as [Q0 H1 H2|key' tok receipts id' size u _ _ _ _ _ _ _ HA].
      + rewrite (alike_content _ _ key H2). f_equal. eapply (com_step_ev s es Q (Lost rq)); [exact HK|constructor; exact H1|exact U].
      + apply (alike_content _ _ key HA).
    - reflexivity.
  Qed.
  Lemma com_all_any es Q es' Q' key : Forall (event_ok s) es' -> known s (answered es) Q -> survives_any_all s Q es' Q' -> leaves_alone_ev es key es' ->
    content <$> q_com Q' !! key = content <$> q_com Q !! key.
  Proof using Hmac.
    revert es Q. induction es' as [|e es' IH]; intros es Q Hok HK H HL.
    - apply any_nil in H as ->. reflexivity.
    - apply any_cons in H as (Q1 & H1 & H2). apply Forall_cons_1 in Hok as [Hok1 Hok].
      rewrite (IH (es ++ [e]) Q1); [|exact Hok|eapply known_step_any; eassumption|exact H2|].
      + eapply com_step_any; [exact HK|exact H1|]. specialize (HL [] e es' eq_refl). rewrite app_nil_r in HL. exact HL.
      + intros h1 e' h2 ->. specialize (HL (e :: h1) e' h2 eq_refl). rewrite <- app_assoc. exact HL.
  Qed.
  Lemma part_kept_any Q es Q' tok id size offset bytes u : survives_any_all s Q es Q' -> names s tok id size -> id ∈ q_ids Q -> bytes <> [] ->
    last_kept s es tok offset bytes -> q_up Q' !! id = Some u -> qu_parts u offset = Some bytes.
  Proof using Hmac.
    intros H Hn Hid Hne (h1 & rq & receipt & h2 & len & body & -> & Em & <- & Hlast) Hu.
    apply survives_any_app in H as (Q1 & H1 & H2). apply any_cons in H2 as (Q2 & H2 & H3). apply any_answered in H2.
    destruct (receipt_step s _ _ _ _ _ _ _ _ _ _ H2 Em Hn) as (u1 & Hu1 & ->).
    destruct (up_all_any _ _ _ _ H1 Hid) as [Hid1 _].
    destruct (up_all_any _ _ _ id H3 ltac:(exact Hid1)) as [_ [K|(u0 & u' & K1 & K2 & _ & _ & K3)]]; [congruence|].
    rewrite Hu in K2. injection K2 as <-. cbn [q_part q_up] in K1. rewrite lookup_insert in K1. injection K1 as <-.
    apply K3; [|cbn [qu_parts]; apply fn_lookup_insert|exact Hne].
    intros rq' tok' len' body' Hin Em'. pose proof (Hlast _ _ _ _ Hin Em') as Hne'. intros E. apply Hne'. rewrite E. unfold upload_of. rewrite Hn. reflexivity.
  Qed.

  Theorem uploaded_survives_any pre create tok mid commit receipts post lastrq r key data Q :
    let before := pre ++ [Answered create (RespUpload 202 tok)] ++ mid ++ [Answered commit (Resp 201)] in
    Forall (event_ok s) (before ++ post ++ [Answered lastrq r]) ->
    survives_any_all s q_empty (before ++ post ++ [Answered lastrq r]) Q ->
    needs create = Some (CreateObject key (N.of_nat (length data))) -> rq_method commit = HPut tok receipts ->
    (forall i, i * 2 ^ sv_lpage s < N.of_nat (length data) ->
       last_kept s mid tok (i * 2 ^ sv_lpage s) (take (N.to_nat (2 ^ sv_lpage s)) (drop (N.to_nat (i * 2 ^ sv_lpage s)) data))) ->
    leaves_alone_ev before key post -> answers_with s key data lastrq r.
  Proof using Hmac.
    intros before Hok H Hn Em Hparts HL.
    apply Forall_app in Hok as [Hok1 Hok2]. apply Forall_app in Hok2 as [Hok2 _].
    apply survives_any_app in H as (Q4 & H & Hrest).
    pose proof (known_all_any [] q_empty before Q4 Hok1 (known_empty s) H) as HK4. cbn [app] in HK4.
    unfold before in H, Hok1.
    rewrite !Forall_app in Hok1. destruct Hok1 as (Ok1 & Ok2 & Ok3 & _).
    apply survives_any_app in H as (Q0 & Hpre & H). apply survives_any_app in H as (Q1 & Hcreate & H). apply survives_any_app in H as (Q2 & Hmid & H).
    pose proof (known_all_any [] q_empty pre Q0 Ok1 (known_empty s) Hpre) as HK0. cbn [app] in HK0.
    pose proof (known_all_any _ _ _ _ Ok2 HK0 Hcreate) as HK1.
    destruct (HK1 tok key (N.of_nat (length data))) as (id & N1 & N2 & N3).
    { exists create. split; [|exact Hn]. rewrite answered_app. apply elem_of_app. right. left. }
    apply any_cons in H as (Q3 & Hcommit & Hnil). apply any_nil in Hnil as ->. apply any_answered in Hcommit.
    (* the commit *)
    assert (content <$> q_com Q3 !! key = Some data) as Hcom.
    { inversion Hcommit; subst; try congruence;
        try (match goal with E : match ?x with _ => _ end = _ |- _ => destruct x; discriminate E end);
        try (exfalso; unfold needs in *; rewrite Em in *; repeat case_match; discriminate);
        try (exfalso; match goal with E : _ \/ _ |- _ => destruct E as [[? _]|[? _]]; discriminate end).
      match goal with E : rq_method commit = _ |- _ => rewrite Em in E; injection E as <- <- end.
      match goal with N0 : names s tok id0 _ |- _ => unfold names in *; rewrite N1 in N0; injection N0 as <- <- end.
      match goal with Hu0 : q_up Q2 !! id = Some _ |- _ => rename Hu0 into Hu end.
      destruct (up_all_any _ _ _ _ Hmid N2) as [_ [K|(u0 & u' & K1 & K2 & K3 & K4 & _)]]; [congruence|].
      rewrite Hu in K2. injection K2 as <-. destruct (N3 _ K1) as [E1 E2]. rewrite E1 in K3. rewrite E2 in K4.
      cbn [q_publish q_com]. rewrite K3, lookup_insert. cbn [fmap option_fmap option_map]. f_equal.
      apply content_of; cbn [co_size co_bytes]; [congruence|].
      apply (written_content s u); [exact K4| |assumption].
      intros i Hi. eapply part_kept_any; [exact Hmid|exact N1|exact N2| |apply Hparts, Hi|exact Hu].
      assert (0 < 2 ^ sv_lpage s) as HL0 by (apply N.neq_0_lt_0, N.pow_nonzero; discriminate).
      intros E. apply (f_equal length) in E. rewrite take_length, drop_length in E. cbn [length] in E.
      clear -E HL0 Hi. revert E HL0 Hi. generalize (2 ^ sv_lpage s) as L. intros L E HL0 Hi. generalize dependent (i * L). intros j. lia. }
    (* afterwards *)
    apply survives_any_app in Hrest as (Q5 & Hpost & Hlast). apply any_cons in Hlast as (Q6 & Hlast & _).
    apply any_answered in Hlast.
    rewrite <- (com_all_any before Q3 post Q5 key Hok2 HK4 Hpost HL) in Hcom. exact (answer_as _ _ _ _ _ _ Hlast Hcom).
  Qed.

  Theorem batch_survives_any pre batch size body n post lastrq r Q :
    let before := pre ++ [Answered batch (RespCount 200 n)] in
    Forall (event_ok s) (before ++ post ++ [Answered lastrq r]) ->
    survives_any_all s q_empty (before ++ post ++ [Answered lastrq r]) Q ->
    needs batch = Some BatchCreateObjects -> permitted s batch BatchCreateObjects -> rq_method batch = HPost size body ->
    exists es tail, Forall valid_entry es /\ concat body = concat (map entry_bytes es) ++ tail /\ n = N.of_nat (length es) /\
      (forall e tail', valid_entry e -> tail <> entry_bytes e ++ tail') /\
      forall e1 key data e2, es = e1 ++ (key, data) :: e2 -> key ∉ map fst e2 -> leaves_alone_ev before key post -> answers_with s key data lastrq r.
  Proof using Hmac.
    intros before Hok H Hn Hp Em.
    apply Forall_app in Hok as [Hok1 Hok2]. apply Forall_app in Hok2 as [Hok2 _].
    apply survives_any_app in H as (Q4 & H & Hrest).
    pose proof (known_all_any [] q_empty before Q4 Hok1 (known_empty s) H) as HK4. cbn [app] in HK4.
    unfold before in H. apply survives_any_app in H as (Q0 & Hpre & H). apply any_cons in H as (Q3 & Hb & Hnil). apply any_nil in Hnil as ->.
    apply survives_any_app in Hrest as (Q5 & Hpost & Hlast). apply any_cons in Hlast as (Q6 & Hlast & _).
    apply any_answered in Hlast as Hlast'. apply any_answered in Hb as Hb'.
    assert (batch_stores Q0 (concat body) (Some n) Q3) as Hbs.
    { inversion Hb'; subst; try congruence.
      match goal with E : rq_method batch = HPost _ _ |- _ => rewrite Em in E; injection E as <- <- end.
      match goal with E : match ?x with _ => _ end = _ |- _ => destruct x; [|discriminate E]; injection E as -> end. assumption. }
    apply batch_frames in Hbs as (es & tail & B1 & B2 & B3 & _ & B5). exists es, tail. split; [exact B1|]. split; [exact B2|].
    destruct B3 as [B3|[B3 B4]]; [discriminate B3|]. injection B3 as ->. split; [reflexivity|]. split; [exact B4|].
    intros e1 key data e2 E Hk HL. destruct (B5 _ _ _ _ E Hk) as (o & Ho1 & Ho2).
    assert (content <$> q_com Q3 !! key = Some data) as Ho by (rewrite Ho1; cbn; congruence).
    rewrite <- (com_all_any before Q3 post Q5 key Hok2 HK4 Hpost HL) in Ho. exact (answer_as _ _ _ _ _ _ Hlast' Ho).
  Qed.

  (** The state in which the upload's parts are all written. *)
  Lemma upload_ready pre create tok mid key data Q :
    Forall (event_ok s) (pre ++ [Answered create (RespUpload 202 tok)] ++ mid) ->
    survives_any_all s q_empty (pre ++ [Answered create (RespUpload 202 tok)] ++ mid) Q ->
    needs create = Some (CreateObject key (N.of_nat (length data))) ->
    (forall i, i * 2 ^ sv_lpage s < N.of_nat (length data) ->
       last_kept s mid tok (i * 2 ^ sv_lpage s) (take (N.to_nat (2 ^ sv_lpage s)) (drop (N.to_nat (i * 2 ^ sv_lpage s)) data))) ->
    exists id, names s tok id (N.of_nat (length data)) /\
      forall u oid bytes, q_up Q !! id = Some u -> has_written u bytes ->
        qu_key u = key /\ content {| co_id := oid; co_size := qu_size u; co_created := qu_created u; co_bytes := bytes |} = data.
  Proof using Hmac.
    intros Hok H Hn Hparts. rewrite !Forall_app in Hok. destruct Hok as (Ok1 & Ok2 & Ok3).
    apply survives_any_app in H as (Q0 & Hpre & H). apply survives_any_app in H as (Q1 & Hcreate & Hmid).
    pose proof (known_all_any [] q_empty pre Q0 Ok1 (known_empty s) Hpre) as HK0. cbn [app] in HK0.
    pose proof (known_all_any _ _ _ _ Ok2 HK0 Hcreate) as HK1.
    destruct (HK1 tok key (N.of_nat (length data))) as (id & N1 & N2 & N3).
    { exists create. split; [|exact Hn]. rewrite answered_app. apply elem_of_app. right. left. }
    exists id. split; [exact N1|]. intros u oid bytes Hu Hw.
    destruct (up_all_any _ _ _ _ Hmid N2) as [_ [K|(u0 & u' & K1 & K2 & K3 & K4 & _)]]; [congruence|].
    rewrite Hu in K2. injection K2 as <-. destruct (N3 _ K1) as [E1 E2]. rewrite E1 in K3. rewrite E2 in K4.
    split; [exact K3|]. apply content_of; cbn [co_size co_bytes]; [congruence|].
    apply (written_content s u); [exact K4| |exact Hw].
    intros i Hi. eapply part_kept_any; [exact Hmid|exact N1|exact N2| |apply Hparts, Hi|exact Hu].
    assert (0 < 2 ^ sv_lpage s) as HL0 by (apply N.neq_0_lt_0, N.pow_nonzero; discriminate).
    intros E. apply (f_equal length) in E. rewrite take_length, drop_length in E. cbn [length] in E.
    clear -E HL0 Hi. revert E HL0 Hi. generalize (2 ^ sv_lpage s) as L. intros L E HL0 Hi. generalize dependent (i * L). intros j. lia.
  Qed.

  Theorem lost_put pre create tok mid first r0 commit receipts post lastrq r key data Q :
    let before := (pre ++ [Answered create (RespUpload 202 tok)] ++ mid) ++ [Answered first r0] in
    Forall (event_ok s) (before ++ [Lost commit] ++ post ++ [Answered lastrq r]) ->
    survives_any_all s q_empty (before ++ [Lost commit] ++ post ++ [Answered lastrq r]) Q ->
    needs create = Some (CreateObject key (N.of_nat (length data))) -> rq_method commit = HPut tok receipts ->
    (forall i, i * 2 ^ sv_lpage s < N.of_nat (length data) ->
       last_kept s mid tok (i * 2 ^ sv_lpage s) (take (N.to_nat (2 ^ sv_lpage s)) (drop (N.to_nat (i * 2 ^ sv_lpage s)) data))) ->
    needs first = Some (ReadObject key) -> permitted s first (ReadObject key) -> rq_method first = HGet None ->
    leaves_alone_ev (before ++ [Lost commit]) key post ->
    answers_as s key (shown r0) lastrq r \/ answers_as s key (Some data) lastrq r.
  Proof using Hmac.
    intros before Hok H Hn Em Hparts G1 G2 G3 HL.
    rewrite !Forall_app in Hok. destruct Hok as (Ok1 & Ok2 & Ok3 & _). unfold before in Ok1. apply Forall_app in Ok1 as [Ok1 Ok1'].
    apply survives_any_app in H as (Q2 & Hb & H). apply survives_any_app in H as (Q3 & Hlost & H). apply survives_any_app in H as (Q4 & Hpost & Hlast).
    pose proof (known_all_any [] q_empty before Q2 ltac:(apply Forall_app; auto) (known_empty s) Hb) as HK2. cbn [app] in HK2.
    pose proof (known_all_any _ _ _ _ Ok2 HK2 Hlost) as HK3.
    unfold before in Hb. apply survives_any_app in Hb as (Q1 & Hmid & Hfirst). apply any_cons in Hfirst as (Q1' & Hfirst & Hnil). apply any_nil in Hnil as ->.
    destruct (upload_ready _ _ _ _ _ _ _ Ok1 Hmid Hn Hparts) as (id & N1 & N2).
    apply any_answered in Hfirst. destruct (whole_answer _ _ _ _ _ Hfirst G1 G2 G3) as [-> G]. clear Hfirst.
    apply any_cons in Hlost as (Q3' & Hlost & Hnil). apply any_nil in Hnil as ->.
    apply any_cons in Hlast as (Q5 & Hlast & _). apply any_answered in Hlast.
    assert (content <$> q_com Q3' !! key = shown r0 \/ content <$> q_com Q3' !! key = Some data) as Hcom.
    { rewrite G. inversion Hlost as [|? ? Hl|]; subst. destruct Hl as [Q0 H1 H2|key' tok' receipts' id' size u _ _ _ _ _ _ _ HA]; [|left; apply (alike_content _ _ key HA)].
      rewrite (alike_content _ _ key H2).
      assert (Hm : forall a, needs commit = Some a -> exists k, a = CommitObject k).
      { unfold needs. rewrite Em. destruct (decide _); [discriminate|]. intros a [= <-]. eauto. }
      destruct H1 as [|r' Q' H1|key' size Q' A _ _ _ _|key' tok' offset len body id' size u d A _ _ _ _ _ _|size body Q6 Q' A _ _ _ _ _];
        try (destruct (Hm _ A) as [? E]; discriminate E); [left; reflexivity|].
      inversion H1; subst; try (left; reflexivity);
        try (match goal with A : needs commit = Some _ |- _ => destruct (Hm _ A) as [? E]; discriminate E end).
      match goal with E : rq_method commit = _ |- _ => rewrite Em in E; injection E as <- <- end.
      match goal with N0 : names s tok ?i _ |- _ => unfold names in *; rewrite N1 in N0; injection N0 as <- <- end.
      match goal with Hu0 : q_up Q1 !! id = Some ?u, Hw : has_written _ _ |- context [q_publish _ _ _ ?o _] => destruct (N2 _ o _ Hu0 Hw) as [K1 K2] end.
      right. cbn [q_publish q_com]. rewrite K1, lookup_insert. cbn [fmap option_fmap option_map]. f_equal. exact K2. }
    rewrite <- (com_all_any (before ++ [Lost commit]) Q3' post Q4 key Ok3 HK3 Hpost HL) in Hcom.
    destruct Hcom as [Hcom|Hcom]; [left|right]; exact (answer_as _ _ _ _ _ _ Hlast Hcom).
  Qed.

  Theorem lost_delete pre first r0 del post lastrq r key Q :
    let before := pre ++ [Answered first r0] in
    Forall (event_ok s) (before ++ [Lost del] ++ post ++ [Answered lastrq r]) ->
    survives_any_all s q_empty (before ++ [Lost del] ++ post ++ [Answered lastrq r]) Q ->
    needs del = Some (DeleteObject key) ->
    needs first = Some (ReadObject key) -> permitted s first (ReadObject key) -> rq_method first = HGet None ->
    leaves_alone_ev (before ++ [Lost del]) key post ->
    answers_as s key (shown r0) lastrq r \/ answers_as s key None lastrq r.
  Proof using Hmac.
    intros before Hok H Hn G1 G2 G3 HL.
    rewrite !Forall_app in Hok. destruct Hok as (Ok1 & Ok2 & Ok3 & _).
    apply survives_any_app in H as (Q2 & Hb & H). apply survives_any_app in H as (Q3 & Hlost & H). apply survives_any_app in H as (Q4 & Hpost & Hlast).
    pose proof (known_all_any [] q_empty before Q2 Ok1 (known_empty s) Hb) as HK2. cbn [app] in HK2.
    pose proof (known_all_any _ _ _ _ Ok2 HK2 Hlost) as HK3.
    unfold before in Hb. apply survives_any_app in Hb as (Q1 & Hmid & Hfirst). apply any_cons in Hfirst as (Q1' & Hfirst & Hnil). apply any_nil in Hnil as ->.
    apply any_answered in Hfirst. destruct (whole_answer _ _ _ _ _ Hfirst G1 G2 G3) as [-> G]. clear Hfirst.
    apply any_cons in Hlost as (Q3' & Hlost & Hnil). apply any_nil in Hnil as ->.
    apply any_cons in Hlast as (Q5 & Hlast & _). apply any_answered in Hlast.
    assert (content <$> q_com Q3' !! key = shown r0 \/ content <$> q_com Q3' !! key = None) as Hcom.
    { rewrite G. inversion Hlost as [|? ? Hl|]; subst. destruct Hl as [Q0 H1 H2|key' tok' receipts' id' size u A _ _ _ _ _ _ _]; [|congruence].
      rewrite (alike_content _ _ key H2).
      destruct H1 as [|r' Q' H1|key' size Q' A _ _ _ _|key' tok' offset len body id' size u d A _ _ _ _ _ _|size body Q6 Q' A _ _ _ _ _];
        try congruence; [left; reflexivity|].
      inversion H1; subst; try (left; reflexivity); try congruence.
      match goal with A : needs del = Some (DeleteObject ?k) |- _ => rewrite Hn in A; injection A as <- end.
      right. cbn [q_remove q_com]. rewrite lookup_delete. reflexivity. }
    rewrite <- (com_all_any (before ++ [Lost del]) Q3' post Q4 key Ok3 HK3 Hpost HL) in Hcom.
    destruct Hcom as [Hcom|Hcom]; [left|right]; exact (answer_as _ _ _ _ _ _ Hlast Hcom).
  Qed.
End Events.
