(** "blobc put": proofs. *)
From Coq Require Import ZifyBool ZifyNat ZifyN.
From stdpp Require Import base numbers option gmap sets functions list.
From Verif Require Import Util Bytes PageIOModel PageIOSpec TokenModel TokenProofs HttpModel BatchProofs DirectModel DirectSpec DirectBase DirectSeqSpec PropertiesToken ServerModel ServerSpec ServerProofs ServerHist PutModel.
Open Scope N_scope.
Ltac Zify.zify_post_hook ::= idtac.

(** Chunks that are the parts of something. *)
Lemma parts_concat (L : N) (chunks : list (list N)) (size : N) : 0 < L ->
  (forall i c, chunks !! i = Some c -> N.of_nat i * L < size /\ N.of_nat (length c) = N.min L (size - N.of_nat i * L)) ->
  (forall i, N.of_nat i * L < size -> exists c, chunks !! i = Some c) ->
  N.of_nat (length (concat chunks)) = size /\
  forall i c, chunks !! i = Some c -> take (N.to_nat L) (drop (N.to_nat (N.of_nat i * L)) (concat chunks)) = c.
Proof.
  intros HL. revert size. induction chunks as [|c chunks IH]; intros size H1 H2.
  - split; [|intros i c E; discriminate E]. cbn [concat length]. destruct (N.eq_dec size 0) as [->|Hne]; [reflexivity|].
    destruct (H2 0%nat) as [c E]; [clear -Hne; lia|discriminate E].
  - destruct (H1 0%nat c eq_refl) as [K1 K2]. cbn [concat]. rewrite app_length.
    replace (N.of_nat 0 * L) with 0 in * by (clear; lia). rewrite N.sub_0_r in K2.
    destruct (N.le_gt_cases size L) as [Hle|Hgt].
    + destruct chunks as [|c' chunks].
      2: { destruct (H1 1%nat c' eq_refl) as [K _]. exfalso. clear -K Hle. lia. }
      cbn [concat]. rewrite app_nil_r. split; [cbn [length]; clear -K2 Hle; lia|].
      intros i d E. destruct i as [|i]; [|discriminate E]. injection E as <-.
      replace (N.of_nat 0 * L) with 0 by (clear; lia). rewrite drop_0. apply take_ge. clear -K2; lia.
    + destruct (IH (size - L)) as [I1 I2].
      * intros i d E. destruct (H1 (S i) d E) as [A B]. split; [clear -A Hgt; nia|]. rewrite B. f_equal. clear -A; nia.
      * intros i Hi. destruct (H2 (S i)) as [d E]; [clear -Hi Hgt; nia|]. exists d. exact E.
      * split; [clear -I1 K2 Hgt; lia|]. intros i d E. destruct i as [|i].
        -- injection E as <-. replace (N.of_nat 0 * L) with 0 by (clear; lia). rewrite drop_0.
           rewrite take_app_alt; [reflexivity|]. clear -K2 Hgt; lia.
        -- rewrite drop_app_ge by (clear -K2 Hgt; nia).
           replace (N.to_nat (N.of_nat (S i) * L) - length c)%nat with (N.to_nat (N.of_nat i * L)) by (clear -K2 Hgt; nia).
           apply I2, E.
Qed.

Lemma last_such {A} (P : A -> Prop) `{forall x, Decision (P x)} (l : list A) x : x ∈ l -> P x ->
  exists l1 y l2, l = l1 ++ y :: l2 /\ P y /\ forall z, z ∈ l2 -> ~ P z.
Proof.
  revert x. induction l as [|a l IH]; intros x Hx Px; [apply elem_of_nil in Hx; contradiction|].
  destruct (decide (Exists P l)) as [He|He].
  - apply Exists_exists in He as (y & Hy & Py). destruct (IH y Hy Py) as (l1 & z & l2 & -> & K). exists (a :: l1), z, l2. split; [reflexivity|exact K].
  - assert (x = a) as ->.
    { apply elem_of_cons in Hx as [->|Hx]; [reflexivity|]. destruct He. apply Exists_exists. eauto. }
    exists [], a, l. split; [reflexivity|]. split; [exact Px|]. intros z Hz Pz. apply He, Exists_exists. eauto.
Qed.
Global Instance itoken_dec : EqDecision itoken.
Proof. solve_decision. Defined.
(** The exchange writes to the part at [offset] of the upload. *)
Definition patches (s : server) (tok : list N) (offset : N) (x : request * response) : Prop :=
  match rq_method (fst x) with HPatch tok' o _ _ => o = offset /\ upload_of s tok' = upload_of s tok | _ => False end.
Global Instance patches_dec s tok offset x : Decision (patches s tok offset x).
Proof. unfold patches. destruct (rq_method (fst x)); apply _. Defined.

Section Put.
  Variable s : server.
  Hypothesis Hmac : is_mac (sv_mac s).
  Let L := 2 ^ sv_lpage s.
  Let T := tile_size.
  Lemma L_pos : 0 < L.
  Proof using. apply N.neq_0_lt_0, N.pow_nonzero. discriminate. Qed.

  Lemma client_needs key a e n m k a' : needs (client_rq (sv_mac s) key a e n m) = Some a' ->
    a' <> BatchCreateObjects -> a' = match m with
      | HGet _ => ReadObject k | HHead => InspectObject k | HPost size _ => CreateObject k size
      | HPut _ _ => CommitObject k | HPatch _ _ _ _ => WriteObject k | HDelete => DeleteObject k | HOther => a' end \/ k <> rust_key_seen key.
  Proof using.
    intros H Hne. destruct (decide (k = rust_key_seen key)) as [->|]; [left|right; assumption].
    unfold needs in H. cbn [client_rq rq_path rq_method] in H. fold (rust_key_seen key) in H.
    destruct (decide _); destruct m; try discriminate H; injection H as <-; congruence.
  Qed.

  (** A request for which an upload token was returned. *)
  Lemma created Q rq tok Q' size body : serves s Q rq (RespUpload 202 tok) Q' -> rq_method rq = HPost size body ->
    needs rq = Some (CreateObject (parse_key (rq_path rq)) size).
  Proof using.
    intros H Em. inversion H; subst; try (match goal with E : match ?x with _ => _ end = _ |- _ => destruct x; discriminate E end).
    match goal with A : needs rq = Some _ |- _ => rename A into Hn end. unfold needs in *. rewrite Em in *. destruct (decide _); [discriminate Hn|reflexivity].
  Qed.
  (** A part for which a receipt was returned. *)
  Lemma receipt_valid Q h Q' rq receipt tok offset len body id size :
    serves_all s Q h Q' -> names s tok id size -> id ∈ q_ids Q -> (forall u, q_up Q !! id = Some u -> qu_size u = size) ->
    (rq, RespReceipt 202 receipt) ∈ h -> rq_method rq = HPatch tok offset len body ->
    receipt = write_receipt (sv_mac s) (Itoken id 0) (offset / L) /\ valid_part (sv_lpage s) size offset len /\ N.of_nat (length (stream_bytes body)) = len.
  Proof using Hmac.
    intros H Hn Hid Hsz Hin Em. apply elem_of_list_split in Hin as (h1 & h2 & ->).
    apply serves_all_app in H as (Q1 & H1 & H2). apply serves_all_cons in H2 as (Q2 & H2 & _).
    destruct (up_all s Hmac _ _ _ _ H1 Hid) as [_ K].
    inversion H2; subst; try (match goal with E : match ?x with _ => _ end = _ |- _ => destruct x; discriminate E end).
    match goal with E : rq_method rq = _ |- _ => rewrite Em in E; injection E as <- <- Elen <- end. subst len.
    match goal with N0 : names s tok id0 _ |- _ => unfold names in *; rewrite Hn in N0; injection N0 as <- <- end.
    destruct K as [K|(u0 & u' & K1 & K2 & _ & K3 & _)]; [congruence|].
    match goal with A : q_up Q1 !! id = Some u |- _ => rewrite K2 in A; injection A as -> end.
    rewrite (Hsz _ K1) in K3. rewrite K3 in *. auto.
  Qed.
  Lemma commit_proved Q rq Q' tok receipts id size : serves s Q rq (Resp 201) Q' -> rq_method rq = HPut tok receipts -> names s tok id size ->
    receipts_for s receipts id size.
  Proof using.
    intros H Em Hn. inversion H; subst; try congruence;
      try (match goal with E : match ?x with _ => _ end = _ |- _ => destruct x; discriminate E end);
      try (exfalso; unfold needs in *; rewrite Em in *; repeat case_match; discriminate);
      try (exfalso; match goal with E : _ \/ _ |- _ => destruct E as [[? _]|[? _]]; discriminate end).
    match goal with E : rq_method rq = _ |- _ => rewrite Em in E; injection E as <- <- end.
    match goal with N0 : names s tok id0 _ |- _ => unfold names in *; rewrite Hn in N0; injection N0 as <- <- end. assumption.
  Qed.

  Lemma receipt_nonempty it p : write_receipt (sv_mac s) it p <> [].
  Proof using Hmac.
    unfold write_receipt. destruct (Hmac (pair_msg it p)) as [Hl _]. destruct (sv_mac s (pair_msg it p)) as [|a [|b [|c l]]]; try discriminate Hl. discriminate.
  Qed.

  (** The tiles are the parts of the object. *)
  Lemma tiles_are_parts tok id size (tiles : list tile) :
    names s tok id size -> distinct_receipts s tok size -> no_empty_tile tiles ->
    receipts_for s (join_commas (map tl_receipt tiles)) id size ->
    (forall i t, tiles !! i = Some t ->
       tl_receipt t = write_receipt (sv_mac s) (Itoken id 0) (N.of_nat i * T / L) /\
       valid_part (sv_lpage s) size (N.of_nat i * T) (N.of_nat (length (tile_bytes t)))) ->
    (forall i t, tiles !! i = Some t -> N.of_nat i * T = N.of_nat i * L /\ N.of_nat i * L < size /\
       N.of_nat (length (tile_bytes t)) = N.min L (size - N.of_nat i * L)) /\
    (forall i, N.of_nat i * L < size -> exists t, tiles !! i = Some t).
  Proof using Hmac.
    intros Hn Hd Hne Hr Ht. pose proof L_pos as HL.
    assert (Hup : upload_of s tok = Some (Itoken id 0)) by (unfold upload_of; rewrite Hn; reflexivity).
    assert (Hpart : forall p, p * L < size -> exists t, tiles !! N.to_nat p = Some t /\ p * T = p * L).
    { intros p Hp. pose proof (Hr p Hp) as Hrp.
      destruct tiles as [|t0 tiles0] eqn:Et.
      { exfalso. cbn [map join_commas] in Hrp. change (split_commas []) with ([[]] : list (list N)) in Hrp.
        destruct (N.to_nat p); [|discriminate Hrp]. injection Hrp as Hrp. symmetry in Hrp. exact (receipt_nonempty _ _ Hrp). }
      rewrite <- Et in *. rewrite split_join in Hrp.
      - apply list_lookup_fmap_Some in Hrp as (t & Htl & Hrp). exists t. split; [exact Htl|].
        destruct (Ht _ _ Htl) as [Hrc [Hv1 Hv2]]. rewrite N2Nat.id in *.
        assert (tile_bytes t <> []) as Hnt by (apply Hne; eapply elem_of_list_lookup_2, Htl).
        assert (0 < N.of_nat (length (tile_bytes t))) as Hlt by (destruct (tile_bytes t); [congruence|cbn [length]; clear; lia]).
        assert (p * T < size) as Hts by (clear -Hv2 Hlt; lia).
        pose proof (N.div_mod (p * T) L ltac:(clear -HL; lia)) as E. fold L in Hv1. rewrite Hv1, N.add_0_r in E.
        assert (p * T / L = p) as Eq.
        { apply (Hd (Itoken id 0)); [exact Hup| |exact Hp|congruence]. fold L. rewrite N.mul_comm. rewrite <- E. exact Hts. }
        rewrite Eq in E. clear -E. lia.
      - rewrite Et. discriminate.
      - apply Forall_forall. intros r Hr'. apply elem_of_list_In, in_map_iff in Hr' as (t & <- & Hin).
        apply elem_of_list_In, elem_of_list_lookup in Hin as [i Hi]. rewrite (proj1 (Ht i t Hi)). apply b64_encode_no_comma. }
    split.
    - intros i t Hi. destruct (Ht i t Hi) as [_ [Hv1 Hv2]]. fold L in Hv1, Hv2.
      assert (tile_bytes t <> []) as Hnt by (apply Hne; eapply elem_of_list_lookup_2, Hi).
      assert (0 < N.of_nat (length (tile_bytes t))) as Hlt by (destruct (tile_bytes t); [congruence|cbn [length]; clear; lia]).
      pose proof (N.div_mod (N.of_nat i * T) L ltac:(clear -HL; lia)) as E. rewrite Hv1, N.add_0_r in E.
      set (q := N.of_nat i * T / L) in *. clearbody q.
      destruct (Hpart q) as (_ & _ & Eq); [clear -E Hv2 Hlt; lia|].
      assert (q = N.of_nat i) as -> .
      { assert (0 < T) as HT by reflexivity. clear -E Eq HT. nia. }
      split; [exact Eq|]. rewrite Eq in Hv2. clear -Hv2 Hlt. split; lia.
    - intros i Hi. destruct (Hpart (N.of_nat i) Hi) as (t & Hti & _). rewrite Nat2N.id in Hti. eauto.
  Qed.

  Lemma put_parts key size tiles pre put rest Q :
    successful_put s key size tiles put -> no_empty_tile tiles ->
    (forall rq tok, (rq, RespUpload 202 tok) ∈ put -> distinct_receipts s tok size) ->
    Forall (fun x => request_ok s (fst x)) (pre ++ put ++ rest) -> serves_all s q_empty (pre ++ put ++ rest) Q ->
    (forall i t, tiles !! i = Some t -> N.of_nat i * T = N.of_nat i * L /\ N.of_nat i * L < size /\
       N.of_nat (length (tile_bytes t)) = N.min L (size - N.of_nat i * L)) /\
    (forall i, N.of_nat i * L < size -> exists t, tiles !! i = Some t) /\
    (exists e n tok, (create_rq (sv_mac s) key size e n, RespUpload 202 tok) ∈ put /\ needs (create_rq (sv_mac s) key size e n) = Some (CreateObject (rust_key_seen key) size)).
  Proof using Hmac.
    intros HP Hne Hd Hok H. destruct HP as [tok e1 n1 mid e2 n2 Hin Hex].
    assert (Hd' : distinct_receipts s tok size) by (eapply Hd; left). clear Hd.
    apply Forall_app in Hok as [Ok1 Hok]. apply Forall_app in Hok as [Hok _]. rewrite !Forall_app in Hok. destruct Hok as (Ok2 & Ok3 & Ok4).
    apply serves_all_app in H as (Q0 & Hpre & H). apply serves_all_app in H as (Q4 & H & _).
    apply serves_all_app in H as (Q1 & Hcreate & H). apply serves_all_app in H as (Q2 & Hmid & Hcommit).
    pose proof (known_all s Hmac [] q_empty pre Q0 Ok1 (known_empty s) Hpre) as HK0. cbn [app] in HK0.
    pose proof (known_all s Hmac _ _ _ _ Ok2 HK0 Hcreate) as HK1.
    apply serves_all_cons in Hcreate as (Q1' & Hcreate & _).
    pose proof (created _ _ _ _ _ _ Hcreate eq_refl) as Hn. cbn [create_rq client_rq rq_path] in Hn. fold (rust_key_seen key) in Hn.
    destruct (HK1 tok (rust_key_seen key) size) as (id & N1 & N2 & N3).
    { eexists. split; [|exact Hn]. apply elem_of_app. right. left. }
    apply serves_all_cons in Hcommit as (Q3 & Hcommit & _).
    pose proof (commit_proved _ _ _ _ _ _ _ Hcommit eq_refl N1) as Hr.
    destruct (tiles_are_parts tok id size tiles N1 Hd' Hne Hr) as [P1 P2].
    { intros i t Hi. destruct (receipt_valid Q1 mid Q2 _ _ _ _ _ _ _ _ Hmid N1 N2 (fun u Hu => proj2 (N3 u Hu)) (Hin i t Hi) eq_refl) as (R1 & R2 & _).
      split; [exact R1|exact R2]. }
    split; [exact P1|]. split; [exact P2|]. exists e1, n1, tok. split; [left|exact Hn].
  Qed.

  Theorem put_is_served key size tiles pre put post lastrq r Q :
    successful_put s key size tiles put -> no_empty_tile tiles ->
    (forall rq tok, (rq, RespUpload 202 tok) ∈ put -> distinct_receipts s tok size) ->
    Forall (fun x => request_ok s (fst x)) (pre ++ put ++ post ++ [(lastrq, r)]) ->
    serves_all s q_empty (pre ++ put ++ post ++ [(lastrq, r)]) Q ->
    N.of_nat (length (file_read tiles)) = size /\
    (leaves_alone (pre ++ put) (rust_key_seen key) post -> answers_with s (rust_key_seen key) (file_read tiles) lastrq r).
  Proof using Hmac.
    intros HP Hne Hd Hok H. pose proof L_pos as HL.
    destruct (put_parts key size tiles pre put _ Q HP Hne Hd Hok H) as (P1 & P2 & _).
    destruct (parts_concat L (map tile_bytes tiles) size HL) as [C1 C2].
    { intros i c Hi. apply list_lookup_fmap_Some in Hi as (t & Hi & ->). destruct (P1 i t Hi) as (_ & A & B). auto. }
    { intros i Hi. destruct (P2 i Hi) as [t Ht]. exists (tile_bytes t). apply list_lookup_fmap_Some. eauto. }
    fold (file_read tiles) in C1, C2. split; [exact C1|]. intros HLa.
    pose proof HP as HP'. destruct HP as [tok e1 n1 mid e2 n2 Hin Hex].
    pose (commit := commit_rq (sv_mac s) key tok (map tl_receipt tiles) e2 n2).
    pose (create := create_rq (sv_mac s) key size e1 n1).
    fold commit create in Hok, H, HLa.
    assert (E : pre ++ ([(create, RespUpload 202 tok)] ++ mid ++ [(commit, Resp 201)]) ++ post ++ [(lastrq, r)]
      = (pre ++ [(create, RespUpload 202 tok)] ++ mid ++ [(commit, Resp 201)]) ++ post ++ [(lastrq, r)]) by (rewrite <- !app_assoc; reflexivity).
    rewrite E in Hok, H.
    refine (uploaded_is_served s Hmac pre create tok mid commit (join_commas (map tl_receipt tiles)) post lastrq r (rust_key_seen key) (file_read tiles) Q Hok H _ eq_refl _ HLa).
    - rewrite C1. clear Hok. rewrite <- E in H. apply serves_all_app in H as (Q0 & Hpre & H). apply serves_all_cons in H as (Q1 & Hcreate & _).
      pose proof (created _ _ _ _ _ _ Hcreate eq_refl) as Hn. exact Hn.
    - intros i Hi. rewrite C1 in Hi. fold L in Hi |- *. destruct (P2 (N.to_nat i)) as [t Ht]; [rewrite N2Nat.id; exact Hi|].
      destruct (P1 _ _ Ht) as (Eo & _ & _). rewrite N2Nat.id in Eo.
      destruct (last_such (patches s tok (i * L)) mid (tile_rq (sv_mac s) key tok (N.to_nat i) t, RespReceipt 202 (tl_receipt t))) as (h1 & [rq rr] & h2 & Emid & Py & Hl).
      { apply Hin, Ht. }
      { cbn. rewrite N2Nat.id. split; [exact Eo|reflexivity]. }
      assert (Hx : (rq, rr) = (tile_rq (sv_mac s) key tok (N.to_nat i) t, RespReceipt 202 (tl_receipt t))).
      { destruct (rq_method rq) as [| | | |tok' o len body| |] eqn:Em; unfold patches in Py; cbn [fst] in Py; rewrite Em in Py; try contradiction.
        destruct Py as [-> Eu]. destruct (Hex rq rr tok' (i * L) len body) as (j & t' & Hj & EX); [rewrite Emid; apply elem_of_app; right; left|exact Em|exact Eu|].
        assert (rq = tile_rq (sv_mac s) key tok j t') as Erq by congruence. rewrite Erq in Em. cbn [tile_rq client_rq rq_method] in Em. injection Em as _ Eoff _ _.
        assert (j = N.to_nat i) as -> by (rewrite <- Eo in Eoff; unfold T, tile_size in Eoff; clear -Eoff; lia).
        rewrite Ht in Hj. injection Hj as <-. exact EX. }
      injection Hx as -> ->.
      exists h1, (tile_rq (sv_mac s) key tok (N.to_nat i) t), (tl_receipt t), h2, (N.of_nat (length (tile_bytes t))), (tl_body t).
      split; [exact Emid|]. split; [cbn [tile_rq client_rq rq_method]; rewrite N2Nat.id; fold T; rewrite Eo; reflexivity|]. split.
      + fold (tile_bytes t). specialize (C2 (N.to_nat i) (tile_bytes t)). rewrite N2Nat.id in C2. symmetry. apply C2, list_lookup_fmap_Some. eauto.
      + intros rq' r' tok' len' body' Hi' Em' Eu. apply (Hl _ Hi'). unfold patches. cbn [fst]. rewrite Em'. split; [reflexivity|exact Eu].
  Qed.

  Theorem put_limit key size tiles pre put rest Q :
    successful_put s key size tiles put -> no_empty_tile tiles -> full_reads tiles ->
    (forall rq tok, (rq, RespUpload 202 tok) ∈ put -> distinct_receipts s tok size) ->
    Forall (fun x => request_ok s (fst x)) (pre ++ put ++ rest) -> serves_all s q_empty (pre ++ put ++ rest) Q ->
    L = T \/ size <= N.min T L.
  Proof using Hmac.
    intros HP Hne Hfr Hd Hok H.
    destruct (put_parts key size tiles pre put rest Q HP Hne Hd Hok H) as (P1 & P2 & _).
    destruct (decide (L = T)) as [|Hnt]; [left; assumption|right].
    destruct (N.eq_dec size 0) as [->|Hs]; [apply N.le_0_l|].
    destruct (P2 0%nat) as [t Ht]; [clear -Hs; lia|]. destruct (P1 _ _ Ht) as (_ & _ & Hlen). destruct (Hfr _ _ Ht) as [HT _]. fold T in HT.
    replace (size - N.of_nat 0 * L) with size in Hlen by (clear; lia).
    destruct (N.le_gt_cases size L) as [Hle|Hgt]; [clear -Hlen HT Hle; lia|]. exfalso.
    destruct (P2 1%nat) as [t' Ht']; [clear -Hgt; lia|]. destruct (P1 _ _ Ht') as (E & _). clear -E Hnt. lia.
  Qed.

  (** ** Success *)
  Lemma open_step Q rq r Q' id u : serves s Q rq r Q' -> id ∈ q_ids Q -> q_up Q !! id = Some u ->
    (forall tok receipts, rq_method rq = HPut tok receipts -> r = Resp 201 -> upload_of s tok <> Some (Itoken id 0)) ->
    exists u', q_up Q' !! id = Some u' /\ qu_size u' = qu_size u.
  Proof using Hmac.
    intros H Hid Hu Hc. destruct (up_step s Hmac _ _ _ _ id H Hid) as [_ [K|(u0 & u' & K1 & K2 & _ & K3 & _)]].
    2: { exists u'. split; [exact K2|]. congruence. }
    exfalso. inversion H; subst; try congruence;
      try (cbn [q_part q_up] in K; apply lookup_insert_None in K as [K _]; congruence);
      try (cbn [q_remove q_up] in K; congruence).
    - (* create *) cbn [q_new q_up] in K. apply lookup_insert_None in K as [K _]. congruence.
    - (* commit *) cbn [q_publish q_up] in K. destruct (decide (id = id0)) as [->|Hne].
      + eapply Hc; [eassumption|reflexivity|]. unfold upload_of. match goal with A : names _ _ _ _ |- _ => rewrite A end. reflexivity.
      + rewrite lookup_delete_ne in K by congruence. congruence.
    - (* batch *) match goal with B : batch_stores _ _ _ _ |- _ => destruct (batch_keeps _ _ _ _ B) as [_ K2] end. rewrite K2 in K by exact Hid. congruence.
  Qed.
  Lemma open_all Q h Q' id u : serves_all s Q h Q' -> id ∈ q_ids Q -> q_up Q !! id = Some u ->
    (forall rq tok receipts, (rq, Resp 201) ∈ h -> rq_method rq = HPut tok receipts -> upload_of s tok <> Some (Itoken id 0)) ->
    id ∈ q_ids Q' /\ exists u', q_up Q' !! id = Some u' /\ qu_size u' = qu_size u.
  Proof using Hmac.
    revert Q u. induction h as [|[rq r] h IH]; intros Q u H Hid Hu Hc.
    - inversion H; subst. eauto.
    - apply serves_all_cons in H as (Q1 & H1 & H2).
      destruct (open_step _ _ _ _ _ _ H1 Hid Hu) as (u1 & Hu1 & E).
      { intros tok receipts Em ->. eapply Hc; [left|exact Em]. }
      destruct (up_step s Hmac _ _ _ _ id H1 Hid) as [Hid1 _].
      destruct (IH Q1 u1 H2 Hid1 Hu1) as (I1 & u2 & I2 & I3).
      { intros rq' tok receipts Hin. eapply Hc. right. exact Hin. }
      split; [exact I1|]. exists u2. split; [exact I2|congruence].
  Qed.
  Ltac foreign Em N1 :=
    unfold names in N1;
    repeat match goal with C : _ \/ _ |- _ => destruct C as [(? & ? & ? & C)|(? & C)]; rewrite Em in C; [try discriminate C|try discriminate C]; injection C; intros; subst end;
    match goal with A : parse_upload_token _ _ = Some (?it, _), B : it_partition ?it <> 0 |- _ => rewrite N1 in A; injection A as <- <-; apply B; reflexivity end.
  Lemma write_succeeds Q rq r Q' key tok offset len body id size u : serves s Q rq r Q' ->
    needs rq = Some (WriteObject key) -> permitted s rq (WriteObject key) -> rq_method rq = HPatch tok offset len body ->
    names s tok id size -> q_up Q !! id = Some u -> valid_part (sv_lpage s) (qu_size u) offset len ->
    no_fail body -> no_empty body -> N.of_nat (length (stream_bytes body)) = len ->
    r = RespReceipt 202 (write_receipt (sv_mac s) (Itoken id 0) (offset / L)).
  Proof using.
    intros H Hn Hp Em N1 Hu [Hv1 Hv2] Hf He Hlen.
    inversion H; subst; try congruence;
      repeat match goal with E : rq_method rq = _ |- _ => first [rewrite Em in E; discriminate E|rewrite Em in E; injection E as <- <- ? <-] end;
      try match goal with N0 : names s tok ?x _ |- _ => lazymatch x with id => fail | _ => unfold names in *; rewrite N1 in N0; injection N0 as <- <- end end;
      try match goal with A : q_up _ !! id = Some ?v |- _ => lazymatch v with u => fail | _ => assert (u = v) by congruence; subst v end end; subst.
    - (* write *) reflexivity.
    - (* bad *) exfalso. match goal with A : part_error _ _ _ _ ?e |- _ => destruct e; cbn [part_error] in A; try contradiction; try (apply A; assumption) end.
      match goal with A : _ < _ + _ |- _ => clear -Hv2 A; lia end.
    - exfalso. match goal with A : _ \/ _ |- _ => destruct A as [[_ A]|[_ A]] end; [contradiction|congruence].
    - exfalso. match goal with A : _ \/ _ |- _ => destruct A as [A|(id' & sz' & A & B)] end; unfold names in *; congruence.
    - exfalso. foreign Em N1.
  Qed.
  Lemma commit_succeeds Q rq r Q' key tok receipts id size u : serves s Q rq r Q' ->
    needs rq = Some (CommitObject key) -> permitted s rq (CommitObject key) -> rq_method rq = HPut tok receipts ->
    names s tok id size -> q_up Q !! id = Some u -> receipts_for s receipts id size -> r = Resp 201.
  Proof using.
    intros H Hn Hp Em N1 Hu Hr.
    inversion H; subst; try congruence;
      repeat match goal with E : rq_method rq = _ |- _ => first [rewrite Em in E; discriminate E|rewrite Em in E; injection E as <- <-] end;
      try match goal with N0 : names s tok ?x _ |- _ => lazymatch x with id => fail | _ => unfold names in *; rewrite N1 in N0; injection N0 as <- <- end end.
    - exfalso. match goal with A : _ \/ _ |- _ => destruct A as [A|(id' & sz' & A & _ & B)] end; unfold names in *; congruence.
    - exfalso. foreign Em N1.
    - exfalso. foreign Em N1.
  Qed.

  Lemma full_offsets (ls : list (list N)) : (forall i c, ls !! i = Some c -> N.of_nat (length c) <= T /\ (S i < length ls -> N.of_nat (length c) = T)%nat) ->
    N.of_nat (length (concat ls)) <= N.of_nat (length ls) * T /\
    forall i c, ls !! i = Some c -> N.of_nat i * T + N.of_nat (length c) = N.min (N.of_nat i * T + T) (N.of_nat (length (concat ls))).
  Proof using.
    induction ls as [|c ls IH]; intros H.
    - split; [reflexivity|]. intros i c E. discriminate E.
    - destruct IH as [I1 I2].
      { intros i d E. destruct (H (S i) d E) as [A B]. split; [exact A|]. intros Hl. apply B. cbn [length]. clear -Hl. lia. }
      destruct (H 0%nat c eq_refl) as [A B]. cbn [concat length] in *. rewrite app_length. split; [clear -A I1; nia|].
      intros i d E. destruct i as [|i].
      + injection E as <-. destruct ls as [|d ls]; [cbn [concat length]; clear -A; lia|].
        specialize (B ltac:(cbn [length]; clear; lia)). clear -B; lia.
      + specialize (I2 i d E). specialize (B ltac:(apply lookup_lt_Some in E; cbn [length] in E; clear -E; lia)). clear -I2 B. nia.
  Qed.

  Theorem put_succeeds key tiles pre tok e1 n1 mid e2 n2 rc Q :
    let size := N.of_nat (length (file_read tiles)) in
    L = T \/ size <= N.min T L -> rust_key_seen key = key -> key <> [] ->
    full_reads tiles -> no_empty_tile tiles -> (forall t, t ∈ tiles -> no_fail (tl_body t) /\ no_empty (tl_body t) /\ tl_now t < tl_expires t < 2 ^ 64) ->
    n2 < e2 < 2 ^ 64 ->
    Forall (fun x => request_ok s (fst x)) (pre ++ [(create_rq (sv_mac s) key size e1 n1, RespUpload 202 tok)] ++ mid) ->
    serves_all s q_empty (pre ++ [(create_rq (sv_mac s) key size e1 n1, RespUpload 202 tok)] ++ mid ++ [(commit_rq (sv_mac s) key tok (map tl_receipt tiles) e2 n2, rc)]) Q ->
    (forall rq tok' receipts, (rq, Resp 201) ∈ mid -> rq_method rq = HPut tok' receipts -> upload_of s tok' <> upload_of s tok) ->
    (forall i t r, tiles !! i = Some t -> (tile_rq (sv_mac s) key tok i t, r) ∈ mid -> exists receipt, r = RespReceipt 202 receipt) /\
    ((forall i t, tiles !! i = Some t -> (tile_rq (sv_mac s) key tok i t, RespReceipt 202 (tl_receipt t)) ∈ mid) -> rc = Resp 201).
  Proof using Hmac.
    intros size HLT Hkey Hk0 Hfr Hne Hts Hexp Hok H Hcom. pose proof L_pos as HL.
    apply Forall_app in Hok as [Ok1 Hok]. rewrite !Forall_app in Hok. destruct Hok as (Ok2 & Ok3).
    apply serves_all_app in H as (Q0 & Hpre & H). apply serves_all_app in H as (Q1 & Hcreate & H). apply serves_all_app in H as (Q2 & Hmid & Hcommit).
    pose proof (known_all s Hmac [] q_empty pre Q0 Ok1 (known_empty s) Hpre) as HK0. cbn [app] in HK0.
    pose proof (known_all s Hmac _ _ _ _ Ok2 HK0 Hcreate) as HK1.
    apply serves_all_cons in Hcreate as (Q1' & Hcreate & Hn). assert (Q1' = Q1) as -> by (clear -Hn; inversion Hn; reflexivity). clear Hn.
    pose proof (created _ _ _ _ _ _ Hcreate eq_refl) as Hn. cbn [create_rq client_rq rq_path] in Hn. fold (rust_key_seen key) in Hn. rewrite Hkey in Hn.
    destruct (HK1 tok key size) as (id & N1 & N2 & N3).
    { eexists. split; [|exact Hn]. apply elem_of_app. right. left. }
    assert (Hup : upload_of s tok = Some (Itoken id 0)) by (unfold upload_of; rewrite N1; reflexivity).
    assert (Hu1 : exists u, q_up Q1 !! id = Some u).
    { clear -Hcreate N1 Hmac Ok2. inversion Hcreate; subst; try (match goal with E : match ?x with _ => _ end = _ |- _ => destruct x; discriminate E end).
      match goal with A : names s (upload_token _ (Itoken ?i 0) ?z) id size, E : rq_method _ = HPost ?z _ |- _ => unfold names in A; injection E as -> _ end.
      apply Forall_inv in Ok2. cbn [fst] in Ok2.
      rewrite (issued s Hmac) in N1; [|assumption|destruct Ok2; assumption]. injection N1 as ->. cbn [q_new q_up]. rewrite lookup_insert. eauto. }
    destruct Hu1 as [u1 Hu1]. destruct (N3 _ Hu1) as [_ Hsz1].
    (* paths *)
    assert (Hpath : url_path (build_path rust_must key) <> [47]).
    { intros E. apply Hk0. rewrite <- Hkey. unfold rust_key_seen. rewrite E. reflexivity. }
    assert (Hpk : parse_key (url_path (build_path rust_must key)) = key) by exact Hkey.
    (* the tiles *)
    destruct (full_offsets (map tile_bytes tiles)) as [F1 F2].
    { intros i c Hi. apply list_lookup_fmap_Some in Hi as (t & Hi & ->). rewrite map_length. exact (Hfr i t Hi). }
    fold (file_read tiles) in F1, F2. fold size in F1, F2. rewrite map_length in F1.
    assert (Hval : forall i t, tiles !! i = Some t -> valid_part (sv_lpage s) size (N.of_nat i * T) (N.of_nat (length (tile_bytes t))) /\ N.of_nat i * T / L = N.of_nat i).
    { intros i t Hi. assert (Hi2 := F2 i (tile_bytes t) ltac:(apply list_lookup_fmap_Some; eauto)).
      assert (Hlt : 0 < N.of_nat (length (tile_bytes t))).
      { pose proof (Hne t ltac:(eapply elem_of_list_lookup_2, Hi)) as Hnt. destruct (tile_bytes t); [congruence|cbn [length]; clear; lia]. }
      unfold valid_part. fold L. destruct HLT as [E|Hs].
      - rewrite E. split; [split; [apply N.mod_mul; clear; discriminate|exact Hi2]|]. apply N.div_mul. clear; discriminate.
      - assert (i = 0)%nat as ->. { assert (0 < T) as HT by reflexivity. clear -Hi2 Hlt Hs HT. nia. }
        change (N.of_nat 0) with 0 in *. rewrite N.mul_0_l in *. rewrite N.mod_0_l, N.div_0_l by (clear -HL; lia).
        split; [split; [reflexivity|]|reflexivity]. clear -Hi2 Hs Hlt. lia. }
    assert (Htile : forall i t r, tiles !! i = Some t -> (tile_rq (sv_mac s) key tok i t, r) ∈ mid -> r = RespReceipt 202 (write_receipt (sv_mac s) (Itoken id 0) (N.of_nat i))).
    { intros i t r Hi Hin. apply elem_of_list_split in Hin as (h1 & h2 & Emid).
      rewrite Emid in Hmid. apply serves_all_app in Hmid as (Qa & Ha & Hb). apply serves_all_cons in Hb as (Qb & Hb & _).
      destruct (open_all _ _ _ _ _ Ha N2 Hu1) as (_ & u & Hu & Hsz).
      { intros rq tok' receipts Hin Em. rewrite <- Hup. eapply Hcom; [|exact Em]. rewrite Emid. apply elem_of_app. left. exact Hin. }
      destruct (Hts t ltac:(eapply elem_of_list_lookup_2, Hi)) as (T1 & T2 & T3 & T4). destruct (Hval i t Hi) as [V1 V2].
      rewrite <- V2. eapply (write_succeeds _ _ _ _ key); [exact Hb| | |reflexivity|exact N1|exact Hu| |exact T1|exact T2|reflexivity].
      - unfold needs. cbn [tile_rq client_rq rq_path rq_method]. destruct (decide _); [contradiction|]. rewrite Hpk. reflexivity.
      - right. exists (tl_expires t). split; [exact T4|]. split; [exact T3|reflexivity].
      - rewrite Hsz, Hsz1. exact V1. }
    split.
    { intros i t r Hi Hin. eexists. eapply Htile; eassumption. }
    intros Hall. apply serves_all_cons in Hcommit as (Q3 & Hcommit & _).
    destruct (open_all _ _ _ _ _ Hmid N2 Hu1) as (_ & u & Hu & _).
    { intros rq tok' receipts Hin Em. rewrite <- Hup. eapply Hcom; eassumption. }
    eapply (commit_succeeds _ _ _ _ key); [exact Hcommit| | |reflexivity|exact N1|exact Hu|].
    - unfold needs. cbn [commit_rq client_rq rq_path rq_method]. destruct (decide _); [contradiction|]. rewrite Hpk. reflexivity.
    - right. exists e2. split; [apply Hexp|]. split; [apply Hexp|reflexivity].
    - intros p Hp. fold L in Hp.
      assert (Htp : exists t, tiles !! N.to_nat p = Some t).
      { apply lookup_lt_is_Some_2. destruct HLT as [E|Hs].
        - rewrite E in Hp. assert (0 < T) as HT by reflexivity. clear -Hp F1 HT. nia.
        - assert (p = 0) as -> by (clear -Hs Hp; nia). destruct tiles; [exfalso; clear -Hp; cbn in Hp; subst size; cbn in Hp; lia|cbn [length]; clear; lia]. }
      destruct Htp as [t Ht]. rewrite split_join.
      + apply list_lookup_fmap_Some. exists t. split; [exact Ht|].
        pose proof (Htile _ _ _ Ht (Hall _ _ Ht)) as E. rewrite N2Nat.id in E. injection E as E. symmetry. exact E.
      + destruct tiles; [discriminate Ht|discriminate].
      + apply Forall_forall. intros r Hr'. apply elem_of_list_In, in_map_iff in Hr' as (t' & <- & Hin).
        apply elem_of_list_In, elem_of_list_lookup in Hin as [i Hi]. pose proof (Htile _ _ _ Hi (Hall _ _ Hi)) as E. injection E as ->. apply b64_encode_no_comma.
  Qed.
End Put.
