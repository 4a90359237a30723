(** The server refines the specification of ServerSpec.v. *)
From Coq Require Import ZifyBool ZifyNat ZifyN.
From stdpp Require Import base numbers option gmap sets functions list.
From Verif Require Import Util Bytes PageIOModel PageIOSpec TokenModel TokenProofs HttpModel BatchProofs DirectModel DirectSpec DirectBase DirectSeqSpec PropertiesToken PropertiesDirect ServerModel ServerSpec.
Open Scope N_scope.
Ltac Zify.zify_post_hook ::= idtac.

(** ** Calls one after another *)
Inductive chain (lpage : N) : qstate -> list (dop * list vis) -> qstate -> Prop :=
| ch_nil Q : chain lpage Q [] Q
| ch_cons Q op vs Q1 cs Q2 : answers lpage Q op vs Q1 -> chain lpage Q1 cs Q2 -> chain lpage Q ((op, vs) :: cs) Q2.
Lemma chain_app lpage Q cs1 cs2 Q' : chain lpage Q (cs1 ++ cs2) Q' <-> exists Q1, chain lpage Q cs1 Q1 /\ chain lpage Q1 cs2 Q'.
Proof.
  revert Q. induction cs1 as [|[op vs] cs1 IH]; intros Q; cbn [app].
  - split; [intros H; exists Q; split; [constructor|exact H]|]. intros (Q1 & H1 & H2). inversion H1; subst. exact H2.
  - split.
    + intros H. inversion H; subst. apply IH in H6 as (Q2 & H1 & H2). exists Q2. split; [econstructor; eassumption|exact H2].
    + intros (Q1 & H1 & H2). inversion H1; subst. econstructor; [eassumption|]. apply IH. eauto.
Qed.
Lemma call_labels_app n a b : call_labels n (a ++ b) = call_labels n a ++ call_labels (n + length a) b.
Proof.
  revert n. induction a as [|[op vs] a IH]; intros n; cbn [app call_labels length].
  - rewrite Nat.add_0_r. reflexivity.
  - rewrite IH. rewrite <- app_assoc. cbn [app]. rewrite Nat.add_succ_r. reflexivity.
Qed.
Lemma seq_run_chain lpage n L Q : seq_run lpage n L Q -> exists cs, L = call_labels 0 cs /\ length cs = n /\ chain lpage q_empty cs Q.
Proof.
  induction 1 as [|n ls Q op vs Q' _ (cs & -> & Hl & Hc) Ha].
  - exists []. split; [reflexivity|]. split; [reflexivity|constructor].
  - exists (cs ++ [(op, vs)]). rewrite call_labels_app. cbn [call_labels app]. rewrite app_nil_r, Hl. cbn [Nat.add].
    split; [reflexivity|]. split; [rewrite app_length, Hl; cbn [length]; apply Nat.add_1_r|].
    apply chain_app. exists Q. split; [exact Hc|]. econstructor; [exact Ha|constructor].
Qed.
Lemma vis_split n vs vs' L L' : (forall v, L = [] \/ head L <> Some (LVis n v)) -> (forall v, L' = [] \/ head L' <> Some (LVis n v)) ->
  map (LVis n) vs ++ L = map (LVis n) vs' ++ L' -> vs = vs' /\ L = L'.
Proof.
  intros H1 H2. revert vs'. induction vs as [|v vs IH]; intros [|v' vs'] E; cbn [map app] in E.
  - auto.
  - exfalso. subst. specialize (H1 v') as [H1|H1]; [discriminate|]. apply H1. reflexivity.
  - exfalso. subst. specialize (H2 v) as [H2|H2]; [discriminate|]. apply H2. reflexivity.
  - injection E as -> E. apply IH in E as [-> ->]. auto.
Qed.
Lemma call_labels_head n cs v m : call_labels n cs = [] \/ head (call_labels n cs) <> Some (LVis m v).
Proof. destruct cs as [|[op vs] cs]; [auto|]. right. cbn. congruence. Qed.
Lemma call_labels_inj n a b : call_labels n a = call_labels n b -> a = b.
Proof.
  revert n b. induction a as [|[op vs] a IH]; intros n [|[op' vs'] b] E; cbn [call_labels] in E; try discriminate E; [reflexivity|].
  injection E as -> E. apply vis_split in E as [-> E]; [|intros; apply call_labels_head..]. apply IH in E as ->. reflexivity.
Qed.
Lemma call_labels_call n cs i op : LCall i op ∈ call_labels n cs -> (n <= i)%nat /\ exists vs, cs !! (i - n)%nat = Some (op, vs).
Proof.
  revert n. induction cs as [|[op' vs] cs IH]; intros n H; cbn [call_labels] in H; [apply elem_of_nil in H; contradiction|].
  apply elem_of_cons in H as [H|H].
  - injection H as -> ->. split; [reflexivity|]. rewrite Nat.sub_diag. exists vs. reflexivity.
  - apply elem_of_app in H as [H|H].
    + exfalso. apply elem_of_list_In, in_map_iff in H as (? & ? & _). congruence.
    + apply IH in H as [H1 H2]. split; [clear -H1; lia|]. replace (i - n)%nat with (S (i - S n)) by (clear -H1; lia). exact H2.
Qed.
Lemma call_labels_fin n cs i c : cs !! i = Some c -> over c -> finished (call_labels n cs) (n + i).
Proof.
  intros Hi (v & Hv & Hf). exists v. split; [|exact Hf]. revert n i Hi. induction cs as [|[op vs] cs IH]; intros n i Hi; [discriminate|].
  cbn [call_labels]. apply elem_of_cons. right. apply elem_of_app. destruct i as [|i].
  - injection Hi as <-. left. rewrite Nat.add_0_r. apply elem_of_list_In, in_map, elem_of_list_In, Hv.
  - right. rewrite Nat.add_succ_r. apply (IH (S n)). exact Hi.
Qed.
Lemma call_labels_all n cs : Forall over cs -> all_finished (call_labels n cs).
Proof.
  intros H j op Hin. apply call_labels_call in Hin as (Hj & vs & Hl).
  replace j with (n + (j - n))%nat by (clear -Hj; lia). eapply call_labels_fin; [exact Hl|].
  rewrite Forall_forall in H. apply H. eapply elem_of_list_lookup_2. exact Hl.
Qed.
Lemma call_labels_split n cs ls1 i op ls2 : call_labels n cs = ls1 ++ LCall i op :: ls2 ->
  exists cs1 cs2, cs = cs1 ++ cs2 /\ ls1 = call_labels n cs1.
Proof.
  revert n ls1. induction cs as [|[op' vs] cs IH]; intros n ls1 E; cbn [call_labels] in E; [destruct ls1; discriminate|].
  destruct ls1 as [|l ls1].
  - exists [], ((op', vs) :: cs). auto.
  - cbn [app] in E. injection E as <- E.
    assert (exists r, ls1 = map (LVis n) vs ++ r /\ call_labels (S n) cs = r ++ LCall i op :: ls2) as (r & -> & E2).
    { clear IH. revert ls1 E. induction vs as [|v vs IHv]; intros ls1 E; [exists ls1; auto|].
      cbn [map app] in E. destruct ls1 as [|l ls1]; [discriminate|]. injection E as <- E.
      apply IHv in E as (r & -> & E). exists r. auto. }
    apply IH in E2 as (cs1 & cs2 & -> & ->). exists ((op', vs) :: cs1), cs2. auto.
Qed.
Lemma call_labels_oaa n cs : Forall over cs -> one_after_another (call_labels n cs).
Proof.
  intros H ls1 i op ls2 E j op' Hin. apply call_labels_split in E as (cs1 & cs2 & -> & ->).
  apply Forall_app in H as [H _]. eapply call_labels_all; eassumption.
Qed.

(** ** Tokens have 128 bits *)
Definition pc_id_ok (p : pc) : Prop :=
  match p with PCreate2 _ _ _ id | PCreate3 _ _ _ id | PCreate4 _ _ _ id _ => id < 2 ^ 128 | _ => True end.
Lemma pstep_id c o h p h' p' v : pc_id_ok p -> or_id o < 2 ^ 128 -> pstep c o h p = Some (h', p', v) ->
  pc_id_ok p' /\ forall tid, v = Some (VRet (RCreated tid)) -> tid < 2 ^ 128.
Proof.
  intros Hp Ho H. destruct p; try destruct op; cbn [pstep] in H; unfold poll, go, ret, mbind, option_bind in H;
  repeat (match type of H with
          | Some _ = Some _ => injection H as <- <- <-
          | None = Some _ => discriminate H
          | context [match ?x with _ => _ end] => destruct x eqn:?
          end); split; try exact I; try exact Ho; try exact Hp; try (intros tid E; discriminate E).
  all: try (intros tid E; injection E as <-; exact Hp).
  all: try (intros tid E; match goal with k : cont |- _ => destruct k end; discriminate E).
  all: try (intros tid E; destruct (negb _); discriminate E).
Qed.
Lemma created_bound c y0 ls y : dsteps c y0 ls y -> y_procs y0 = [] ->
  forall i tid, LVis i (VRet (RCreated tid)) ∈ ls -> tid < 2 ^ 128.
Proof.
  intros Hs H0. assert (Forall pc_id_ok (y_procs y) /\ forall i tid, LVis i (VRet (RCreated tid)) ∈ ls -> tid < 2 ^ 128) as [_ H]; [|exact H].
  induction Hs as [y|y ls y1 l y2 Hs IH Hstep].
  - rewrite H0. split; [constructor|]. intros i tid H. apply elem_of_nil in H. contradiction.
  - specialize (IH H0) as [I1 I2]. destruct Hstep as [y1 op|y1 i p o h' p' v Hi _ Ho _ Hp|y1 i p addr len v Hi _|y1 t' _]; cbn [y_procs].
    + split; [apply Forall_app_2; [exact I1|constructor; [exact I|constructor]]|].
      intros i tid H. apply elem_of_app in H as [H|H]; [eapply I2, H|]. apply elem_of_list_singleton in H. discriminate H.
    + rewrite Forall_forall in I1. destruct (pstep_id _ _ _ _ _ _ _ (I1 _ (elem_of_list_lookup_2 _ _ _ Hi)) Ho Hp) as [K1 K2].
      split.
      * apply Forall_insert; [now apply Forall_forall|exact K1].
      * intros j tid H. apply elem_of_app in H as [H|H]; [eapply I2, H|]. apply elem_of_list_singleton in H.
        destruct v as [v|]; [|discriminate H]. injection H as -> <-. apply K2. reflexivity.
    + split; [exact I1|]. intros j tid H. apply elem_of_app in H as [H|H]; [eapply I2, H|]. apply elem_of_list_singleton in H. discriminate H.
    + split; [exact I1|]. intros j tid H. apply elem_of_app in H as [H|H]; [eapply I2, H|]. apply elem_of_list_singleton in H. discriminate H.
Qed.

(** ** Handlers *)
Lemma runs_ret_inv r cs r' : runs (Ret r) cs r' -> cs = [] /\ r' = r.
Proof. intros H. inversion H; subst. auto. Qed.
Lemma runs_call_inv op k cs r : runs (Call op k) cs r -> exists vs cs', cs = (op, vs) :: cs' /\ runs (k vs) cs' r.
Proof. intros H. inversion H; subst. eauto. Qed.
Lemma chain_nil_inv lpage Q Q' : chain lpage Q [] Q' -> Q' = Q.
Proof. intros H. inversion H; subst. auto. Qed.
Lemma chain_cons_inv lpage Q op vs cs Q' : chain lpage Q ((op, vs) :: cs) Q' -> exists Q1, answers lpage Q op vs Q1 /\ chain lpage Q1 cs Q'.
Proof. intros H. inversion H; subst. eauto. Qed.

Lemma keeps_refl Q : keeps_uploads Q Q.
Proof. split; [reflexivity|auto]. Qed.
Lemma keeps_trans Q1 Q2 Q3 : keeps_uploads Q1 Q2 -> keeps_uploads Q2 Q3 -> keeps_uploads Q1 Q3.
Proof.
  intros [A1 A2] [B1 B2]. split; [etransitivity; eassumption|]. intros id Hid. rewrite B2; [apply A2, Hid|]. apply A1, Hid.
Qed.

Ltac same_up :=
  match goal with Hu : q_up ?Q !! ?id = Some ?u, H : q_up ?Q !! ?id = Some ?u' |- _ =>
    is_var u'; assert_fails (constr_eq u u'); rewrite Hu in H; injection H as <- end.
Section Batch.
  Variable s : server.
  Let L := 2 ^ sv_lpage s.
  Lemma L_pos : 0 < L.
  Proof using. unfold L. apply N.neq_0_lt_0, N.pow_nonzero. discriminate. Qed.

  (** The parts of an upload below [offset] are [pre]. *)
  Definition filled (u : qupload) (offset : N) (pre : list N) : Prop :=
    N.of_nat (length pre) = N.min offset (qu_size u) /\
    (forall o, offset <= o -> qu_parts u o = None) /\
    forall bytes, has_written u bytes -> forall i b, pre !! i = Some b -> bytes (N.of_nat i) = b.
  Lemma filled_step u offset pre chunk : filled u offset pre -> offset < qu_size u ->
    N.of_nat (length chunk) = N.min L (qu_size u - offset) ->
    filled {| qu_key := qu_key u; qu_size := qu_size u; qu_created := qu_created u; qu_parts := <[offset := Some chunk]> (qu_parts u) |}
      (offset + L) (pre ++ chunk).
  Proof using.
    intros (H1 & H2 & H3) Hlt Hc. pose proof L_pos as HL. unfold filled. cbn [qu_size qu_parts]. split; [|split].
    - rewrite app_length. revert H1 Hc HL Hlt. clear. generalize (qu_size u). intros. lia.
    - intros o Ho. rewrite fn_lookup_insert_ne by (clear -Ho HL; lia). apply H2. clear -Ho. lia.
    - intros bytes Hw i b Hi. destruct (decide (i < length pre)%nat) as [G|G].
      + rewrite lookup_app_l in Hi by exact G. apply (H3 bytes) with (i := i) (b := b); [|exact Hi].
        intros o l j d Ho Hj. apply (Hw o l j d); [|exact Hj]. cbn [qu_parts].
        rewrite fn_lookup_insert_ne; [exact Ho|]. intros <-. rewrite H2 in Ho by reflexivity. discriminate Ho.
      + rewrite lookup_app_r in Hi by (clear -G; lia).
        pose proof (Hw offset chunk (i - length pre)%nat b ltac:(cbn [qu_parts]; apply fn_lookup_insert) Hi) as E.
        rewrite <- E. f_equal. revert G H1 Hlt. clear. generalize (qu_size u). intros. lia.
  Qed.

  Lemma batch_parts_p_S fuel id size offset body stop k :
    batch_parts_p s fuel id size offset body stop k =
    if size <=? offset then k body else
    match fuel with
    | O => Ret stop
    | S fuel =>
        match read_exact (N.to_nat (N.min (2 ^ sv_lpage s) (size - offset))) body with
        | None => Ret stop
        | Some (chunk, body) =>
            Call (OWrite id offset (N.of_nat (length chunk)) [Data chunk]) (fun vs => match vs with
              | [VRet RWritten] => batch_parts_p s fuel id size (offset + 2 ^ sv_lpage s) body stop k
              | [VRet (RFailed _)] => Ret stop
              | _ => Ret Aborted
              end)
        end
    end.
  Proof using. destruct fuel; reflexivity. Qed.

  Lemma parts_run fuel : forall id offset body stop k cs r Q Q' u pre,
    runs (batch_parts_p s fuel id (qu_size u) offset body stop k) cs r -> chain (sv_lpage s) Q cs Q' ->
    q_up Q !! id = Some u -> offset mod L = 0 -> filled u offset pre -> qu_size u - offset <= N.of_nat fuel ->
    (exists data rest cs1 cs2 Q1 u1,
        concat body = data ++ concat rest /\ cs = cs1 ++ cs2 /\ chain (sv_lpage s) Q1 cs2 Q' /\ runs (k rest) cs2 r /\
        q_com Q1 = q_com Q /\ q_ids Q1 = q_ids Q /\ (forall i, i <> id -> q_up Q1 !! i = q_up Q !! i) /\
        q_up Q1 !! id = Some u1 /\ qu_key u1 = qu_key u /\ qu_size u1 = qu_size u /\ N.of_nat (length (pre ++ data)) = qu_size u /\
        (forall bytes, has_written u1 bytes -> forall i b, (pre ++ data) !! i = Some b -> bytes (N.of_nat i) = b)) \/
    (N.of_nat (length (concat body)) < qu_size u - offset /\ r = stop /\
        q_com Q' = q_com Q /\ q_ids Q' = q_ids Q /\ (forall i, i <> id -> q_up Q' !! i = q_up Q !! i)).
  Proof using.
    pose proof L_pos as HL.
    induction fuel as [|fuel IH]; intros id offset body stop k cs r Q Q' u pre Hr Hc Hu Hm Hf Hfu; rewrite batch_parts_p_S in Hr.
    - destruct (N.leb_spec (qu_size u) offset) as [G|G]; [|exfalso; revert G Hfu; clear; generalize (qu_size u); intros; lia].
      left. exists [], body, [], cs, Q, u. rewrite app_nil_r. destruct Hf as (F1 & F2 & F3). rewrite F1, N.min_r by exact G. auto 15.
    - destruct (N.leb_spec (qu_size u) offset) as [G|G].
      { left. exists [], body, [], cs, Q, u. rewrite app_nil_r. destruct Hf as (F1 & F2 & F3). rewrite F1, N.min_r by exact G. auto 15. }
      change (2 ^ sv_lpage s) with L in Hr.
      pose proof (read_exact_spec body (N.to_nat (N.min L (qu_size u - offset)))) as Hre.
      destruct (read_exact _ body) as [[chunk rest]|].
      2: { apply runs_ret_inv in Hr as [-> ->]. apply chain_nil_inv in Hc as ->. right. split; [|auto 6].
           revert Hre. clear. generalize (qu_size u). intros. lia. }
      destruct Hre as (R1 & R2 & R3).
      assert (Hlen : N.of_nat (length chunk) = N.min L (qu_size u - offset)).
      { rewrite R2, take_length. revert R1. clear. generalize (qu_size u). intros. lia. }
      assert (Hcat : concat body = chunk ++ concat rest) by (rewrite R2, R3; symmetry; apply take_drop).
      apply runs_call_inv in Hr as (vs & cs' & -> & Hr). apply chain_cons_inv in Hc as (Q1 & Ha & Hc).
      assert (Hvp : valid_part (sv_lpage s) (qu_size u) offset (N.of_nat (length chunk))).
      { split; [exact Hm|]. fold L. rewrite Hlen. revert G. clear. generalize (qu_size u). intros. lia. }
      clear R1 R2 R3. inversion Ha; subst; try congruence.
      + (* an error *)
        exfalso. same_up. destruct Hvp as [V1 V2].
        match goal with H : part_error _ _ _ _ _ |- _ => rename H into HE end. destruct e; cbn [part_error] in HE; try contradiction.
        all: first [apply HE, V2|apply HE, V1|revert HE V2; clear; generalize (qu_size u); intros; lia].
      + same_up. cbn [stream_bytes] in *. rewrite app_nil_r in *.
        pose proof (filled_step _ _ _ _ Hf G Hlen) as Hf1.
        destruct (IH id (offset + L) rest stop k cs' r (q_part Q id u offset (Some chunk)) Q'
          {| qu_key := qu_key u; qu_size := qu_size u; qu_created := qu_created u; qu_parts := <[offset := Some chunk]> (qu_parts u) |}
          (pre ++ chunk) Hr Hc) as [J|J].
        * unfold q_part. cbn [q_up]. apply lookup_insert.
        * rewrite N.add_mod, Hm, N.mod_same by (clear -HL; lia). cbn [N.add]. apply N.mod_0_l. clear -HL; lia.
        * exact Hf1.
        * cbn [qu_size]. revert Hfu HL. clear. generalize (qu_size u). intros. lia.
        * left. destruct J as (data & rest' & cs1 & cs2 & Q1 & u1 & J1 & -> & J2 & J3 & J4 & J5 & J6 & J7 & J8 & J9 & J10 & J11).
          cbn [qu_size qu_key q_part q_com q_ids q_up] in *.
          exists (chunk ++ data), rest', ((OWrite id offset (N.of_nat (length chunk)) [Data chunk], [VRet RWritten]) :: cs1), cs2, Q1, u1.
          rewrite Hcat, J1, <- !app_assoc. split; [reflexivity|]. split; [reflexivity|]. split; [exact J2|]. split; [exact J3|].
          split; [exact J4|]. split; [exact J5|]. split; [|split; [exact J7|split; [exact J8|split; [exact J9|]]]].
          -- intros i Hi. rewrite J6 by exact Hi. apply lookup_insert_ne. congruence.
          -- rewrite <- app_assoc in J10, J11. split; [exact J10|exact J11].
        * right. destruct J as (J1 & J2 & J3 & J4 & J5). cbn [qu_size q_part q_com q_ids q_up] in *.
          split; [|split; [exact J2|split; [exact J3|split; [exact J4|]]]].
          -- rewrite Hcat, app_length. revert J1 Hlen G. clear. generalize (qu_size u). intros. lia.
          -- intros i Hi. rewrite J5 by exact Hi. apply lookup_insert_ne. congruence.
      + exfalso. match goal with H : Fail ∈ _ |- _ => apply elem_of_list_singleton in H; discriminate H end.
      + exfalso. match goal with H : N.of_nat _ <> N.of_nat _ |- _ => cbn [stream_bytes] in H; rewrite app_nil_r in H; apply H; reflexivity end.
      + exfalso. match goal with H : Data [] ∈ _ |- _ => apply elem_of_list_singleton in H; injection H as <- end.
        cbn [length] in Hlen. revert Hlen G HL. clear. generalize (qu_size u). intros. lia.
  Qed.

  Lemma create_inv Q key size vs Q' : answers (sv_lpage s) Q (OCreate key size) vs Q' ->
    (exists tok created, tok ∉ q_ids Q /\ vs = [VRet (RCreated tok)] /\ Q' = q_new Q tok key size created) \/ (vs = [VRet RPanicked] /\ Q' = Q).
  Proof using. intros H. inversion H; subst; eauto 8. Qed.
  Lemma commit_inv Q tok vs Q' : answers (sv_lpage s) Q (OCommit tok false) vs Q' ->
    (q_up Q !! tok = None /\ vs = [VRet (RFailed ObjectNotFound)] /\ Q' = Q) \/
    exists u id bytes, q_up Q !! tok = Some u /\ id ∉ q_ids Q /\ has_written u bytes /\ vs = [VRet (RCommitted (Some id))] /\ Q' = q_publish Q tok u id bytes.
  Proof using. intros H. inversion H; subst; eauto 12. Qed.

  (** What a body that begins with a whole frame looks like to the reader. *)
  Lemma frame_head B e tail : valid_entry e -> B = entry_bytes e ++ tail ->
    take 2 B = be_bytes 2 (N.of_nat (length (fst e))) /\
    drop 2 B = fst e ++ be_bytes 5 (N.of_nat (length (snd e))) ++ snd e ++ tail /\
    be_val (be_bytes 2 (N.of_nat (length (fst e)))) = N.of_nat (length (fst e)) /\
    be_val (be_bytes 5 (N.of_nat (length (snd e)))) = N.of_nat (length (snd e)).
  Proof using.
    intros [V1 V2] ->. unfold entry_bytes, batch_entry. rewrite <- !app_assoc. rewrite take_be, drop_be.
    rewrite !be_val_bytes by assumption. auto.
  Qed.
  Lemma content_of o data : N.of_nat (length data) = co_size o ->
    (forall i b, data !! i = Some b -> co_bytes o (N.of_nat i) = b) -> content o = data.
  Proof using.
    intros Hl Hb. unfold content, byte_range. apply list_eq. intros i. rewrite list_lookup_fmap. rewrite N.sub_0_r, <- Hl, Nat2N.id.
    destruct (decide (i < length data)%nat) as [G|G].
    - rewrite lookup_seq_lt by exact G. cbn [fmap option_fmap option_map Nat.add]. rewrite N.add_0_l.
      destruct (lookup_lt_is_Some_2 _ _ G) as [b Eb]. rewrite Eb. f_equal. apply Hb, Eb.
    - rewrite lookup_seq_ge by (clear -G; lia). symmetry. apply lookup_ge_None_2. clear -G; lia.
  Qed.

  Lemma loop_run fuel : forall body created cs r Q Q',
    (length (concat body) < fuel)%nat -> Forall is_byte (concat body) ->
    runs (batch_loop_p s fuel body created) cs r -> chain (sv_lpage s) Q cs Q' ->
    exists n, batch_stores Q (concat body) n Q' /\ r = match n with Some n => RespCount 200 (created + n) | None => Aborted end.
  Proof using.
    induction fuel as [|fuel IH]; intros body created cs r Q Q' Hfuel Hbyte Hr Hc; [exfalso; clear -Hfuel; lia|].
    cbn [batch_loop_p] in Hr.
    assert (Stop : forall B, (forall e tail, valid_entry e -> B <> entry_bytes e ++ tail) -> forall Q', q_com Q' = q_com Q -> keeps_uploads Q Q' ->
      exists n, batch_stores Q B n Q' /\ RespCount 200 created = match n with Some n => RespCount 200 (created + n) | None => Aborted end).
    { intros B H1 Q1 H2 H3. exists (Some 0). split; [now constructor|]. rewrite N.add_0_r. reflexivity. }
    set (B := concat body) in *.
    pose proof (read_exact_spec body 2) as R. fold B in R.
    destruct (read_exact 2 body) as [[kraw b1]|].
    2: { apply runs_ret_inv in Hr as [-> ->]. apply chain_nil_inv in Hc as ->. apply Stop; [|reflexivity|apply keeps_refl].
         intros e tail He E. rewrite E, app_length in R. pose proof (entry_bytes_length e). clear -R H. lia. }
    destruct R as (R1 & -> & R2).
    pose proof (read_exact_spec b1 (N.to_nat (be_val (take 2 B)))) as S. rewrite R2 in S.
    destruct (read_exact _ b1) as [[key b2]|].
    2: { apply runs_ret_inv in Hr as [-> ->]. apply chain_nil_inv in Hc as ->. apply Stop; [|reflexivity|apply keeps_refl].
         intros e tail He E. destruct (frame_head _ _ _ He E) as (F1 & F2 & F3 & F4). rewrite F1, F2, F3, app_length in S. clear -S. lia. }
    destruct S as (S1 & Sk & S2).
    pose proof (read_exact_spec b2 5) as T. rewrite S2 in T.
    destruct (read_exact 5 b2) as [[sraw b3]|].
    2: { apply runs_ret_inv in Hr as [-> ->]. apply chain_nil_inv in Hc as ->. apply Stop; [|reflexivity|apply keeps_refl].
         intros e tail He E. destruct (frame_head _ _ _ He E) as (F1 & F2 & F3 & F4). rewrite F1, F2, F3, Nat2N.id in T.
         rewrite drop_app_alt in T by reflexivity. rewrite app_length, be_bytes_length in T. clear -T. lia. }
    destruct T as (T1 & Ts & T2). set (size := be_val sraw) in *.
    (* the header *)
    assert (HB : B = be_bytes 2 (N.of_nat (length key)) ++ key ++ be_bytes 5 size ++ concat b3).
    { assert (B = take 2 B ++ key ++ sraw ++ concat b3) as E.
      { rewrite T2, Ts, Sk, !take_drop. reflexivity. }
      rewrite E at 1. f_equal.
      - rewrite <- (be_bytes_val (take 2 B)) at 1 by (apply Forall_take, Hbyte). rewrite take_length, Nat.min_l by exact R1. f_equal.
        rewrite Sk, take_length, Nat.min_l by exact S1. rewrite N2Nat.id. reflexivity.
      - f_equal. f_equal. unfold size. assert (length sraw = 5%nat) as L5 by (rewrite Ts, take_length; clear -T1; lia).
        rewrite <- L5 at 1. symmetry. apply be_bytes_val. rewrite Ts. apply Forall_take, Forall_drop, Forall_drop, Hbyte. }
    assert (Hkl : N.of_nat (length key) < 2 ^ 16).
    { rewrite Sk, take_length, Nat.min_l by exact S1. rewrite N2Nat.id.
      pose proof (be_val_lt (take 2 B) ltac:(apply Forall_take, Hbyte)) as HL. rewrite take_length, Nat.min_l in HL by exact R1. exact HL. }
    assert (Hsz : size < 2 ^ 40).
    { assert (length sraw = 5%nat) as L5 by (rewrite Ts, take_length; clear -T1; lia).
      pose proof (be_val_lt sraw ltac:(rewrite Ts; apply Forall_take, Forall_drop, Forall_drop, Hbyte)) as HL. rewrite L5 in HL. exact HL. }
    clear R1 R2 S1 Sk S2 T1 Ts T2. clearbody size B.
    assert (Hnf : N.of_nat (length (concat b3)) < size -> forall e tail, valid_entry e -> B <> entry_bytes e ++ tail).
    { intros Hlt e tail [V1 V2] E. rewrite HB in E. unfold entry_bytes, batch_entry in E. rewrite <- !app_assoc in E.
      apply app_inj_1 in E as [E1 E]; [|rewrite !be_bytes_length; reflexivity].
      apply be_bytes_inj in E1; [|assumption..]. apply app_inj_1 in E as [E2 E]; [|clear -E1; lia].
      apply app_inj_1 in E as [E3 E]; [|rewrite !be_bytes_length; reflexivity].
      apply be_bytes_inj in E3; [|assumption..]. rewrite E, app_length in Hlt. clear -Hlt E3. lia. }
    apply runs_call_inv in Hr as (vs & cs' & -> & Hr). apply chain_cons_inv in Hc as (Q1 & Ha & Hc).
    apply create_inv in Ha as [(tok & created0 & Hfresh & -> & ->)|[-> ->]].
    2: { apply runs_ret_inv in Hr as [-> ->]. apply chain_nil_inv in Hc as ->. exists None. split; [constructor|reflexivity]. }
    set (u := {| qu_key := key; qu_size := size; qu_created := created0; qu_parts := fun _ => None |}) in *.
    assert (Hk1 : keeps_uploads Q (q_new Q tok key size created0)).
    { split; [cbn [q_new q_ids]; set_solver|]. intros id Hid. cbn [q_new q_up]. apply lookup_insert_ne. set_solver. }
    match type of Hr with runs (batch_parts_p _ _ _ _ _ _ _ ?k0) _ _ => set (k := k0) in * end.
    destruct (parts_run (N.to_nat size) tok 0 b3 (RespCount 200 created) k cs' r (q_new Q tok key size created0) Q' u []) as [J|J].
    - exact Hr.
    - exact Hc.
    - cbn [q_new q_up]. apply lookup_insert.
    - apply N.mod_0_l. pose proof L_pos. clear -H. lia.
    - split; [|split].
      + cbn [length]. rewrite N.min_l by (clear; lia). reflexivity.
      + reflexivity.
      + intros bytes _ i b Hi. discriminate Hi.
    - cbn [u qu_size]. clear. lia.
    - clear Hr Hc. destruct J as (data & rest & cs1 & cs2 & Q2 & u1 & J1 & -> & Hc & Hr & J4 & J5 & J6 & J7 & J8 & J9 & J10 & J11).
      cbn [app u qu_size qu_key q_new q_com q_ids q_up] in *. subst k. cbv beta in Hr.
      apply runs_call_inv in Hr as (vs & cs' & -> & Hr). apply chain_cons_inv in Hc as (Q3 & Ha3 & Hc).
      apply commit_inv in Ha3 as [(H & _)|(u2 & id & bytes & H & Hid & Hw & -> & ->)]; [congruence|].
      rewrite J7 in H. injection H as <-.
      destruct (IH rest (created + 1) cs' r (q_publish Q2 tok u1 id bytes) Q') as (n & N1 & N2).
      + rewrite HB, J1 in Hfuel. rewrite !app_length in Hfuel. rewrite !be_bytes_length in Hfuel. clear -Hfuel. lia.
      + rewrite HB, J1 in Hbyte. clear -Hbyte. rewrite !Forall_app in Hbyte. tauto.
      + exact Hr.
      + exact Hc.
      + exists (N.succ <$> n). split.
        * rewrite HB, J1. replace (be_bytes 2 (N.of_nat (length key)) ++ key ++ be_bytes 5 size ++ data ++ concat rest)
            with (entry_bytes (key, data) ++ concat rest).
          2: { unfold entry_bytes, batch_entry. cbn [fst snd]. rewrite J10, <- !app_assoc. reflexivity. }
          eapply (bs_object Q key data (concat rest) {| co_id := id; co_size := qu_size u1; co_created := qu_created u1; co_bytes := bytes |} (q_publish Q2 tok u1 id bytes)).
          -- split; cbn [fst snd]; [exact Hkl|]. rewrite J10. exact Hsz.
          -- cbn [q_publish q_com]. rewrite J4, J8. reflexivity.
          -- apply content_of; cbn [co_size co_bytes]; [rewrite J10, J9; reflexivity|]. intros i b Hi. apply J11; assumption.
          -- cbn [co_id]. rewrite J5 in *. set_solver.
          -- cbn [co_id q_publish q_ids]. set_solver.
          -- split; [cbn [q_publish q_ids]; rewrite J5; set_solver|]. intros i Hi. cbn [q_publish q_up].
             assert (i <> tok) as Hne by set_solver. rewrite lookup_delete_ne by congruence. rewrite J6 by exact Hne.
             apply lookup_insert_ne. congruence.
          -- exact N1.
        * rewrite N2. destruct n as [n|]; cbn [fmap option_fmap option_map]; [|reflexivity]. f_equal. clear. lia.
    - destruct J as (J1 & -> & J3 & J4 & J5). cbn [app u qu_size qu_key q_new q_com q_ids q_up] in *. apply Stop.
      + apply Hnf. rewrite N.sub_0_r in J1. exact J1.
      + exact J3.
      + split; [rewrite J4; set_solver|]. intros i Hi. assert (i <> tok) as Hne by set_solver. rewrite J5 by exact Hne.
        apply lookup_insert_ne. congruence.
  Qed.
End Batch.

(** ** Reading *)
Lemma content_length o : N.of_nat (length (content o)) = co_size o.
Proof. unfold content, byte_range. rewrite fmap_length, seq_length, N2Nat.id, N.sub_0_r. reflexivity. Qed.
Lemma content_range_bytes o start fin : start <= fin <= co_size o ->
  byte_range (co_bytes o) start fin = take (N.to_nat (fin - start)) (drop (N.to_nat start) (content o)).
Proof.
  intros H. unfold content, byte_range. apply list_eq. intros i. rewrite list_lookup_fmap.
  destruct (decide (i < N.to_nat (fin - start))%nat) as [G|G].
  - rewrite lookup_seq_lt by exact G. rewrite lookup_take by exact G. rewrite lookup_drop, list_lookup_fmap.
    rewrite lookup_seq_lt by (clear -H G; lia). cbn [fmap option_fmap option_map Nat.add]. rewrite N.add_0_l. do 2 f_equal. clear. lia.
  - rewrite lookup_seq_ge by (clear -G; lia). rewrite lookup_take_ge by (clear -G; lia). reflexivity.
Qed.
Lemma stream_items_chunks chunks : stream_items (map VChunk chunks ++ [VEnd RDone]) = Some (concat chunks).
Proof. induction chunks as [|c chunks IH]; [reflexivity|]. cbn [map app stream_items concat]. rewrite IH. reflexivity. Qed.
Lemma q_find_none Q key co : q_find Q key None co <-> q_com Q !! key = Some co.
Proof. unfold q_find. split; [tauto|]. intros H. split; [exact H|]. intros i Hi. discriminate Hi. Qed.
Lemma no_find Q key : (forall co, ~ q_find Q key None co) -> q_com Q !! key = None.
Proof. intros H. destruct (q_com Q !! key) as [co|] eqn:E; [|reflexivity]. exfalso. apply (H co), q_find_none, E. Qed.

Section Requests.
  Variable s : server.
  Hypothesis mac_len : forall m, length (sv_mac s m) = 32%nat.
  Hypothesis mac_byte : forall m, Forall is_byte (sv_mac s m).
  Let lpage := sv_lpage s.

  Lemma auth_ok_iff rq a : auth_ok s rq a = true <-> permitted s rq a.
  Proof using mac_len mac_byte.
    unfold auth_ok, verify_auth, permitted. rewrite orb_true_iff, negb_true_iff, auth_verify_iff by assumption. reflexivity.
  Qed.
  Lemma auth_no rq a : auth_ok s rq a = false -> ~ permitted s rq a.
  Proof using mac_len mac_byte. rewrite <- auth_ok_iff. congruence. Qed.

  Lemma receipts_iff receipts id size :
    verify_write_receipts (sv_mac s) (2 ^ lpage) (split_commas receipts) (Itoken id 0) size = true <-> receipts_for s receipts id size.
  Proof using mac_len mac_byte.
    rewrite verify_receipts_iff by assumption. unfold receipts_for. fold lpage.
    pose proof (div_ceil_spec size (2 ^ lpage) ltac:(apply N.pow_nonzero; discriminate)) as [D1 D2].
    assert (0 < 2 ^ lpage) as HL by (apply N.neq_0_lt_0, N.pow_nonzero; discriminate).
    revert D1 D2 HL. generalize (div_ceil size (2 ^ lpage)) as c. generalize (2 ^ lpage) as L. intros L c D1 D2 HL.
    assert (forall i, i < c <-> i * L < size) as E.
    { intros i. split; intros H.
      - destruct (N.lt_ge_cases (i * L) size) as [|G]; [assumption|]. exfalso. clear D1.
        assert ((i + 1) * L <= c * L) as K by (apply N.mul_le_mono_r; clear -H; lia). clear -G D2 K. lia.
      - destruct (N.lt_ge_cases i c) as [|G]; [assumption|]. exfalso.
        assert (c * L <= i * L) as K by (apply N.mul_le_mono_r; exact G). clear -H D1 K. lia. }
    split; intros H i Hi; apply H, E, Hi.
  Qed.

  Lemma needs_root rq : is_root rq = true <-> rq_path rq = [47].
  Proof using. unfold is_root. rewrite bool_decide_eq_true. reflexivity. Qed.
  Lemma needs_key rq : is_root rq = false -> needs rq =
    match rq_method rq with
    | HGet _ => Some (ReadObject (parse_key (rq_path rq)))
    | HHead => Some (InspectObject (parse_key (rq_path rq)))
    | HPost size _ => Some (CreateObject (parse_key (rq_path rq)) size)
    | HPut _ _ => Some (CommitObject (parse_key (rq_path rq)))
    | HPatch _ _ _ _ => Some (WriteObject (parse_key (rq_path rq)))
    | HDelete => Some (DeleteObject (parse_key (rq_path rq)))
    | HOther => None
    end.
  Proof using. intros H. unfold needs, is_root in *. apply bool_decide_eq_false in H. rewrite decide_False by exact H. reflexivity. Qed.

  Lemma write_inv Q tok offset len st vs Q' : answers lpage Q (OWrite tok offset len st) vs Q' ->
    (q_up Q !! tok = None /\ vs = [VRet (RFailed ObjectNotFound)] /\ Q' = Q) \/
    exists u, q_up Q !! tok = Some u /\
      ((exists e, part_error lpage (qu_size u) offset len e /\ vs = [VRet (RFailed e)] /\ Q' = Q) \/
       (valid_part lpage (qu_size u) offset len /\
        ((no_fail st /\ N.of_nat (length (stream_bytes st)) = len /\ vs = [VRet RWritten] /\ Q' = q_part Q tok u offset (Some (stream_bytes st))) \/
         (Fail ∈ st /\ vs = [VRet (RFailed DataStreamError)] /\ Q' = q_part Q tok u offset None) \/
         (N.of_nat (length (stream_bytes st)) <> len /\ vs = [VRet (RFailed DataStreamLengthMismatch)] /\ Q' = q_part Q tok u offset None) \/
         (Data [] ∈ st /\ vs = [VRet RPanicked] /\ exists d, (d = None \/ d = Some (stream_bytes st)) /\ Q' = q_part Q tok u offset d)))).
  Proof using.
    intros H. inversion H; subst; [left; auto|right..]; eexists; (split; [eassumption|]).
    - left. eauto.
    - right. split; [assumption|]. auto 8.
    - right. split; [assumption|]. auto 8.
    - right. split; [assumption|]. auto 8.
    - right. split; [assumption|]. right. right. right. split; [assumption|]. split; [reflexivity|]. exists d. split; [tauto|reflexivity].
  Qed.

  Lemma read_call Q key start rend code vs Q' : answers lpage Q (ORead key None start rend 8192) vs Q' -> Q' = Q /\
    match vs with
    | [VRet (RFailed e)] => Resp (status_of e)
    | VRet (RReading id size start fin) :: vs =>
        match stream_items vs with
        | Some body => RespBody code (dec (fin - start)) (content_range start fin size) id body
        | None => Aborted
        end
    | _ => Aborted
    end =
    match match content <$> q_com Q !! key with
          | None => Status 404
          | Some data =>
              match read_check Direct (N.of_nat (length data)) start (default (N.of_nat (length data)) rend) with
              | Some _ => Status 416
              | None =>
                  Body code (dec (default (N.of_nat (length data)) rend - start))
                    (content_range start (default (N.of_nat (length data)) rend) (N.of_nat (length data)))
                    (take (N.to_nat (default (N.of_nat (length data)) rend - start)) (drop (N.to_nat start) data))
              end
          end with
    | Status c => Resp c
    | Body c cl cr body => RespBody c cl cr (default 0 (co_id <$> q_com Q !! key)) body
    end.
  Proof using.
    intros Ha. inversion Ha; subst; (split; [reflexivity|]).
    - rewrite no_find by assumption. reflexivity.
    - match goal with H : q_find _ _ _ _ |- _ => apply q_find_none in H; rewrite H end.
      cbn [fmap option_fmap option_map default from_option id]. rewrite content_length. cbn [read_check].
      match goal with |- context [if ?b then _ else _] => replace b with true end; [reflexivity|].
      symmetry. match goal with H : _ \/ _ |- _ => revert H end. clear. intros H. rewrite !orb_true_iff, !N.ltb_lt. tauto.
    - match goal with H : q_find _ _ _ _ |- _ => apply q_find_none in H; rewrite H end.
      match goal with H : _ <= _ <= _ |- _ => rename H into Hrange end.
      cbn [fmap option_fmap option_map]. rewrite content_length. cbn [read_check].
      match goal with |- context [if ?b then _ else _] => replace b with false end.
      + rewrite stream_items_chunks.
        match goal with H : concat _ = _ |- _ => rewrite H end. rewrite content_range_bytes by exact Hrange.
        destruct (map VChunk chunks ++ [VEnd RDone]) eqn:E; [destruct chunks; discriminate E|]. reflexivity.
      + symmetry. revert Hrange. clear. intros H. rewrite !orb_false_iff, !N.ltb_ge. lia.
  Qed.

  Theorem request_refines rq cs r Q Q' : request_ok s rq ->
    (forall op vs id, (op, vs) ∈ cs -> VRet (RCreated id) ∈ vs -> id < 2 ^ 128) ->
    runs (handle s rq) cs r -> chain lpage Q cs Q' -> serves s Q rq r Q'.
  Proof using mac_len mac_byte.
    intros Hok Hids Hr Hc. unfold handle in Hr. destruct (is_root rq) eqn:Eroot.
    { apply needs_root in Eroot.
      assert (needs rq = match rq_method rq with HPost _ _ => Some BatchCreateObjects | _ => None end) as Hn.
      { unfold needs. rewrite decide_True by exact Eroot. reflexivity. }
      destruct (rq_method rq) as [|  |size body| | | |] eqn:Em;
        try (apply runs_ret_inv in Hr as [-> ->]; apply chain_nil_inv in Hc as ->; apply sv_method; exact Hn).
      unfold h_batch in Hr. destruct (auth_ok s rq BatchCreateObjects) eqn:Ea; cbn [negb] in Hr.
      - apply auth_ok_iff in Ea. unfold request_ok in Hok. rewrite Em in Hok. destruct Hok as [_ Hb].
        destruct (loop_run s _ _ _ _ _ _ _ (Nat.lt_succ_diag_r _) Hb Hr Hc) as (n & N1 & ->).
        pose proof (sv_batch s Q rq size body n Q' Hn Ea Em N1) as H. destruct n as [n|]; [rewrite N.add_0_l|]; exact H.
      - apply auth_no in Ea. apply runs_ret_inv in Hr as [-> ->]. apply chain_nil_inv in Hc as ->. eapply sv_denied; eassumption. }
    pose proof (needs_key rq Eroot) as Hn. cbv zeta in Hr.
    set (key := parse_key (rq_path rq)) in *.
    destruct (rq_method rq) as [range| |size body|tok receipts|tok offset len body| |] eqn:Em.
    - (* GET *)
      unfold h_read in Hr. destruct (auth_ok s rq (ReadObject key)) eqn:Ea; cbn [negb] in Hr.
      2: { apply auth_no in Ea. apply runs_ret_inv in Hr as [-> ->]. apply chain_nil_inv in Hc as ->. eapply sv_denied; eassumption. }
      apply auth_ok_iff in Ea. pose proof (sv_get s Q rq key range Hn Ea Em) as G. cbv zeta in Hr. unfold endpoint_read in G. cbv zeta in G.
      set (ranges := default [] (h ← range; range_specs h)) in *. clearbody ranges.
      destruct ranges as [|[x y] [|z l]]; cbn [head default from_option id fst snd] in Hr, G.
      + cbn [range_start] in Hr, G.
        apply runs_call_inv in Hr as (vs & cs' & -> & Hr). apply chain_cons_inv in Hc as (Q1 & Hans & Hc).
        apply runs_ret_inv in Hr as [-> ->]. apply chain_nil_inv in Hc as ->.
        destruct (read_call _ _ _ _ 200 _ _ Hans) as [-> E]. cbv beta iota zeta in G. rewrite E. exact G.
      + destruct (range_start x) as [start|].
        2: { apply runs_ret_inv in Hr as [-> ->]. apply chain_nil_inv in Hc as ->. exact G. }
        apply runs_call_inv in Hr as (vs & cs' & -> & Hr). apply chain_cons_inv in Hc as (Q1 & Hans & Hc).
        apply runs_ret_inv in Hr as [-> ->]. apply chain_nil_inv in Hc as ->.
        destruct (read_call _ _ _ _ 206 _ _ Hans) as [-> E]. rewrite E. exact G.
      + apply runs_ret_inv in Hr as [-> ->]. apply chain_nil_inv in Hc as ->. exact G.
    - (* HEAD *)
      unfold h_inspect in Hr. destruct (auth_ok s rq (InspectObject key)) eqn:Ea; cbn [negb] in Hr.
      2: { apply auth_no in Ea. apply runs_ret_inv in Hr as [-> ->]. apply chain_nil_inv in Hc as ->. eapply sv_denied; eassumption. }
      apply auth_ok_iff in Ea. pose proof (sv_head s Q rq key Hn Ea) as G.
      apply runs_call_inv in Hr as (vs & cs' & -> & Hr). apply chain_cons_inv in Hc as (Q1 & Hans & Hc).
      apply runs_ret_inv in Hr as [-> ->]. apply chain_nil_inv in Hc as ->. inversion Hans; subst.
      + rewrite no_find in G by assumption. exact G.
      + match goal with H : q_find _ _ _ _ |- _ => apply q_find_none in H; rewrite H in G end. exact G.
    - (* POST *)
      unfold h_create in Hr. destruct (auth_ok s rq (CreateObject key size)) eqn:Ea; cbn [negb] in Hr.
      2: { apply auth_no in Ea. apply runs_ret_inv in Hr as [-> ->]. apply chain_nil_inv in Hc as ->. eapply sv_denied; eassumption. }
      apply auth_ok_iff in Ea.
      apply runs_call_inv in Hr as (vs & cs' & -> & Hr). apply chain_cons_inv in Hc as (Q1 & Hans & Hc).
      apply runs_ret_inv in Hr as [-> ->]. apply chain_nil_inv in Hc as ->.
      apply create_inv in Hans as [(id & created & Hid & -> & ->)|[-> ->]].
      + eapply sv_create; try eassumption. eapply (Hids _ _ id); [left|]. left.
      + eapply sv_no_room; eassumption.
    - (* PUT *)
      unfold h_commit, endpoint_commit in Hr. fold (auth_ok s rq (CommitObject key)) in Hr.
      destruct (auth_ok s rq (CommitObject key)) eqn:Ea; cbn [negb] in Hr.
      2: { apply auth_no in Ea. apply runs_ret_inv in Hr as [-> ->]. apply chain_nil_inv in Hc as ->. eapply sv_denied; eassumption. }
      apply auth_ok_iff in Ea.
      destruct (parse_upload_token (sv_mac s) tok) as [[[id part] size]|] eqn:Ep.
      2: { apply runs_ret_inv in Hr as [-> ->]. apply chain_nil_inv in Hc as ->. eapply sv_commit_gone; try eassumption. left. exact Ep. }
      destruct (verify_write_receipts _ _ _ _ _) eqn:Ev.
      + unfold on_partition in Hr. cbn [it_partition it_object] in Hr. destruct (N.eqb_spec part 0) as [->|Hp].
        2: { apply runs_ret_inv in Hr as [-> ->]. apply chain_nil_inv in Hc as ->.
             eapply (sv_foreign s Q rq _ tok); [exact Hn|exact Ea|right; exists receipts; exact Em|exact Ep|exact Hp]. }
        apply receipts_iff in Ev.
        apply runs_call_inv in Hr as (vs & cs' & -> & Hr). apply chain_cons_inv in Hc as (Q1 & Hans & Hc).
        apply runs_ret_inv in Hr as [-> ->]. apply chain_nil_inv in Hc as ->.
        apply commit_inv in Hans as [(H & -> & ->)|(u & oid & bytes & H & Hid & Hw & -> & ->)].
        * eapply sv_commit_gone; try eassumption. right. exists id, size. auto.
        * eapply sv_commit; eassumption.
      + apply runs_ret_inv in Hr as [-> ->]. apply chain_nil_inv in Hc as ->.
        destruct (N.eqb_spec part 0) as [->|Hp].
        * eapply sv_commit_unproved; try eassumption. intros K. apply receipts_iff in K. unfold lpage in K. congruence.
        * eapply (sv_foreign_unproved s Q rq _ tok receipts); [exact Hn|exact Ea|exact Em|exact Ep|exact Hp].
    - (* PATCH *)
      unfold h_write, endpoint_write in Hr. fold (auth_ok s rq (WriteObject key)) in Hr.
      destruct (auth_ok s rq (WriteObject key)) eqn:Ea; cbn [negb] in Hr.
      2: { apply auth_no in Ea. apply runs_ret_inv in Hr as [-> ->]. apply chain_nil_inv in Hc as ->. eapply sv_denied; eassumption. }
      apply auth_ok_iff in Ea.
      destruct (parse_upload_token (sv_mac s) tok) as [[[id part] size]|] eqn:Ep.
      2: { apply runs_ret_inv in Hr as [-> ->]. apply chain_nil_inv in Hc as ->. eapply sv_write_gone; try eassumption. left. exact Ep. }
      unfold on_partition in Hr. cbn [it_partition it_object] in Hr. destruct (N.eqb_spec part 0) as [->|Hp].
      2: { apply runs_ret_inv in Hr as [-> ->]. apply chain_nil_inv in Hc as ->.
           eapply (sv_foreign s Q rq _ tok); [exact Hn|exact Ea|left; exists offset, len, body; exact Em|exact Ep|exact Hp]. }
      apply runs_call_inv in Hr as (vs & cs' & -> & Hr). apply chain_cons_inv in Hc as (Q1 & Hans & Hc).
      apply runs_ret_inv in Hr as [-> ->]. apply chain_nil_inv in Hc as ->.
      apply write_inv in Hans as [(H & -> & ->)|(u & H & [(e & He & -> & ->)|(Hv & K)])].
      + eapply sv_write_gone; try eassumption. right. exists id, size. auto.
      + replace (status_of e) with 416 by (destruct e; try reflexivity; contradiction). eapply sv_write_bad; eassumption.
      + destruct K as [(K1 & K2 & -> & ->)|[(K1 & -> & ->)|[(K1 & -> & ->)|(K1 & -> & d & Hd & ->)]]].
        * unfold write_response. eapply sv_write; eassumption.
        * cbn [status_of]. eapply sv_write_body; try eassumption. left. auto.
        * cbn [status_of]. eapply sv_write_body; try eassumption. right. auto.
        * eapply sv_write_abort; eassumption.
    - (* DELETE *)
      unfold h_delete in Hr. destruct (auth_ok s rq (DeleteObject key)) eqn:Ea; cbn [negb] in Hr.
      2: { apply auth_no in Ea. apply runs_ret_inv in Hr as [-> ->]. apply chain_nil_inv in Hc as ->. eapply sv_denied; eassumption. }
      apply auth_ok_iff in Ea.
      apply runs_call_inv in Hr as (vs & cs' & -> & Hr). apply chain_cons_inv in Hc as (Q1 & Hans & Hc).
      apply runs_ret_inv in Hr as [-> ->]. apply chain_nil_inv in Hc as ->. inversion Hans; subst.
      + eapply sv_delete_nothing; [exact Hn|exact Ea|]. apply no_find. assumption.
      + eapply sv_delete; [exact Hn|exact Ea|]. match goal with H : q_find _ _ _ _ |- _ => apply q_find_none in H; exact H end.
    - apply runs_ret_inv in Hr as [-> ->]. apply chain_nil_inv in Hc as ->. apply sv_method, Hn.
  Qed.
End Requests.

(** ** The calls of a handler are valid *)
Section Valid.
  Variable s : server.
  Hypothesis Hlp : sv_lpage s < 32.
  Let ok (c : dop * list vis) : Prop := valid_op (sv_lpage s) (fst c).
  Lemma L_small : 2 ^ sv_lpage s < 2 ^ 32.
  Proof using Hlp. apply N.pow_lt_mono_r; [reflexivity|exact Hlp]. Qed.

  Lemma parts_valid fuel : forall id size offset body stop k cs r,
    size < 2 ^ 40 -> Forall is_byte (concat body) ->
    (forall rest cs r, Forall is_byte (concat rest) -> runs (k rest) cs r -> Forall ok cs) ->
    runs (batch_parts_p s fuel id size offset body stop k) cs r -> Forall ok cs.
  Proof using Hlp.
    induction fuel as [|fuel IH]; intros id size offset body stop k cs r Hs Hb Hk Hr; rewrite batch_parts_p_S in Hr.
    - destruct (size <=? offset); [eapply Hk; eassumption|]. apply runs_ret_inv in Hr as [-> _]. constructor.
    - destruct (N.leb_spec size offset) as [|G]; [eapply Hk; eassumption|].
      pose proof (read_exact_spec body (N.to_nat (N.min (2 ^ sv_lpage s) (size - offset)))) as R.
      destruct (read_exact _ body) as [[chunk rest]|]; [|apply runs_ret_inv in Hr as [-> _]; constructor].
      destruct R as (_ & _ & R). apply runs_call_inv in Hr as (vs & cs' & -> & Hr). constructor.
      + unfold ok. cbn [fst valid_op]. pose proof L_small as HL. revert HL Hs G. clear. generalize (2 ^ sv_lpage s).
        intros L HL Hs G. change (2 ^ 64) with (2 ^ 40 * 2 ^ 24). change (2 ^ 32) with 4294967296 in HL. change (2 ^ 40) with 1099511627776 in *.
        change (2 ^ 24) with 16777216. lia.
      + assert (Hb' : Forall is_byte (concat rest)) by (rewrite R; apply Forall_drop, Hb).
        assert (Hret : forall x, runs (Ret x) cs' r -> Forall ok cs') by (intros x Hx; apply runs_ret_inv in Hx as [-> _]; constructor).
        destruct vs as [|[[]| |] [|? ?]]; try (eapply Hret; exact Hr). eapply IH; [exact Hs|exact Hb'|exact Hk|exact Hr].
  Qed.
  Lemma loop_valid fuel : forall body created cs r, Forall is_byte (concat body) ->
    runs (batch_loop_p s fuel body created) cs r -> Forall ok cs.
  Proof using Hlp.
    induction fuel as [|fuel IH]; intros body created cs r Hb Hr; cbn [batch_loop_p] in Hr.
    - apply runs_ret_inv in Hr as [-> _]. constructor.
    - assert (Hret : forall x cs, runs (Ret x) cs r -> Forall ok cs) by (intros x ? Hx; apply runs_ret_inv in Hx as [-> _]; constructor).
      pose proof (read_exact_spec body 2) as R. destruct (read_exact 2 body) as [[kraw b1]|]; [|eapply Hret; exact Hr].
      destruct R as (_ & _ & R). assert (H1 : Forall is_byte (concat b1)) by (rewrite R; apply Forall_drop, Hb).
      pose proof (read_exact_spec b1 (N.to_nat (be_val kraw))) as T. destruct (read_exact _ b1) as [[key b2]|]; [|eapply Hret; exact Hr].
      destruct T as (_ & _ & T). assert (H2 : Forall is_byte (concat b2)) by (rewrite T; apply Forall_drop, H1).
      pose proof (read_exact_spec b2 5) as U. destruct (read_exact 5 b2) as [[sraw b3]|]; [|eapply Hret; exact Hr].
      destruct U as (U1 & Us & U). assert (H3 : Forall is_byte (concat b3)) by (rewrite U; apply Forall_drop, H2).
      assert (Hsz : be_val sraw < 2 ^ 40).
      { assert (length sraw = 5%nat) as L5 by (rewrite Us, take_length; clear -U1; lia).
        pose proof (be_val_lt sraw ltac:(rewrite Us; apply Forall_take, H2)) as HL. rewrite L5 in HL. exact HL. }
      apply runs_call_inv in Hr as (vs & cs' & -> & Hr). constructor; [exact I|].
      destruct vs as [|[[]| |] [|? ?]]; try (eapply Hret; exact Hr).
      eapply parts_valid; [exact Hsz|exact H3| |exact Hr]. clear Hr cs'.
      intros rest cs' r' Hrest Hr. apply runs_call_inv in Hr as (vs & cs2 & -> & Hr). constructor; [exact I|].
      destruct vs as [|[[]| |] [|? ?]]; try (apply runs_ret_inv in Hr as [-> _]; constructor). eapply IH; eassumption.
  Qed.
  Lemma handle_valid rq cs r : request_ok s rq -> runs (handle s rq) cs r -> Forall ok cs.
  Proof using Hlp.
    intros Hok Hr. unfold handle in Hr. unfold request_ok in Hok.
    assert (Hret : forall x cs, runs (Ret x) cs r -> Forall ok cs) by (intros x ? Hx; apply runs_ret_inv in Hx as [-> _]; constructor).
    assert (Hcall : forall op k cs, valid_op (sv_lpage s) op -> runs (Call op (fun vs => Ret (k vs))) cs r -> Forall ok cs).
    { intros op k cs0 Hv Hx. apply runs_call_inv in Hx as (vs & cs' & -> & Hx). constructor; [exact Hv|]. eapply Hret, Hx. }
    destruct (is_root rq).
    { destruct (rq_method rq); try (eapply Hret; exact Hr). unfold h_batch in Hr. destruct (negb _); [eapply Hret; exact Hr|].
      eapply loop_valid; [|exact Hr]. apply Hok. }
    destruct (rq_method rq) as [range| |size body|tok receipts|tok offset len body| |].
    - unfold h_read in Hr. destruct (negb _); [eapply Hret; exact Hr|]. cbv zeta in Hr.
      set (ranges := default [] _) in *. clearbody ranges.
      destruct ranges as [|x [|y l]]; [| |eapply Hret; exact Hr]; destruct (range_start _); try (eapply Hret; exact Hr);
        (eapply Hcall; [|exact Hr]); cbn [valid_op]; reflexivity.
    - unfold h_inspect in Hr. destruct (negb _); [eapply Hret; exact Hr|]. eapply Hcall; [|exact Hr]. exact I.
    - unfold h_create in Hr. destruct (negb _); [eapply Hret; exact Hr|]. eapply Hcall; [|exact Hr]. exact I.
    - unfold h_commit in Hr. destruct (endpoint_commit _ _ _ _ _ _ _ _); try (eapply Hret; exact Hr). unfold on_partition in Hr.
      destruct (_ =? 0); [|eapply Hret; exact Hr]. eapply Hcall; [|exact Hr]. exact I.
    - unfold h_write in Hr. destruct (endpoint_write _ _ _ _ _ _); try (eapply Hret; exact Hr). unfold on_partition in Hr.
      destruct (_ =? 0); [|eapply Hret; exact Hr]. eapply Hcall; [|exact Hr]. exact Hok.
    - unfold h_delete in Hr. destruct (negb _); [eapply Hret; exact Hr|]. eapply Hcall; [|exact Hr]. exact I.
    - eapply Hret; exact Hr.
  Qed.
End Valid.

(** ** All requests *)
Lemma histories_refine s h css : (forall m, length (sv_mac s m) = 32%nat) -> (forall m, Forall is_byte (sv_mac s m)) ->
  Forall (fun x => request_ok s (fst x)) h ->
  (forall op vs id, (op, vs) ∈ concat css -> VRet (RCreated id) ∈ vs -> id < 2 ^ 128) ->
  Forall2 (fun x cs => runs (handle s (fst x)) cs (snd x)) h css ->
  forall Q Q', chain (sv_lpage s) Q (concat css) Q' -> serves_all s Q h Q'.
Proof.
  intros Hm1 Hm2 Hok Hids HF. induction HF as [|[rq r] cs h css Hr HF IH]; intros Q Q' Hc.
  - apply chain_nil_inv in Hc as ->. constructor.
  - cbn [concat] in *. apply Forall_cons_1 in Hok as [Hok1 Hok]. apply chain_app in Hc as (Q1 & Hc1 & Hc2).
    econstructor.
    + eapply request_refines; [exact Hm1|exact Hm2|exact Hok1| |exact Hr|exact Hc1].
      intros op vs id Hin. eapply Hids. apply elem_of_app. left. exact Hin.
    + apply IH; [exact Hok| |exact Hc2]. intros op vs id Hin. eapply Hids. apply elem_of_app. right. exact Hin.
Qed.
Lemma call_labels_vis n cs op vs v : (op, vs) ∈ cs -> v ∈ vs -> exists i, LVis i v ∈ call_labels n cs.
Proof.
  revert n. induction cs as [|[op' vs'] cs IH]; intros n Hin Hv; [apply elem_of_nil in Hin; contradiction|].
  cbn [call_labels]. apply elem_of_cons in Hin as [[= <- <-]|Hin].
  - exists n. right. apply elem_of_app. left. apply elem_of_list_In, in_map, elem_of_list_In, Hv.
  - destruct (IH (S n) Hin Hv) as [i Hi]. exists i. right. apply elem_of_app. right. exact Hi.
Qed.
Lemma visible_elem l ls : l ∈ visible ls <-> l ∈ ls /\ is_visible l = true.
Proof. unfold visible. rewrite !elem_of_list_In, filter_In. reflexivity. Qed.
Theorem server_refines s c pages h : is_mac (sv_mac s) -> cfg_ok c -> Forall (fun x => request_ok s (fst x)) h ->
  server_run s c pages h -> exists Q, serves_all s q_empty h Q.
Proof.
  intros Hm Hc Hok [y0 ls y css Hf Hs Hlp HF Ho HL].
  assert (Hv : valid_calls (dc_lpage c) ls).
  { intros i op Hin. assert (LCall i op ∈ visible ls) as Hin' by (apply visible_elem; auto). rewrite HL in Hin'.
    apply call_labels_call in Hin' as (_ & vs & Hl). apply elem_of_list_lookup_2 in Hl. clear -HF Hok Hl Hlp Hc.
    pose proof (ck_lpage _ Hc) as Hlt. rewrite <- Hlp in *. clear Hlp Hc c.
    induction HF as [|[rq r] cs h css Hr HF IH]; [apply elem_of_nil in Hl; contradiction|].
    cbn [concat] in Hl. apply Forall_cons_1 in Hok as [Hok1 Hok]. apply elem_of_app in Hl as [Hl|Hl]; [|auto].
    pose proof (handle_valid s Hlt rq cs r Hok1 Hr) as H. rewrite Forall_forall in H. apply (H _ Hl). }
  destruct (C21_calls_behave_like_a_map c pages y0 ls y Hc Hf Hs Hv) as (n & Q & HQ).
  - rewrite HL. apply call_labels_oaa, Ho.
  - rewrite HL. apply call_labels_all, Ho.
  - apply seq_run_chain in HQ as (cs & Ecs & _ & Hch). rewrite HL in Ecs. apply call_labels_inj in Ecs as <-.
    exists Q. eapply histories_refine; [apply Hm|apply Hm|exact Hok| |exact HF|rewrite Hlp; exact Hch].
    intros op vs id Hin Hvs. destruct (call_labels_vis 0 _ _ _ _ Hin Hvs) as [i Hi]. rewrite <- HL in Hi. apply visible_elem in Hi as [Hi _].
    eapply created_bound; [exact Hs|apply (fp_procs _ _ _ Hf)|exact Hi].
Qed.
