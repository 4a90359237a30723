(** The server over restarts refines the specification of ServerCrashSpec.v. *)
From Coq Require Import ZifyBool ZifyNat ZifyN.
From stdpp Require Import base numbers option gmap sets functions list.
From Verif Require Import Util Bytes PageIOModel PageIOSpec TokenModel TokenProofs HttpModel BatchProofs DirectModel DirectSpec DirectBase DirectSeqSpec DirectSeq.
From Verif Require Import DirectSys DirectLoadModel DirectLog DirectAlive DirectRestart DirectRestartSpec DirectRestart4 PropertiesToken PropertiesDirect PropertiesRestart.
From Verif Require Import ServerModel ServerSpec ServerProofs ServerHist ServerCrashSpec.
Open Scope N_scope.
Ltac Zify.zify_post_hook ::= idtac.

(** ** The uploads and objects after a crash *)
(** Like [Same], but calls may be writing. *)
Record Like (S : sstate) (Q : qstate) : Prop := {
  lk_up : forall tok, match ss_up S !! tok, q_up Q !! tok with
    | Some u, Some q => up_key u = qu_key q /\ up_size u = qu_size q /\ up_created u = qu_created q /\ forall off, pt_data (up_parts u off) = qu_parts q off
    | None, None => True | _, _ => False end;
  lk_com : ss_com S = q_com Q;
  lk_ids : ss_ids S = q_ids Q;
}.
Lemma same_like S Q : Same S Q -> Like S Q.
Proof.
  intros [H1 H2 H3 _]. constructor; [|exact H2|exact H3]. intros tok. specialize (H1 tok).
  destruct (ss_up S !! tok), (q_up Q !! tok); auto. destruct H1 as (A & B & C & _ & D). split; [exact A|]. split; [exact B|]. split; [exact C|].
  intros off. rewrite D. reflexivity.
Qed.
Definition seen (u : upload) : qupload :=
  {| qu_key := up_key u; qu_size := up_size u; qu_created := up_created u; qu_parts := fun off => pt_data (up_parts u off) |}.

Lemma crash_same z S' Q : Like (z_state z) Q -> clean_crash z S' ->
  exists Q', Same S' Q' /\ q_com Q' = q_com Q /\ q_ids Q ⊆ q_ids Q' /\
    (forall id u, q_up Q !! id = Some u -> q_up Q' !! id = Some u) /\
    (forall id u, q_up Q' !! id = Some u -> q_up Q !! id = None -> id ∉ q_ids Q /\
       exists key size created, SCall (OCreate key size) ∈ z_procs z /\ u = {| qu_key := key; qu_size := size; qu_created := created; qu_parts := fun _ => None |}).
Proof.
  intros [L1 L2 L3] [C1 C2 C3 (C4 & C5 & C6)].
  exists {| q_up := q_up Q ∪ (seen <$> ss_up S'); q_com := q_com Q; q_ids := ss_ids S' |}.
  assert (Hnew : forall tok, q_up Q !! tok = None -> ss_up (z_state z) !! tok = None).
  { intros tok E. specialize (L1 tok). rewrite E in L1. destruct (ss_up (z_state z) !! tok); [contradiction|reflexivity]. }
  split; [|split; [reflexivity|split; [rewrite <- L3; exact C4|split]]].
  - constructor; cbn [q_up q_com q_ids].
    + intros tok. rewrite lookup_union, lookup_fmap. specialize (L1 tok).
      destruct (ss_up (z_state z) !! tok) as [u|] eqn:Eu, (q_up Q !! tok) as [q|] eqn:Eq; try contradiction.
      * rewrite (C2 _ _ Eu). cbn [fmap option_fmap option_map]. cbn [union_with option_union_with]. destruct L1 as (A & B & C & D).
        unfold up_same, reopened_upload. cbn [up_key up_size up_created up_open up_parts]. repeat (split; [assumption || reflexivity|]).
        intros off. unfold reopened_part, quiet. rewrite D. reflexivity.
      * destruct (ss_up S' !! tok) as [u|] eqn:E'; cbn [fmap option_fmap option_map]; [|exact I].
        destruct (C3 _ _ E' Eu) as [Hu _]. rewrite Hu. unfold up_same, seen, new_upload. cbn. repeat (split; [reflexivity|]). reflexivity.
    + rewrite C1, L2. reflexivity.
    + reflexivity.
    + intros key co E. rewrite <- L2, <- C1 in E. eapply C6, E.
  - intros id u E. cbn [q_up]. rewrite lookup_union, E. destruct ((seen <$> ss_up S') !! id); reflexivity.
  - intros id u E En. cbn [q_up] in E. rewrite lookup_union, En, lookup_fmap in E.
    destruct (ss_up S' !! id) as [u'|] eqn:E'; cbn [fmap option_fmap option_map] in E; [|discriminate E]. injection E as <-.
    destruct (C3 _ _ E' (Hnew _ En)) as [Hu [Hp Hf]]. split; [rewrite <- L3; exact Hf|]. exists (up_key u'), (up_size u'), (up_created u').
    split; [exact Hp|]. rewrite Hu. reflexivity.
Qed.
Lemma crash_same_quiet z S' Q : Like (z_state z) Q -> clean_crash z S' -> (forall key size, SCall (OCreate key size) ∉ z_procs z) ->
  exists ids, Same S' {| q_up := q_up Q; q_com := q_com Q; q_ids := ids |} /\ q_ids Q ⊆ ids.
Proof.
  intros HL HC Hn. destruct (crash_same _ _ _ HL HC) as ([up com ids] & HS & H1 & H2 & H3 & H4). cbn [q_up q_com q_ids] in *.
  exists ids. split; [|exact H2]. assert (up = q_up Q) as <-; [|subst com; exact HS].
  apply map_eq. intros id. destruct (q_up Q !! id) as [u|] eqn:E; [apply H3, E|].
  destruct (up !! id) as [u|] eqn:E'; [|reflexivity]. exfalso. destruct (H4 _ _ E' E) as (_ & key & size & cr & Hp & _). eapply Hn, Hp.
Qed.
Lemma writing_like S Q tok u off : Same S Q -> q_up Q !! tok = Some u -> Like (on_part S tok off part_start) (q_part Q tok u off None).
Proof.
  intros HS Hu. pose proof (same_some_r _ _ _ _ HS Hu) as (v & Ev & A & B & C & _ & D). destruct (same_like _ _ HS) as [L1 L2 L3].
  constructor; cbn [on_part set_up ss_up ss_com ss_ids q_part q_up q_com q_ids]; [|exact L2|exact L3].
  intros tok'. destruct (decide (tok' = tok)) as [->|Hne].
  - rewrite lookup_alter, lookup_insert, Ev. cbn [fmap option_fmap option_map]. unfold set_part, set_parts.
    cbn [up_key up_size up_created up_parts qu_key qu_size qu_created qu_parts]. repeat (split; [assumption|]).
    intros o. destruct (decide (o = off)) as [->|Hno]; [rewrite !fn_lookup_insert; reflexivity|].
    rewrite !fn_lookup_insert_ne by congruence. rewrite D. reflexivity.
  - rewrite lookup_alter_ne, lookup_insert_ne by congruence. apply L1.
Qed.

Lemma closing_like S Q tok us : Same S Q -> ss_up S !! tok = Some us -> Like (set_up S (<[tok := closed us]> (ss_up S))) Q.
Proof.
  intros HS Hu. destruct (same_like _ _ HS) as [L1 L2 L3]. constructor; cbn [set_up ss_up ss_com ss_ids]; [|exact L2|exact L3].
  intros tok'. specialize (L1 tok'). destruct (decide (tok' = tok)) as [->|Hne].
  - rewrite lookup_insert. rewrite Hu in L1. destruct (q_up Q !! tok); [|contradiction]. exact L1.
  - rewrite lookup_insert_ne by congruence. exact L1.
Qed.

(** ** Calls one after another, the last one possibly under way *)
Lemma seq_from_chain lpage Q0 n L Q : seq_from lpage Q0 n L Q -> exists cs, L = call_labels 0 cs /\ length cs = n /\ chain lpage Q0 cs Q.
Proof.
  induction 1 as [|n ls Q op vs Q' _ (cs & -> & Hl & Hc) Ha].
  - exists []. split; [reflexivity|]. split; [reflexivity|constructor].
  - exists (cs ++ [(op, vs)]). rewrite call_labels_app. cbn [call_labels app]. rewrite app_nil_r, Hl. cbn [Nat.add].
    split; [reflexivity|]. split; [rewrite app_length, Hl; cbn [length]; apply Nat.add_1_r|].
    apply chain_app. exists Q. split; [exact Hc|]. econstructor; [exact Ha|constructor].
Qed.
Lemma call_labels_oaa_last n cs c : Forall over cs -> one_after_another (call_labels n (cs ++ [c])).
Proof.
  intros H ls1 i op ls2 E j op' Hin.
  assert (exists cs1 cs2 vs, cs ++ [c] = cs1 ++ (op, vs) :: cs2 /\ ls1 = call_labels n cs1) as (cs1 & cs2 & vs & Ec & ->).
  { clear H Hin. revert E. generalize (cs ++ [c]) as l. intros l. revert n ls1. induction l as [|[op0 vs] l IH]; intros n ls1 E; cbn [call_labels] in E; [destruct ls1; discriminate|].
    destruct ls1 as [|x ls1].
    - injection E as -> -> _. exists [], l, vs. auto.
    - cbn [app] in E. injection E as <- E.
      assert (exists r, ls1 = map (LVis n) vs ++ r /\ call_labels (S n) l = r ++ LCall i op :: ls2) as (r & -> & E2).
      { clear IH. revert ls1 E. induction vs as [|v vs IHv]; intros ls1 E; [exists ls1; auto|].
        cbn [map app] in E. destruct ls1 as [|x ls1]; [discriminate|]. injection E as <- E.
        apply IHv in E as (r & -> & E). exists r. auto. }
      apply IH in E2 as (cs1 & cs2 & vs' & -> & ->). exists ((op0, vs) :: cs1), cs2, vs'. auto. }
  eapply call_labels_all; [|exact Hin].
  assert (exists t, cs = cs1 ++ t) as [t ->].
  { destruct cs2 as [|x cs2 _] using rev_ind.
    - apply app_inj_tail in Ec as [-> _]. exists []. rewrite app_nil_r. reflexivity.
    - change ((op, vs) :: cs2 ++ [x]) with (((op, vs) :: cs2) ++ [x]) in Ec. rewrite app_assoc in Ec. apply app_inj_tail in Ec as [-> _]. eauto. }
  apply Forall_app in H. tauto.
Qed.
Lemma calls_state lpage S0 Q0 ls z cs pend : Same S0 Q0 -> spec_steps lpage {| z_state := S0; z_procs := [] |} ls z ->
  visible ls = call_labels 0 (cs ++ option_list pend) -> Forall over cs ->
  (forall op vs, pend = Some (op, vs) -> Forall (fun v => is_final v = false) vs) ->
  exists Q, chain lpage Q0 cs Q /\
    match pend with
    | None => Forall (eq SDone) (z_procs z) /\ Same (z_state z) Q
    | Some (op, vs) => exists n p, z_procs z = replicate n SDone ++ [p] /\ mid lpage Q op vs p (z_state z)
    end.
Proof.
  intros HS Hs HL Ho Hp.
  assert (Hoaa : one_after_another (visible ls)).
  { rewrite HL. destruct pend as [p|]; cbn [option_list]; [apply call_labels_oaa_last, Ho|rewrite app_nil_r; apply call_labels_oaa, Ho]. }
  destruct (seq_inv _ _ _ _ _ HS Hs Hoaa) as (n & pre & Q & Hrun & D).
  apply seq_from_chain in Hrun as (cs0 & -> & Hn & Hc).
  destruct D as [(Hz & E & HQ)|(op & vs & p & Hz & E & Hne & Hfin & HM)].
  - rewrite HL in E. apply call_labels_inj in E as <-. destruct pend as [[op vs]|]; cbn [option_list] in *.
    + exfalso. apply chain_app in Hc as (Q1 & _ & Hc). apply chain_cons_inv in Hc as (Q2 & Ha & _).
      specialize (Hp _ _ eq_refl). rewrite Forall_forall in Hp.
      assert (exists v, v ∈ vs /\ is_final v = true) as (v & Hv & Hf).
      { inversion Ha; subst; try (eexists; split; [left|reflexivity]).
        exists (VEnd RDone). split; [|reflexivity]. right. apply elem_of_app. right. left. }
      rewrite (Hp _ Hv) in Hf. discriminate Hf.
    + rewrite app_nil_r in *. exists Q. split; [exact Hc|]. split; [|exact HQ]. rewrite Hz. apply Forall_replicate. reflexivity.
  - assert (cs ++ option_list pend = cs0 ++ [(op, vs)]) as Ec.
    { eapply (call_labels_inj 0). rewrite <- HL, E, call_labels_app. cbn [call_labels Nat.add]. rewrite Hn, app_nil_r. reflexivity. }
    assert (~ over (op, vs)) as Hno.
    { intros (v & Hv & Hf). rewrite Forall_forall in Hfin. rewrite (Hfin _ Hv) in Hf. discriminate Hf. }
    destruct pend as [[op' vs']|]; cbn [option_list] in *.
    + apply app_inj_tail in Ec as [-> [= -> ->]]. exists Q. split; [exact Hc|]. exists n, p. auto.
    + exfalso. rewrite app_nil_r in Ec. rewrite Ec in Ho. apply Forall_app in Ho as [_ Ho]. apply Forall_inv in Ho. contradiction.
Qed.

(** ** The calls a handler can make *)
Inductive makes (P : dop -> Prop) : prog -> Prop :=
| mk_ret r : makes P (Ret r)
| mk_call op k : P op -> (forall vs, makes P (k vs)) -> makes P (Call op k).
Lemma makes_runs P p cs r : makes P p -> runs p cs r -> Forall (fun c => P (fst c)) cs.
Proof.
  intros H Hr. induction Hr as [r|op k vs cs r Hr IH]; [constructor|]. inversion H; subst. constructor; [assumption|]. apply IH. auto.
Qed.
Lemma makes_cut P p cs pend : makes P p -> cut p cs pend -> Forall (fun c => P (fst c)) (cs ++ option_list pend).
Proof.
  intros H Hr. induction Hr as [p|op k vs|op k vs cs pend Hr IH]; [constructor| |]; inversion H; subst; cbn [app option_list].
  - constructor; [assumption|constructor].
  - constructor; [assumption|]. apply IH. auto.
Qed.
Definition fine_op (lpage : N) (op : dop) : Prop :=
  valid_op lpage op /\ match op with OCreate key _ => Forall is_byte key | OCommit _ ine => ine = false | _ => True end.

Lemma unhex_byte c d : unhex c = Some d -> d < 16.
Proof.
  unfold unhex. destruct ((48 <=? c) && (c <=? 57)) eqn:E1; [|destruct ((65 <=? c) && (c <=? 70)) eqn:E2; [|destruct ((97 <=? c) && (c <=? 102)) eqn:E3; [|discriminate]]];
    intros H; injection H as <-; match goal with E : (_ && _) = true |- _ => apply andb_true_iff in E as [A B]; apply N.leb_le in A, B; clear -A B; lia end.
Qed.
Lemma percent_decode_bytes l : Forall is_byte l -> Forall is_byte (percent_decode l).
Proof.
  remember (length l) as n eqn:En. revert l En. induction n as [n IH] using lt_wf_ind. intros l -> Hl.
  destruct l as [|c l]; [constructor|]. cbn [percent_decode]. apply Forall_cons_1 in Hl as [Hc Hl].
  assert (Forall is_byte (percent_decode l)) as Hd by (eapply IH; [|reflexivity|exact Hl]; cbn [length]; lia).
  assert (is_byte 37) as H37 by reflexivity.
  destruct (c =? 37); [|constructor; assumption].
  destruct l as [|h [|l t]]; try (constructor; assumption).
  destruct (unhex h) as [a|] eqn:Ea; [|constructor; assumption]. destruct (unhex l) as [b|] eqn:Eb; [|constructor; assumption].
  apply unhex_byte in Ea, Eb. constructor; [unfold is_byte; clear -Ea Eb; lia|].
  rewrite !Forall_cons in Hl. eapply IH; [|reflexivity|tauto]. cbn [length]; lia.
Qed.

Section Makes.
  Variable s : server.
  Hypothesis Hlp : sv_lpage s < 32.
  Lemma parts_makes (P : dop -> Prop) fuel : forall id size offset body stop k,
    size < 2 ^ 40 -> Forall is_byte (concat body) ->
    (forall offset len st, offset < size -> P (OWrite id offset len st)) ->
    (forall rest, Forall is_byte (concat rest) -> makes P (k rest)) ->
    makes P (batch_parts_p s fuel id size offset body stop k).
  Proof using.
    induction fuel as [|fuel IH]; intros id size offset body stop k Hs Hb HP Hk; rewrite batch_parts_p_S.
    - destruct (size <=? offset); [apply Hk, Hb|constructor].
    - destruct (N.leb_spec size offset) as [|G]; [apply Hk, Hb|].
      pose proof (read_exact_spec body (N.to_nat (N.min (2 ^ sv_lpage s) (size - offset)))) as R.
      destruct (read_exact _ body) as [[chunk rest]|]; [|constructor].
      destruct R as (_ & _ & R). constructor; [apply HP, G|].
      assert (Hb' : Forall is_byte (concat rest)) by (rewrite R; apply Forall_drop, Hb).
      intros vs. destruct vs as [|[[]| |] [|? ?]]; try constructor. apply IH; assumption.
  Qed.
  Lemma loop_makes fuel : forall body created, Forall is_byte (concat body) -> makes (fine_op (sv_lpage s)) (batch_loop_p s fuel body created).
  Proof using Hlp.
    induction fuel as [|fuel IH]; intros body created Hb; cbn [batch_loop_p]; [constructor|].
    pose proof (read_exact_spec body 2) as R. destruct (read_exact 2 body) as [[kraw b1]|]; [|constructor].
    destruct R as (_ & _ & R). assert (H1 : Forall is_byte (concat b1)) by (rewrite R; apply Forall_drop, Hb).
    pose proof (read_exact_spec b1 (N.to_nat (be_val kraw))) as T. destruct (read_exact _ b1) as [[key b2]|]; [|constructor].
    destruct T as (_ & Tk & T). assert (H2 : Forall is_byte (concat b2)) by (rewrite T; apply Forall_drop, H1).
    pose proof (read_exact_spec b2 5) as U. destruct (read_exact 5 b2) as [[sraw b3]|]; [|constructor].
    destruct U as (U1 & Us & U). assert (H3 : Forall is_byte (concat b3)) by (rewrite U; apply Forall_drop, H2).
    assert (Hsz : be_val sraw < 2 ^ 40).
    { assert (length sraw = 5%nat) as L5 by (rewrite Us, take_length; clear -U1; lia).
      pose proof (be_val_lt sraw ltac:(rewrite Us; apply Forall_take, H2)) as HL. rewrite L5 in HL. exact HL. }
    constructor; [split; [exact I|rewrite Tk; apply Forall_take, H1]|].
    intros vs. destruct vs as [|[[]| |] [|? ?]]; try constructor.
    apply parts_makes; [exact Hsz|exact H3| |].
    - intros offset len st G. split; [|exact I]. cbn [valid_op]. pose proof (L_small s Hlp) as HL. revert HL Hsz G. clear. generalize (2 ^ sv_lpage s), (be_val sraw).
      intros L size HL Hs G. change (2 ^ 64) with (2 ^ 40 * 2 ^ 24). change (2 ^ 32) with 4294967296 in HL. change (2 ^ 40) with 1099511627776 in *.
      change (2 ^ 24) with 16777216. lia.
    - intros rest Hrest. constructor; [split; [exact I|reflexivity]|]. intros vs. destruct vs as [|[[]| |] [|? ?]]; try constructor. apply IH, Hrest.
  Qed.
  Lemma handle_makes rq : request_ok s rq -> Forall is_byte (rq_path rq) -> makes (fine_op (sv_lpage s)) (handle s rq).
  Proof using Hlp.
    intros Hok Hpath. unfold handle. unfold request_ok in Hok.
    assert (Hcall : forall op k, fine_op (sv_lpage s) op -> makes (fine_op (sv_lpage s)) (Call op (fun vs => Ret (k vs)))).
    { intros op k Hv. constructor; [exact Hv|]. intros vs. constructor. }
    assert (Hkey : Forall is_byte (parse_key (rq_path rq))).
    { unfold parse_key. apply percent_decode_bytes. destruct (rq_path rq); [constructor|]. apply Forall_cons_1 in Hpath. tauto. }
    destruct (is_root rq).
    { destruct (rq_method rq); try constructor. unfold h_batch. destruct (negb _); [constructor|]. apply loop_makes, Hok. }
    destruct (rq_method rq) as [range| |size body|tok receipts|tok offset len body| |].
    - unfold h_read. destruct (negb _); [constructor|]. cbv zeta. set (ranges := default [] _) in *. clearbody ranges.
      destruct ranges as [|x [|y l]]; [| |constructor]; destruct (range_start _); try constructor; try (intros vs; constructor);
        (split; [cbn [valid_op]; reflexivity|exact I]).
    - unfold h_inspect. destruct (negb _); [constructor|]. apply Hcall. split; exact I.
    - unfold h_create. destruct (negb _); [constructor|]. apply Hcall. split; [exact I|exact Hkey].
    - unfold h_commit. destruct (endpoint_commit _ _ _ _ _ _ _ _); try constructor. unfold on_partition.
      destruct (_ =? 0); [|constructor]. apply Hcall. split; [exact I|reflexivity].
    - unfold h_write. destruct (endpoint_write _ _ _ _ _ _); try constructor. unfold on_partition.
      destruct (_ =? 0); [|constructor]. apply Hcall. split; [exact Hok|exact I].
    - unfold h_delete. destruct (negb _); [constructor|]. apply Hcall. split; exact I.
    - constructor.
  Qed.
End Makes.

(** ** A handler whose call panics does not answer *)
Inductive fails : prog -> Prop :=
| fl_ret r : fails (Ret r)
| fl_call op k : (forall vs, VRet RPanicked ∈ vs -> k vs = Ret Aborted) -> (forall vs, fails (k vs)) -> fails (Call op k).
Lemma fails_runs p cs r : fails p -> runs p cs r -> r <> Aborted -> forall op vs, (op, vs) ∈ cs -> VRet RPanicked ∉ vs.
Proof.
  intros Hf Hr Hne. induction Hr as [r|op k vs cs r Hr IH]; intros op' vs' Hin; [apply elem_of_nil in Hin; contradiction|].
  inversion Hf; subst. match goal with K : forall vs, _ ∈ vs -> k vs = _ |- _ => rename K into HP end.
  apply elem_of_cons in Hin as [[= -> ->]|Hin].
  - intros Hp. rewrite (HP _ Hp) in Hr. apply runs_ret_inv in Hr as [_ ->]. contradiction.
  - eapply IH; [auto|exact Hne|exact Hin].
Qed.
Ltac panic_case := let vs := fresh in let Hp := fresh in intros vs Hp;
  destruct vs as [|[[]| |] [|? ?]]; try reflexivity; exfalso;
  first [apply elem_of_nil in Hp; exact Hp | apply elem_of_list_singleton in Hp; discriminate Hp].
Section Fails.
  Variable s : server.
  Lemma parts_fails fuel : forall id size offset body stop k, (forall rest, fails (k rest)) -> fails (batch_parts_p s fuel id size offset body stop k).
  Proof using.
    induction fuel as [|fuel IH]; intros id size offset body stop k Hk; rewrite batch_parts_p_S.
    - destruct (size <=? offset); [apply Hk|constructor].
    - destruct (size <=? offset); [apply Hk|]. destruct (read_exact _ body) as [[chunk rest]|]; [|constructor]. constructor; [panic_case|].
      intros vs. destruct vs as [|[[]| |] [|? ?]]; try constructor. apply IH, Hk.
  Qed.
  Lemma loop_fails fuel : forall body created, fails (batch_loop_p s fuel body created).
  Proof using.
    induction fuel as [|fuel IH]; intros body created; cbn [batch_loop_p]; [constructor|].
    destruct (read_exact 2 body) as [[kraw b1]|]; [|constructor]. destruct (read_exact _ b1) as [[key b2]|]; [|constructor].
    destruct (read_exact 5 b2) as [[sraw b3]|]; [|constructor]. constructor; [panic_case|].
    intros vs. destruct vs as [|[[]| |] [|? ?]]; try constructor. apply parts_fails. intros rest. constructor; [panic_case|].
    intros vs. destruct vs as [|[[]| |] [|? ?]]; try constructor. apply IH.
  Qed.
  Lemma stream_panic vs : VRet RPanicked ∈ vs -> stream_items vs = None.
  Proof using.
    induction vs as [|v vs IH]; intros H; [apply elem_of_nil in H; contradiction|]. apply elem_of_cons in H as [<-|H]; [reflexivity|].
    cbn [stream_items]. destruct v as [|c|[]]; try reflexivity.
    - rewrite IH by exact H. reflexivity.
    - destruct vs; [apply elem_of_nil in H; contradiction|reflexivity].
  Qed.
  Lemma handle_fails rq : fails (handle s rq).
  Proof using.
    unfold handle. assert (Hcall : forall op k, (forall vs, VRet RPanicked ∈ vs -> k vs = Aborted) -> fails (Call op (fun vs => Ret (k vs)))).
    { intros op k Hk. constructor; [intros vs Hp; rewrite Hk by exact Hp; reflexivity|]. intros vs. constructor. }
    destruct (is_root rq).
    { destruct (rq_method rq); try constructor. unfold h_batch. destruct (negb _); [constructor|]. apply loop_fails. }
    destruct (rq_method rq) as [range| |size body|tok receipts|tok offset len body| |].
    - unfold h_read. destruct (negb _); [constructor|]. cbv zeta. set (ranges := default [] _) in *. clearbody ranges.
      assert (forall code, fails (Call (ORead (parse_key (rq_path rq)) None code None 8192) (fun _ => Ret Aborted))) as _ by (intros; apply Hcall; reflexivity).
      destruct ranges as [|x [|y l]]; [| |constructor]; destruct (range_start _); try (constructor; fail); apply Hcall;
        (intros vs Hp; destruct vs as [|v vs]; [reflexivity|]; apply elem_of_cons in Hp as [<-|Hp]; [reflexivity|];
         destruct v as [[]| |]; try reflexivity;
         try (destruct vs; [apply elem_of_nil in Hp; contradiction|reflexivity]); rewrite stream_panic by exact Hp; reflexivity).
    - unfold h_inspect. destruct (negb _); [constructor|]. apply Hcall. panic_case.
    - unfold h_create. destruct (negb _); [constructor|]. apply Hcall. panic_case.
    - unfold h_commit. destruct (endpoint_commit _ _ _ _ _ _ _ _); try constructor. unfold on_partition.
      destruct (_ =? 0); [|constructor]. apply Hcall. panic_case.
    - unfold h_write. destruct (endpoint_write _ _ _ _ _ _); try constructor. unfold on_partition.
      destruct (_ =? 0); [|constructor]. apply Hcall. panic_case.
    - unfold h_delete. destruct (negb _); [constructor|]. apply Hcall. panic_case.
    - constructor.
  Qed.
End Fails.

(** ** A batch cut short *)
Lemma cut_call_inv op k cs pend : cut (Call op k) cs pend ->
  (cs = [] /\ pend = None) \/ (cs = [] /\ exists vs, pend = Some (op, vs)) \/ exists vs cs', cs = (op, vs) :: cs' /\ cut (k vs) cs' pend.
Proof. intros H. inversion H; subst; eauto 8. Qed.
Lemma cut_ret_inv r cs pend : cut (Ret r) cs pend -> cs = [] /\ pend = None.
Proof. intros H. inversion H; subst; auto. Qed.
Definition pend_on (id : N) (pend : option (dop * list vis)) : Prop :=
  match pend with Some (OWrite tok _ _ _, _) | Some (OCommit tok _, _) => tok = id | _ => True end.
Definition pend_new (Q : qstate) (pend : option (dop * list vis)) : Prop :=
  match pend with Some (OWrite tok _ _ _, _) | Some (OCommit tok _, _) => tok ∉ q_ids Q | _ => True end.

Section BatchCut.
  Variable s : server.
  Let L := 2 ^ sv_lpage s.
  Lemma parts_cut fuel : forall id offset body stop k cs pend Q Q' u pre,
    cut (batch_parts_p s fuel id (qu_size u) offset body stop k) cs pend -> chain (sv_lpage s) Q cs Q' ->
    q_up Q !! id = Some u -> offset mod L = 0 -> filled u offset pre -> qu_size u - offset <= N.of_nat fuel ->
    (exists data rest cs1 cs2 Q1 u1,
        concat body = data ++ concat rest /\ cs = cs1 ++ cs2 /\ chain (sv_lpage s) Q1 cs2 Q' /\ cut (k rest) cs2 pend /\
        q_com Q1 = q_com Q /\ q_ids Q1 = q_ids Q /\ (forall i, i <> id -> q_up Q1 !! i = q_up Q !! i) /\
        q_up Q1 !! id = Some u1 /\ qu_key u1 = qu_key u /\ qu_size u1 = qu_size u /\ N.of_nat (length (pre ++ data)) = qu_size u /\
        (forall bytes, has_written u1 bytes -> forall i b, (pre ++ data) !! i = Some b -> bytes (N.of_nat i) = b)) \/
    (pend_on id pend /\ q_com Q' = q_com Q /\ q_ids Q' = q_ids Q /\ (forall i, i <> id -> q_up Q' !! i = q_up Q !! i)).
  Proof using.
    pose proof (L_pos s) as HL. fold L in HL.
    induction fuel as [|fuel IH]; intros id offset body stop k cs pend Q Q' u pre Hr Hc Hu Hm Hf Hfu; rewrite batch_parts_p_S in Hr.
    - destruct (N.leb_spec (qu_size u) offset) as [G|G]; [|exfalso; revert G Hfu; clear; generalize (qu_size u); intros; lia].
      left. exists [], body, [], cs, Q, u. rewrite app_nil_r. destruct Hf as (F1 & F2 & F3). rewrite F1, N.min_r by exact G. auto 15.
    - destruct (N.leb_spec (qu_size u) offset) as [G|G].
      { left. exists [], body, [], cs, Q, u. rewrite app_nil_r. destruct Hf as (F1 & F2 & F3). rewrite F1, N.min_r by exact G. auto 15. }
      change (2 ^ sv_lpage s) with L in Hr.
      pose proof (read_exact_spec body (N.to_nat (N.min L (qu_size u - offset)))) as Hre.
      destruct (read_exact _ body) as [[chunk rest]|].
      2: { apply cut_ret_inv in Hr as [-> ->]. apply chain_nil_inv in Hc as ->. right. split; [exact I|auto]. }
      destruct Hre as (R1 & R2 & R3).
      assert (Hlen : N.of_nat (length chunk) = N.min L (qu_size u - offset)).
      { rewrite R2, take_length. revert R1. clear. generalize (qu_size u). intros. lia. }
      assert (Hcat : concat body = chunk ++ concat rest) by (rewrite R2, R3; symmetry; apply take_drop).
      apply cut_call_inv in Hr as [[-> ->]|[[-> [vs ->]]|(vs & cs' & -> & Hr)]].
      { apply chain_nil_inv in Hc as ->. right. split; [exact I|auto]. }
      { apply chain_nil_inv in Hc as ->. right. split; [reflexivity|auto]. }
      apply chain_cons_inv in Hc as (Q1 & Ha & Hc).
      assert (Hvp : valid_part (sv_lpage s) (qu_size u) offset (N.of_nat (length chunk))).
      { split; [exact Hm|]. fold L. rewrite Hlen. revert G. clear. generalize (qu_size u). intros. lia. }
      clear R1 R2 R3. inversion Ha; subst; try congruence.
      + (* an error *)
        exfalso. same_up. destruct Hvp as [V1 V2].
        match goal with H : part_error _ _ _ _ _ |- _ => rename H into HE end. destruct e; cbn [part_error] in HE; try contradiction.
        all: first [apply HE, V2|apply HE, V1|revert HE V2; clear; generalize (qu_size u); intros; lia].
      + same_up. cbn [stream_bytes] in *. rewrite app_nil_r in *.
        pose proof (filled_step s _ _ _ _ Hf G Hlen) as Hf1.
        destruct (IH id (offset + L) rest stop k cs' pend (q_part Q id u offset (Some chunk)) Q'
          {| qu_key := qu_key u; qu_size := qu_size u; qu_created := qu_created u; qu_parts := <[offset := Some chunk]> (qu_parts u) |}
          (pre ++ chunk) Hr Hc) as [J|J].
        * unfold q_part. cbn [q_up]. apply lookup_insert.
        * rewrite N.add_mod, Hm, N.mod_same by (clear -HL; lia). cbn [N.add]. apply N.mod_0_l. clear -HL; lia.
        * exact Hf1.
        * cbn [qu_size]. revert Hfu HL. clear. generalize (qu_size u). intros. lia.
        * left. destruct J as (data & rest' & cs1 & cs2 & Q1 & u1 & J1 & -> & J2 & J3 & J4 & J5 & J6 & J7 & J8 & J9 & J10 & J11).
          cbn [qu_size qu_key q_part q_com q_ids q_up] in *.
          exists (chunk ++ data), rest', ((OWrite id offset (N.of_nat (length chunk)) [Data chunk], [VRet RWritten]) :: cs1), cs2, Q1, u1.
          rewrite Hcat, J1, <- !app_assoc. split; [reflexivity|]. split; [reflexivity|]. split; [exact J2|]. split; [exact J3|].
          split; [exact J4|]. split; [exact J5|]. split; [|split; [exact J7|split; [exact J8|split; [exact J9|]]]].
          -- intros i Hi. rewrite J6 by exact Hi. apply lookup_insert_ne. congruence.
          -- rewrite <- app_assoc in J10, J11. split; [exact J10|exact J11].
        * right. destruct J as (J2 & J3 & J4 & J5). cbn [qu_size q_part q_com q_ids q_up] in *.
          split; [exact J2|split; [exact J3|split; [exact J4|]]].
          intros i Hi. rewrite J5 by exact Hi. apply lookup_insert_ne. congruence.
      + exfalso. match goal with H : Fail ∈ _ |- _ => apply elem_of_list_singleton in H; discriminate H end.
      + exfalso. match goal with H : N.of_nat _ <> N.of_nat _ |- _ => cbn [stream_bytes] in H; rewrite app_nil_r in H; apply H; reflexivity end.
      + exfalso. match goal with H : Data [] ∈ _ |- _ => apply elem_of_list_singleton in H; injection H as <- end.
        cbn [length] in Hlen. revert Hlen G HL. clear. generalize (qu_size u). intros. lia.
  Qed.

  Lemma loop_cut fuel : forall body created cs pend Q Q',
    (length (concat body) < fuel)%nat -> Forall is_byte (concat body) ->
    cut (batch_loop_p s fuel body created) cs pend -> chain (sv_lpage s) Q cs Q' ->
    exists Q1, batch_stores Q (concat body) None Q1 /\ q_com Q' = q_com Q1 /\ keeps_uploads Q1 Q' /\
      pend_new Q1 pend.
  Proof using.
    induction fuel as [|fuel IH]; intros body created cs pend Q Q' Hfuel Hbyte Hr Hc; [exfalso; clear -Hfuel; lia|].
    cbn [batch_loop_p] in Hr.
    assert (Stop : forall (B : list N) (pend : option (dop * list vis)), pend_new Q pend ->
      forall Q', q_com Q' = q_com Q -> keeps_uploads Q Q' ->
      exists Q1, batch_stores Q B None Q1 /\ q_com Q' = q_com Q1 /\ keeps_uploads Q1 Q' /\
      pend_new Q1 pend).
    { intros B pend0 H1 Q1 H2 H3. exists Q. split; [constructor|]. auto. }
    set (B := concat body) in *.
    pose proof (read_exact_spec body 2) as R. fold B in R.
    destruct (read_exact 2 body) as [[kraw b1]|].
    2: { apply cut_ret_inv in Hr as [-> ->]. apply chain_nil_inv in Hc as ->. apply Stop; [exact I|reflexivity|apply keeps_refl]. }
    destruct R as (R1 & -> & R2).
    pose proof (read_exact_spec b1 (N.to_nat (be_val (take 2 B)))) as S. rewrite R2 in S.
    destruct (read_exact _ b1) as [[key b2]|].
    2: { apply cut_ret_inv in Hr as [-> ->]. apply chain_nil_inv in Hc as ->. apply Stop; [exact I|reflexivity|apply keeps_refl]. }
    destruct S as (S1 & Sk & S2).
    pose proof (read_exact_spec b2 5) as T. rewrite S2 in T.
    destruct (read_exact 5 b2) as [[sraw b3]|].
    2: { apply cut_ret_inv in Hr as [-> ->]. apply chain_nil_inv in Hc as ->. apply Stop; [exact I|reflexivity|apply keeps_refl]. }
    destruct T as (T1 & Ts & T2). set (size := be_val sraw) in *.
    assert (HB : B = be_bytes 2 (N.of_nat (length key)) ++ key ++ be_bytes 5 size ++ concat b3).
    { assert (B = take 2 B ++ key ++ sraw ++ concat b3) as E.
      { rewrite T2, Ts, Sk, !take_drop. reflexivity. }
      rewrite E at 1. f_equal.
      - rewrite <- (be_bytes_val (take 2 B)) at 1 by (apply Forall_take, Hbyte). rewrite take_length, Nat.min_l by exact R1. f_equal.
        rewrite Sk, take_length, Nat.min_l by exact S1. rewrite N2Nat.id. reflexivity.
      - f_equal. f_equal. unfold size. assert (length sraw = 5%nat) as L5 by (rewrite Ts, take_length; clear -T1; lia).
        rewrite <- L5 at 1. symmetry. apply be_bytes_val. rewrite Ts. apply Forall_take, Forall_drop, Forall_drop, Hbyte. }
    assert (Hkl : N.of_nat (length key) < 2 ^ 16).
    { rewrite Sk, take_length, Nat.min_l by exact S1. rewrite N2Nat.id.
      pose proof (be_val_lt (take 2 B) ltac:(apply Forall_take, Hbyte)) as HL. rewrite take_length, Nat.min_l in HL by exact R1. exact HL. }
    assert (Hsz : size < 2 ^ 40).
    { assert (length sraw = 5%nat) as L5 by (rewrite Ts, take_length; clear -T1; lia).
      pose proof (be_val_lt sraw ltac:(rewrite Ts; apply Forall_take, Forall_drop, Forall_drop, Hbyte)) as HL. rewrite L5 in HL. exact HL. }
    clear R1 R2 S1 Sk S2 T1 Ts T2. clearbody size B.
    apply cut_call_inv in Hr as [[-> ->]|[[-> [vs ->]]|(vs & cs' & -> & Hr)]].
    { apply chain_nil_inv in Hc as ->. apply Stop; [exact I|reflexivity|apply keeps_refl]. }
    { apply chain_nil_inv in Hc as ->. apply Stop; [exact I|reflexivity|apply keeps_refl]. }
    apply chain_cons_inv in Hc as (Q1 & Ha & Hc).
    apply create_inv in Ha as [(tok & created0 & Hfresh & -> & ->)|[-> ->]].
    2: { apply cut_ret_inv in Hr as [-> ->]. apply chain_nil_inv in Hc as ->. apply Stop; [exact I|reflexivity|apply keeps_refl]. }
    set (u := {| qu_key := key; qu_size := size; qu_created := created0; qu_parts := fun _ => None |}) in *.
    match type of Hr with cut (batch_parts_p _ _ _ _ _ _ _ ?k0) _ _ => set (k := k0) in * end.
    destruct (parts_cut (N.to_nat size) tok 0 b3 (RespCount 200 created) k cs' pend (q_new Q tok key size created0) Q' u []) as [J|J].
    - exact Hr.
    - exact Hc.
    - cbn [q_new q_up]. apply lookup_insert.
    - apply N.mod_0_l. pose proof (L_pos s) as H. fold L in H. clear -H. lia.
    - split; [|split].
      + cbn [length]. rewrite N.min_l by (clear; lia). reflexivity.
      + reflexivity.
      + intros bytes _ i b Hi. discriminate Hi.
    - cbn [u qu_size]. clear. lia.
    - clear Hr Hc. destruct J as (data & rest & cs1 & cs2 & Q2 & u1 & J1 & -> & Hc & Hr & J4 & J5 & J6 & J7 & J8 & J9 & J10 & J11).
      cbn [app u qu_size qu_key q_new q_com q_ids q_up] in *. subst k. cbv beta in Hr.
      assert (Hk2 : keeps_uploads Q Q2).
      { split; [rewrite J5; set_solver|]. intros i Hi. assert (i <> tok) as Hne by set_solver. rewrite J6 by exact Hne. apply lookup_insert_ne. congruence. }
      apply cut_call_inv in Hr as [[-> ->]|[[-> [vs ->]]|(vs & cs' & -> & Hr)]].
      { apply chain_nil_inv in Hc as ->. apply Stop; [exact I|exact J4|exact Hk2]. }
      { apply chain_nil_inv in Hc as ->. apply Stop; [exact Hfresh|exact J4|exact Hk2]. }
      apply chain_cons_inv in Hc as (Q3 & Ha3 & Hc).
      apply commit_inv in Ha3 as [(H & _)|(u2 & id & bytes & H & Hid & Hw & -> & ->)]; [congruence|].
      rewrite J7 in H. injection H as <-.
      destruct (IH rest (created + 1) cs' pend (q_publish Q2 tok u1 id bytes) Q') as (Qe & N1 & N2 & N3 & N4).
      + rewrite HB, J1 in Hfuel. rewrite !app_length in Hfuel. rewrite !be_bytes_length in Hfuel. clear -Hfuel. lia.
      + rewrite HB, J1 in Hbyte. clear -Hbyte. rewrite !Forall_app in Hbyte. tauto.
      + exact Hr.
      + exact Hc.
      + exists Qe. split; [|auto].
        rewrite HB, J1. replace (be_bytes 2 (N.of_nat (length key)) ++ key ++ be_bytes 5 size ++ data ++ concat rest)
            with (entry_bytes (key, data) ++ concat rest).
        2: { unfold entry_bytes, batch_entry. cbn [fst snd]. rewrite J10, <- !app_assoc. reflexivity. }
        change (@None N) with (N.succ <$> @None N).
        eapply (bs_object Q key data (concat rest) {| co_id := id; co_size := qu_size u1; co_created := qu_created u1; co_bytes := bytes |} (q_publish Q2 tok u1 id bytes)).
        * split; cbn [fst snd]; [exact Hkl|]. rewrite J10. exact Hsz.
        * cbn [q_publish q_com]. rewrite J4, J8. reflexivity.
        * apply content_of; cbn [co_size co_bytes]; [rewrite J10, J9; reflexivity|]. intros i b Hi. apply J11; assumption.
        * cbn [co_id]. rewrite J5 in *. set_solver.
        * cbn [co_id q_publish q_ids]. set_solver.
        * split; [cbn [q_publish q_ids]; rewrite J5; set_solver|]. intros i Hi. cbn [q_publish q_up].
          assert (i <> tok) as Hne by set_solver. rewrite lookup_delete_ne by congruence. rewrite J6 by exact Hne.
          apply lookup_insert_ne. congruence.
        * exact N1.
    - destruct J as (J2 & J3 & J4 & J5). cbn [app u qu_size qu_key q_new q_com q_ids q_up] in *. apply Stop; [ |exact J3|].
      + unfold pend_on in J2. unfold pend_new. destruct pend as [[[]]|]; try exact I; rewrite J2; exact Hfresh.
      + split; [rewrite J4; set_solver|]. intros i Hi. assert (i <> tok) as Hne by set_solver. rewrite J5 by exact Hne.
        apply lookup_insert_ne. congruence.
  Qed.
End BatchCut.

(** ** A request that was not answered *)
Lemma handle_shape s rq : is_root rq = false -> (exists r, handle s rq = Ret r) \/ exists op f, handle s rq = Call op (fun vs => Ret (f vs)).
Proof.
  intros Hroot. unfold handle. rewrite Hroot.
  destruct (rq_method rq) as [range| |size body|tok receipts|tok offset len body| |].
  - unfold h_read. destruct (negb _); [eauto|]. cbv zeta. set (ranges := default [] _) in *. clearbody ranges.
    destruct ranges as [|x [|y l]]; [| |eauto]; destruct (range_start _); eauto.
  - unfold h_inspect. destruct (negb _); eauto.
  - unfold h_create. destruct (negb _); eauto.
  - unfold h_commit. destruct (endpoint_commit _ _ _ _ _ _ _ _); eauto. unfold on_partition. destruct (_ =? 0); eauto.
  - unfold h_write. destruct (endpoint_write _ _ _ _ _ _); eauto. unfold on_partition. destruct (_ =? 0); eauto.
  - unfold h_delete. destruct (negb _); eauto.
  - eauto.
Qed.
Section Lost.
  Variable s : server.
  Hypothesis mac_len : forall m, length (sv_mac s m) = 32%nat.
  Hypothesis mac_byte : forall m, Forall is_byte (sv_mac s m).

  Lemma call_create rq key size k : is_root rq = false -> handle s rq = Call (OCreate key size) k ->
    needs rq = Some (CreateObject key size) /\ permitted s rq (CreateObject key size).
  Proof using mac_len mac_byte.
    intros Hroot H. unfold handle in H. rewrite Hroot in H. unfold needs. rewrite decide_False by (unfold is_root in Hroot; now apply bool_decide_eq_false in Hroot).
    destruct (rq_method rq) as [range| |size' body|tok receipts|tok offset len body| |].
    - unfold h_read in H. repeat case_match; discriminate H.
    - unfold h_inspect in H. destruct (negb _); discriminate H.
    - unfold h_create in H. destruct (auth_ok s rq _) eqn:Ea; cbn [negb] in H; [|discriminate H]. injection H as <- <- _.
      split; [reflexivity|]. apply auth_ok_iff in Ea; assumption.
    - unfold h_commit, on_partition in H. repeat case_match; discriminate H.
    - unfold h_write, on_partition in H. repeat case_match; discriminate H.
    - unfold h_delete in H. destruct (negb _); discriminate H.
    - discriminate H.
  Qed.
  Lemma call_write rq id offset len body k : is_root rq = false -> handle s rq = Call (OWrite id offset len body) k ->
    exists key tok size, needs rq = Some (WriteObject key) /\ permitted s rq (WriteObject key) /\ rq_method rq = HPatch tok offset len body /\ names s tok id size.
  Proof using mac_len mac_byte.
    intros Hroot H. unfold handle in H. rewrite Hroot in H. unfold needs. rewrite decide_False by (unfold is_root in Hroot; now apply bool_decide_eq_false in Hroot).
    destruct (rq_method rq) as [range| |size' body'|tok receipts|tok offset' len' body'| |] eqn:Em.
    - unfold h_read in H. repeat case_match; discriminate H.
    - unfold h_inspect in H. destruct (negb _); discriminate H.
    - unfold h_create in H. destruct (negb _); discriminate H.
    - unfold h_commit, on_partition in H. repeat case_match; discriminate H.
    - unfold h_write, endpoint_write in H. set (key := parse_key (rq_path rq)) in *. fold (auth_ok s rq (WriteObject key)) in H.
      destruct (auth_ok s rq (WriteObject key)) eqn:Ea; cbn [negb] in H; [|discriminate H].
      destruct (parse_upload_token (sv_mac s) tok) as [[[id' part] size]|] eqn:Ep; [|discriminate H].
      unfold on_partition in H. cbn [it_partition it_object] in H. destruct (N.eqb_spec part 0) as [->|Hp]; [|discriminate H].
      injection H as <- <- <- <- _. exists key, tok, size. split; [reflexivity|]. split; [apply auth_ok_iff in Ea; assumption|]. split; [reflexivity|exact Ep].
    - unfold h_delete in H. destruct (negb _); discriminate H.
    - discriminate H.
  Qed.

  Lemma root_batch rq : is_root rq = true -> (exists r, handle s rq = Ret r) \/
    exists size body, needs rq = Some BatchCreateObjects /\ permitted s rq BatchCreateObjects /\ rq_method rq = HPost size body /\
      handle s rq = batch_loop_p s (S (length (concat body))) body 0.
  Proof using mac_len mac_byte.
    intros Hroot. unfold handle. rewrite Hroot. unfold needs. rewrite decide_True by (unfold is_root in Hroot; now apply bool_decide_eq_true in Hroot).
    destruct (rq_method rq) as [range| |size body|tok receipts|tok offset len body| |]; eauto.
    unfold h_batch. destruct (auth_ok s rq BatchCreateObjects) eqn:Ea; cbn [negb]; [|eauto]. right. exists size, body.
    apply auth_ok_iff in Ea; auto.
  Qed.

  (** All its calls have finished. *)
  Lemma lost_finished rq cs pend Q Q' : request_ok s rq ->
    (forall op vs id, (op, vs) ∈ cs -> VRet (RCreated id) ∈ vs -> id < 2 ^ 128) ->
    cut (handle s rq) cs pend -> chain (sv_lpage s) Q cs Q' -> loses s Q rq Q'.
  Proof using mac_len mac_byte.
    intros Hok Hids Hcut Hc. destruct (is_root rq) eqn:Hroot.
    - destruct (root_batch rq Hroot) as [[r E]|(size & body & Hn & Hp & Em & E)]; rewrite E in Hcut.
      + apply cut_ret_inv in Hcut as [-> ->]. apply chain_nil_inv in Hc as ->. constructor.
      + apply loop_cut with (Q := Q) (Q' := Q') in Hcut as (Q1 & H1 & H2 & H3 & _); [|clear; lia| |exact Hc].
        * eapply lost_batch; eassumption.
        * unfold request_ok in Hok. rewrite Em in Hok. apply Hok.
    - destruct (handle_shape s rq Hroot) as [[r E]|(op & f & E)]; rewrite E in Hcut.
      + apply cut_ret_inv in Hcut as [-> ->]. apply chain_nil_inv in Hc as ->. constructor.
      + apply cut_call_inv in Hcut as [[-> ->]|[[-> [vs ->]]|(vs & cs' & -> & Hcut)]]; try (apply chain_nil_inv in Hc as ->; constructor).
        apply cut_ret_inv in Hcut as [-> ->]. eapply lost_answer, (request_refines s mac_len mac_byte); [exact Hok|exact Hids| |exact Hc].
        rewrite E. constructor. constructor.
  Qed.
End Lost.

(** ** One session *)
Lemma survives_app s Q es1 es2 Q' : survives_all s Q (es1 ++ es2) Q' <-> exists Q1, survives_all s Q es1 Q1 /\ survives_all s Q1 es2 Q'.
Proof.
  revert Q. induction es1 as [|e es1 IH]; intros Q; cbn [app].
  - split; [intros H; exists Q; split; [constructor|exact H]|]. intros (Q1 & H1 & H2). inversion H1; subst. exact H2.
  - split.
    + intros H. inversion H; subst. match goal with H : survives_all _ _ (_ ++ _) _ |- _ => apply IH in H as (Q2 & K1 & K2) end.
      exists Q2. split; [econstructor; eassumption|exact K2].
    + intros (Q1 & H1 & H2). inversion H1; subst. econstructor; [eassumption|]. apply IH. eauto.
Qed.
Lemma survives_one s Q e Q' : survives_all s Q [e] Q' <-> survives s Q e Q'.
Proof.
  split; [|intros H; econstructor; [exact H|constructor]]. intros H. inversion H; subst.
  match goal with H : survives_all _ _ [] _ |- _ => inversion H; subst end. assumption.
Qed.
Lemma serves_survives s Q h Q' : serves_all s Q h Q' -> survives_all s Q (map (fun x => Answered (fst x) (snd x)) h) Q'.
Proof. induction 1; econstructor; [constructor; eassumption|assumption]. Qed.

Lemma done_no_create z key size : Forall (eq SDone) (z_procs z) -> SCall (OCreate key size) ∉ z_procs z.
Proof. intros H Hin. rewrite Forall_forall in H. specialize (H _ Hin). discriminate H. Qed.
Lemma last_call z n p q : z_procs z = replicate n SDone ++ [p] -> q <> SDone -> q ∈ z_procs z -> q = p.
Proof.
  intros -> Hne Hin. apply elem_of_app in Hin as [Hin|Hin]; [apply elem_of_replicate in Hin as [-> _]; contradiction|].
  now apply elem_of_list_singleton in Hin.
Qed.

Lemma call_labels_vis_inv n cs i v : LVis i v ∈ call_labels n cs -> exists op vs, (op, vs) ∈ cs /\ v ∈ vs.
Proof.
  revert n. induction cs as [|[op vs] cs IH]; intros n H; cbn [call_labels] in H; [apply elem_of_nil in H; contradiction|].
  apply elem_of_cons in H as [H|H]; [discriminate H|]. apply elem_of_app in H as [H|H].
  - exists op, vs. split; [left|]. apply elem_of_list_In, in_map_iff in H as (x & E & H). injection E as _ ->. now apply elem_of_list_In.
  - destruct (IH _ H) as (op' & vs' & H1 & H2). exists op', vs'. split; [right; exact H1|exact H2].
Qed.
Lemma opening_procs c y t order y' : opening c y t order = Some y' -> y_procs y' = [].
Proof.
  unfold opening. match goal with |- match ?x with _ => _ end = _ -> _ => destruct x; try discriminate end. intros H. apply bind_Some in H as (h & _ & H). injection H as <-. reflexivity.
Qed.

Section Session.
  Variable s : server.
  Hypothesis mac_len : forall m, length (sv_mac s m) = 32%nat.
  Hypothesis mac_byte : forall m, Forall is_byte (sv_mac s m).

  (** The crash, the request [rq] being under way. *)
  Lemma lost_crash rq cs pend Q Q1 z S' : request_ok s rq ->
    (forall op vs id, (op, vs) ∈ cs -> VRet (RCreated id) ∈ vs -> id < 2 ^ 128) ->
    cut (handle s rq) cs pend -> chain (sv_lpage s) Q cs Q1 -> calm z ->
    match pend with
    | None => Forall (eq SDone) (z_procs z) /\ Same (z_state z) Q1
    | Some (op, vs) => exists n p, z_procs z = replicate n SDone ++ [p] /\ mid (sv_lpage s) Q1 op vs p (z_state z)
    end ->
    clean_crash z S' -> exists Q', survives_all s Q [Lost rq; Killed] Q' /\ Same S' Q'.
  Proof using mac_len mac_byte.
    intros Hok Hids Hcut Hc Hcalm Hst HC.
    assert (Hquiet : forall Q2, loses s Q rq Q2 -> Like (z_state z) Q2 -> (forall key size, SCall (OCreate key size) ∉ z_procs z) ->
      exists Q', survives_all s Q [Lost rq; Killed] Q' /\ Same S' Q').
    { intros Q2 Hl HL Hn. destruct (crash_same_quiet _ _ _ HL HC Hn) as (ids & HS & Hi). eexists. split; [|exact HS].
      econstructor; [constructor; exact Hl|]. apply survives_one. constructor. exact Hi. }
    pose proof (lost_finished s mac_len mac_byte rq cs pend Q Q1 Hok Hids Hcut Hc) as Hfin.
    destruct pend as [[op vs]|].
    2: { destruct Hst as [H1 H2]. eapply Hquiet; [exact Hfin|apply same_like, H2|]. intros. apply done_no_create, H1. }
    destruct Hst as (n & p & Hz & HM).
    assert (Hpc : p ∈ z_procs z) by (rewrite Hz; apply elem_of_app; right; left). apply Hcalm in Hpc.
    assert (Hno : (forall key size, p <> SCall (OCreate key size)) -> forall key size, SCall (OCreate key size) ∉ z_procs z).
    { intros Hp key size Hin. apply (last_call _ _ _ _ Hz) in Hin; [|discriminate]. eapply Hp. eauto. }
    (* the effect of writing a part of an upload *)
    assert (Hwrite : forall id off len st u d, op = OWrite id off len st -> q_up Q1 !! id = Some u -> valid_part (sv_lpage s) (qu_size u) off len ->
      d = None \/ d = Some (stream_bytes st) /\ N.of_nat (length (stream_bytes st)) = len -> loses s Q rq (q_part Q1 id u off d)).
    { intros id off len st u d -> Hu Hv Hd. destruct (is_root rq) eqn:Hroot.
      - destruct (root_batch s mac_len mac_byte rq Hroot) as [[r E]|(size & body & Hn & Hp & Em & E)]; rewrite E in Hcut; [apply cut_ret_inv in Hcut as [_ Hcut]; discriminate Hcut|].
        apply loop_cut with (Q := Q) (Q' := Q1) in Hcut as (Q0 & H1 & H2 & H3 & H4); [|clear; lia| |exact Hc].
        + eapply lost_batch; [exact Hn|exact Hp|exact Em|exact H1|exact H2|]. destruct H3 as [K1 K2]. split; [exact K1|].
          intros i Hi. cbn [q_part q_up]. rewrite lookup_insert_ne; [apply K2, Hi|]. intros <-. exact (H4 Hi).
        + unfold request_ok in Hok. rewrite Em in Hok. apply Hok.
      - destruct (handle_shape s rq Hroot) as [[r E]|(op & f & E)]; rewrite E in Hcut; [apply cut_ret_inv in Hcut as [_ Hcut]; discriminate Hcut|].
        apply cut_call_inv in Hcut as [[_ Ep]|[[-> [vs' Ep]]|(vs' & cs' & -> & Hcut)]]; [discriminate Ep| |apply cut_ret_inv in Hcut as [_ Hcut]; discriminate Hcut].
        injection Ep as <- <-. apply chain_nil_inv in Hc as ->. destruct (call_write s mac_len mac_byte _ _ _ _ _ _ Hroot E) as (key & tok & size & A1 & A2 & A3 & A4).
        eapply lost_write; eassumption. }
    inversion HM; subst.
    - (* not begun *)
      match goal with HS : Same (z_state z) Q1 |- _ => rename HS into HS1 end.
      assert ((exists key size, op = OCreate key size) \/ ~ (exists key size, op = OCreate key size)) as [(key & size & ->)|Hnc] by (destruct op; first [left; do 2 eexists; reflexivity|right; intros (? & ? & E); discriminate E]).
      2: { eapply Hquiet; [exact Hfin|apply same_like, HS1|]. apply Hno. intros key size E. injection E as ->. eauto. }
      destruct (crash_same _ _ _ (same_like _ _ HS1) HC) as (Q' & HS & H1 & H2 & H3 & H4).
      assert (Hk : keeps_uploads Q1 Q').
      { split; [exact H2|]. intros id Hid. destruct (q_up Q1 !! id) as [u|] eqn:E; [apply H3, E|].
        destruct (q_up Q' !! id) as [u|] eqn:E'; [|reflexivity]. exfalso. destruct (H4 _ _ E' E) as [H _]. contradiction. }
      assert (Hl : loses s Q rq Q').
      { destruct (is_root rq) eqn:Hroot.
        - destruct (root_batch s mac_len mac_byte rq Hroot) as [[r E]|(size' & body & Hn & Hp & Em & E)]; rewrite E in Hcut; [apply cut_ret_inv in Hcut as [_ Hcut]; discriminate Hcut|].
          apply loop_cut with (Q := Q) (Q' := Q1) in Hcut as (Q0 & K1 & K2 & K3 & _); [|clear; lia| |exact Hc].
          + eapply lost_batch; [exact Hn|exact Hp|exact Em|exact K1|congruence|]. eapply keeps_trans; eassumption.
          + unfold request_ok in Hok. rewrite Em in Hok. apply Hok.
        - destruct (handle_shape s rq Hroot) as [[r E]|(op & f & E)]; rewrite E in Hcut; [apply cut_ret_inv in Hcut as [_ Hcut]; discriminate Hcut|].
          apply cut_call_inv in Hcut as [[_ Ep]|[[-> [vs' Ep]]|(vs' & cs' & -> & Hcut)]]; [discriminate Ep| |apply cut_ret_inv in Hcut as [_ Hcut]; discriminate Hcut].
          injection Ep as <- <-. apply chain_nil_inv in Hc as ->. destruct (call_create s mac_len mac_byte _ _ _ _ Hroot E) as [A1 A2].
          eapply lost_create; [exact A1|exact A2|exact H1|exact Hk|]. intros id u Eu En. destruct (H4 _ _ Eu En) as [G1 (key' & size' & cr & G2 & G3)].
          apply (last_call _ _ _ _ Hz) in G2; [|discriminate]. injection G2 as -> ->. eauto. }
      exists Q'. split; [|exact HS]. econstructor; [constructor; exact Hl|]. apply survives_one. destruct Q' as [up com ids].
      apply (su_killed s {| q_up := up; q_com := com; q_ids := ids |} ids). reflexivity.
    - (* writing *)
      match goal with HS : Same S0 Q1 |- _ => rename HS into HS1 end.
      match goal with E : _ = z_state z |- _ => rename E into Ez end.
      eapply Hquiet; [eapply Hwrite; [reflexivity|eassumption|eassumption|left; reflexivity]|rewrite <- Ez; apply writing_like; assumption|].
      apply Hno. discriminate.
    - (* written *)
      eapply Hquiet; [eapply Hwrite; [reflexivity|eassumption|eassumption|right; split; reflexivity]|apply same_like; assumption|]. apply Hno. discriminate.
    - (* committing *)
      match goal with HS : Same S0 Q1 |- _ => rename HS into HS1 end. match goal with E : _ = z_state z |- _ => rename E into Ez end.
      eapply Hquiet; [exact Hfin|rewrite <- Ez; eapply closing_like; eassumption|]. apply Hno. discriminate.
    - contradiction.
    - contradiction.
    - contradiction.
    - (* reading *)
      eapply Hquiet; [exact Hfin|apply same_like; assumption|]. apply Hno. discriminate.
  Qed.

  (** One session on the specification. *)
  Lemma session_spec S0 Q0 ls z h css cs pend lost :
    Same S0 Q0 -> spec_steps (sv_lpage s) {| z_state := S0; z_procs := [] |} ls z ->
    visible ls = call_labels 0 (concat css ++ cs ++ option_list pend) ->
    (forall op vs id, (op, vs) ∈ concat css ++ cs -> VRet (RCreated id) ∈ vs -> id < 2 ^ 128) ->
    Forall2 (fun x cs => runs (handle s (fst x)) cs (snd x)) h css -> Forall over (concat css) ->
    match lost with Some rq => cut (handle s rq) cs pend | None => cs = [] /\ pend = None end ->
    Forall over cs ->
    (forall op vs, pend = Some (op, vs) -> settled_call op /\ Forall (fun v => is_final v = false) vs) ->
    Forall (event_ok s) (session_events h lost) ->
    calm z /\ (exists Q, survives_all s Q0 (session_events h lost) Q) /\
    forall S', clean_crash z S' -> exists Q', survives_all s Q0 (session_events h lost ++ [Killed]) Q' /\ Same S' Q'.
  Proof using mac_len mac_byte.
    intros HS Hs HL Hids HF Ho1 Hcut Ho2 Hpend Hok.
    destruct (calls_state (sv_lpage s) S0 Q0 ls z (concat css ++ cs) pend HS Hs) as (Q & Hc & Hst).
    { rewrite <- app_assoc. exact HL. }
    { apply Forall_app. auto. }
    { intros op vs E. apply (Hpend _ _ E). }
    assert (Hset : forall op vs, pend = Some (op, vs) -> settled_call op) by (intros op vs E; apply (Hpend _ _ E)).
    apply chain_app in Hc as (Q1 & Hc1 & Hc2).
    unfold session_events in *. apply Forall_app in Hok as [Hok1 Hok2].
    assert (Hh : serves_all s Q0 h Q1).
    { eapply histories_refine; [exact mac_len|exact mac_byte| | |exact HF|exact Hc1].
      - rewrite Forall_forall. intros [rq r] Hin. rewrite Forall_forall in Hok1. apply (Hok1 (Answered rq r)).
        apply elem_of_list_In, in_map_iff. exists (rq, r). split; [reflexivity|]. now apply elem_of_list_In.
      - intros op vs id Hin. eapply Hids, elem_of_app. left. exact Hin. }
    pose proof (serves_survives _ _ _ _ Hh) as Hsv.
    assert (Hcalm : calm z).
    { intros p Hin. destruct pend as [[op vs]|].
      - destruct Hst as (n & p0 & Hz & HM). specialize (Hset _ _ eq_refl).
        destruct p; try exact I; (apply (last_call _ _ _ _ Hz) in Hin; [|discriminate]); subst p0; inversion HM; subst; contradiction.
      - destruct Hst as [Hd _]. rewrite Forall_forall in Hd. rewrite <- (Hd _ Hin). exact I. }
    split; [exact Hcalm|].
    destruct lost as [rq|]; cbn [option_list map] in *.
    - apply Forall_inv in Hok2 as [Hrq _].
      assert (Hids2 : forall op vs id, (op, vs) ∈ cs -> VRet (RCreated id) ∈ vs -> id < 2 ^ 128) by (intros op vs id Hin; eapply Hids, elem_of_app; right; exact Hin).
      split.
      + exists Q. apply survives_app. exists Q1. split; [exact Hsv|]. apply survives_one. constructor. eapply lost_finished; eauto.
      + intros S' HC. destruct (lost_crash rq cs pend Q1 Q z S' Hrq Hids2 Hcut Hc2 Hcalm Hst HC) as (Q' & H1 & H2).
        exists Q'. split; [|exact H2]. rewrite <- app_assoc. apply survives_app. exists Q1. split; [exact Hsv|exact H1].
    - destruct Hcut as [-> ->]. apply chain_nil_inv in Hc2 as ->. rewrite app_nil_r. split; [eauto|].
      intros S' HC. destruct Hst as [Hd HQ]. destruct (crash_same_quiet _ _ _ (same_like _ _ HQ) HC) as (ids & H1 & H2).
      { intros key size. apply done_no_create, Hd. }
      eexists. split; [|exact H1]. apply survives_app. exists Q1. split; [exact Hsv|]. apply survives_one. constructor. exact H2.
  Qed.

  (** One session on a partition. *)
  Lemma session_system c y0 S0 Q0 h lost y : cfg_ok c -> sv_lpage s = dc_lpage c ->
    Alive c y0 {| z_state := S0; z_procs := [] |} [] -> y_procs y0 = [] -> Same S0 Q0 -> served s c y0 h lost y ->
    Forall (event_ok s) (session_events h lost) ->
    exists z lk, Alive c y z lk /\ calm z /\ (exists Q, survives_all s Q0 (session_events h lost) Q) /\
      forall S', clean_crash z S' -> exists Q', survives_all s Q0 (session_events h lost ++ [Killed]) Q' /\ Same S' Q'.
  Proof using mac_len mac_byte.
    intros Hc Hlp HA H0 HS [ls css cs pend Hd HF Ho1 Hcut Ho2 Hnp Hpend HL] Hok.
    pose proof (ck_lpage _ Hc) as Hlt. rewrite <- Hlp in Hlt.
    unfold session_events in Hok. pose proof Hok as Hok'. apply Forall_app in Hok' as [Hok1 Hok2].
    assert (Hok1' : Forall (fun x => request_ok s (fst x) /\ Forall is_byte (rq_path (fst x)) /\ snd x <> Aborted) h).
    { rewrite Forall_forall. intros [rq r] Hin. rewrite Forall_forall in Hok1. apply (Hok1 (Answered rq r)).
      apply elem_of_list_In, in_map_iff. exists (rq, r). split; [reflexivity|]. now apply elem_of_list_In. }
    assert (Hfine1 : Forall (fun c => fine_op (sv_lpage s) (fst c)) (concat css) /\ forall op vs, (op, vs) ∈ concat css -> VRet RPanicked ∉ vs).
    { clear -HF Hok1' Hlt. induction HF as [|[rq r] cs h css Hr HF IH]; [split; [constructor|]; intros op vs Hin; apply elem_of_nil in Hin; contradiction|].
      apply Forall_cons_1 in Hok1' as [(A1 & A2 & A3) Hok]. cbn [fst snd] in *. destruct (IH Hok) as [I1 I2]. cbn [concat]. split.
      - apply Forall_app. split; [|exact I1]. eapply makes_runs; [apply (handle_makes s); [exact Hlt|exact A1|exact A2]|exact Hr].
      - intros op vs Hin. apply elem_of_app in Hin as [Hin|Hin]; [|eauto]. eapply fails_runs; [apply handle_fails|exact Hr|exact A3|exact Hin]. }
    destruct Hfine1 as [Hfine1 Hnp1].
    assert (Hfine2 : Forall (fun c => fine_op (sv_lpage s) (fst c)) (cs ++ option_list pend)).
    { destruct lost as [rq|]; cbn [option_list map] in *.
      - apply Forall_inv in Hok2 as [A1 A2]. eapply makes_cut; [apply (handle_makes s); [exact Hlt|exact A1|exact A2]|exact Hcut].
      - destruct Hcut as [-> ->]. constructor. }
    pose proof (proj2 (Forall_app _ _ _) (conj Hfine1 Hfine2)) as Hfine. cbn beta in Hfine.
    assert (Hcall : forall i op, LCall i op ∈ ls -> fine_op (sv_lpage s) op).
    { intros i op Hin. assert (LCall i op ∈ visible ls) as Hin' by (apply visible_elem; auto). rewrite HL in Hin'.
      apply call_labels_call in Hin' as (_ & vs & Hl). apply elem_of_list_lookup_2 in Hl. rewrite Forall_forall in Hfine. apply (Hfine _ Hl). }
    edestruct (fun A B C => alive_steps c y0 ls y _ Hc A B C HA Hd) as (ls' & z & lk & T1 & T2 & T3 & _).
    { intros i op Hin. rewrite <- Hlp. apply (Hcall _ _ Hin). }
    { intros i key size Hin. apply (Hcall _ _ Hin). }
    { intros i Hin. assert (LVis i (VRet RPanicked) ∈ visible ls) as Hin' by (apply visible_elem; auto). rewrite HL in Hin'.
      apply call_labels_vis_inv in Hin' as (op & vs & Hin1 & Hin2). apply elem_of_app in Hin1 as [Hin1|Hin1]; [exact (Hnp1 _ _ Hin1 Hin2)|].
      apply elem_of_app in Hin1 as [Hin1|Hin1]; [exact (Hnp _ _ Hin1 Hin2)|].
      destruct pend as [[op' vs']|]; cbn [option_list] in Hin1; [|apply elem_of_nil in Hin1; contradiction].
      apply elem_of_list_singleton in Hin1. injection Hin1 as -> ->. destruct (Hpend _ _ eq_refl) as [_ Hf]. rewrite Forall_forall in Hf.
      specialize (Hf _ Hin2). discriminate Hf. }
    exists z, lk. split; [exact T3|]. rewrite <- Hlp in T1.
    eapply session_spec; [exact HS|exact T1|rewrite T2; exact HL| |exact HF|exact Ho1|exact Hcut|exact Ho2|exact Hpend|exact Hok].
    intros op vs id Hin Hv.
    destruct (call_labels_vis 0 (concat css ++ cs ++ option_list pend) op vs _ ltac:(rewrite app_assoc; apply elem_of_app; left; exact Hin) Hv) as [i Hi].
    rewrite <- HL in Hi. apply visible_elem in Hi as [Hi _]. exact (created_bound _ _ _ _ Hd H0 _ _ Hi).
  Qed.

  Theorem lives_survives c pages es y : cfg_ok c -> server_lives s c pages es y -> Forall (event_ok s) es ->
    sv_lpage s = dc_lpage c /\ alloc_ok c /\ exists z lk, Alive c y z lk /\ calm z /\ (exists Q, survives_all s q_empty es Q) /\
      forall S', clean_crash z S' -> exists Q', survives_all s q_empty (es ++ [Killed]) Q' /\ Same S' Q'.
  Proof using mac_len mac_byte.
    intros Hc H. induction H as [y0 h lost y HF Hlp Hsv|es y1 y2 h lost y3 Hl IH Hex Hre Hsv]; intros Hok.
    - split; [exact Hlp|]. split; [exists (h_alloc (y_sh y0)); exact (fp_alloc _ _ _ HF)|].
      eapply session_system; [exact Hc|exact Hlp|eapply fresh_alive; [apply Hc|exact HF]|apply (fp_procs _ _ _ HF)|apply same_empty|exact Hsv|exact Hok].
    - apply Forall_app in Hok as [Hok1 Hok2]. apply Forall_cons_1 in Hok2 as [_ Hok2].
      destruct (IH Hok1) as (Hlp & Hal & z & lk & HA & Hcalm & _ & Hcr). split; [exact Hlp|]. split; [exact Hal|].
      destruct Hre as (init & t & order & Hld & Hop).
      destruct (restart_alive c y1 z lk init t order Hc HA Hex Hal Hld) as (y2' & S2 & lk2 & R1 & R2 & _ & _ & R5 & _).
      assert (y2' = y2) as -> by congruence.
      pose proof (R5 (fun id => calm_removing z id Hcalm)) as HA2.
      destruct (Hcr S2 (proj2 R2 Hcalm)) as (Q2 & G1 & G2).
      assert (y_procs y2 = []) as H0.
      { apply opening_procs in Hop. exact Hop. }
      destruct (session_system c y2 S2 Q2 h lost y3 Hc Hlp HA2 H0 G2 Hsv Hok2) as (z' & lk' & K1 & K2 & (Q & K3) & K4).
      exists z', lk'. split; [exact K1|]. split; [exact K2|]. 
      replace (es ++ Killed :: session_events h lost) with ((es ++ [Killed]) ++ session_events h lost) by (rewrite <- app_assoc; reflexivity).
      split.
      + exists Q. apply survives_app. eauto.
      + intros S' HC. destruct (K4 S' HC) as (Q' & L1 & L2). exists Q'. split; [|exact L2]. rewrite <- app_assoc. apply survives_app. eauto.
  Qed.
End Session.

(** ** Histories of events *)
Lemma survives_cons s Q e es Q' : survives_all s Q (e :: es) Q' -> exists Q1, survives s Q e Q1 /\ survives_all s Q1 es Q'.
Proof. intros H. inversion H; subst. eauto. Qed.
Lemma survives_answered s Q rq r Q' : survives s Q (Answered rq r) Q' -> serves s Q rq r Q'.
Proof. intros H. inversion H; subst. assumption. Qed.
Lemma answered_app es1 es2 : answered (es1 ++ es2) = answered es1 ++ answered es2.
Proof. unfold answered. apply omap_app. Qed.
Definition ev_makes (e : event) (rq : request) : Prop := match e with Answered rq' _ => rq' = rq | Lost rq' => rq' = rq | Killed => False end.
Lemma made_elem es rq : made es rq <-> exists e, e ∈ es /\ ev_makes e rq.
Proof.
  unfold made. split.
  - intros [H|[r H]]; eexists; (split; [exact H|reflexivity]).
  - intros ([rq' r|rq'|] & H & E); cbn [ev_makes] in E; [subst; right; eauto|subst; left; exact H|contradiction].
Qed.

Section Events.
  Variable s : server.
  Hypothesis Hmac : is_mac (sv_mac s).

  Lemma up_step_ev Q e Q' id : survives s Q e Q' -> id ∈ q_ids Q ->
    id ∈ q_ids Q' /\
    (q_up Q' !! id = None \/ exists u u', q_up Q !! id = Some u /\ q_up Q' !! id = Some u' /\ qu_key u' = qu_key u /\ qu_size u' = qu_size u /\
       forall o, (forall rq tok len body, ev_makes e rq -> rq_method rq = HPatch tok o len body -> upload_of s tok <> Some (Itoken id 0)) -> qu_parts u' o = qu_parts u o).
  Proof using Hmac.
    intros H Hid.
    assert (Hstep : forall rq r Q', ev_makes e rq -> serves s Q rq r Q' -> id ∈ q_ids Q' /\
      (q_up Q' !! id = None \/ exists u u', q_up Q !! id = Some u /\ q_up Q' !! id = Some u' /\ qu_key u' = qu_key u /\ qu_size u' = qu_size u /\
       forall o, (forall rq tok len body, ev_makes e rq -> rq_method rq = HPatch tok o len body -> upload_of s tok <> Some (Itoken id 0)) -> qu_parts u' o = qu_parts u o)).
    { intros rq r Q0 He Hs. destruct (up_step s Hmac _ _ _ _ id Hs Hid) as [K1 K2]. split; [exact K1|].
      destruct K2 as [K2|(u & u' & A1 & A2 & A3 & A4 & A5)]; [auto|right]. exists u, u'. do 4 (split; [assumption|]). intros o Ho. apply A5. eauto. }
    assert (Hsame : forall Q', id ∈ q_ids Q' -> q_up Q' !! id = q_up Q !! id -> id ∈ q_ids Q' /\
      (q_up Q' !! id = None \/ exists u u', q_up Q !! id = Some u /\ q_up Q' !! id = Some u' /\ qu_key u' = qu_key u /\ qu_size u' = qu_size u /\
       forall o, (forall rq tok len body, ev_makes e rq -> rq_method rq = HPatch tok o len body -> upload_of s tok <> Some (Itoken id 0)) -> qu_parts u' o = qu_parts u o)).
    { intros Q0 H1 H2. split; [exact H1|]. rewrite H2. destruct (q_up Q !! id) as [u|]; [right; exists u, u; auto 8|auto]. }
    destruct H as [rq r Q' H|rq Q' H|ids H].
    - eapply Hstep; [reflexivity|exact H].
    - destruct H as [|r Q' H|key size Q' _ _ _ [K1 K2] _|key tok offset len body id' size u d Hn Hp Em Hnm Hu _ _|size body Q1 Q' Hn Hp Em Hb Hq [K1 K2]].
      + apply Hsame; [exact Hid|reflexivity].
      + eapply Hstep; [reflexivity|exact H].
      + apply Hsame; [apply K1, Hid|apply K2, Hid].
      + split; [exact Hid|]. cbn [q_part q_up]. destruct (decide (id = id')) as [->|Hne].
        * right. rewrite Hu, lookup_insert. eexists _, _. split; [reflexivity|]. split; [reflexivity|]. cbn [qu_key qu_size qu_parts].
          split; [reflexivity|]. split; [reflexivity|]. intros o Ho. apply fn_lookup_insert_ne. intros <-.
          apply (Ho rq _ _ _ eq_refl Em). unfold upload_of. rewrite Hnm. reflexivity.
        * rewrite lookup_insert_ne by congruence. apply (Hsame Q Hid eq_refl).
      + destruct (batch_keeps _ _ _ _ Hb) as [J1 J2]. apply Hsame; [apply K1, J1, Hid|]. rewrite K2 by (apply J1, Hid). apply J2, Hid.
    - apply Hsame; [apply H, Hid|reflexivity].
  Qed.
  Lemma up_all_ev Q es Q' id : survives_all s Q es Q' -> id ∈ q_ids Q ->
    id ∈ q_ids Q' /\
    (q_up Q' !! id = None \/ exists u u', q_up Q !! id = Some u /\ q_up Q' !! id = Some u' /\ qu_key u' = qu_key u /\ qu_size u' = qu_size u /\
       forall o, (forall rq tok len body, made es rq -> rq_method rq = HPatch tok o len body -> upload_of s tok <> Some (Itoken id 0)) -> qu_parts u' o = qu_parts u o).
  Proof using Hmac.
    revert Q. induction es as [|e es IH]; intros Q H Hid.
    - inversion H; subst. split; [exact Hid|]. destruct (q_up Q' !! id) as [u|]; [right; exists u, u; auto 8|auto].
    - apply survives_cons in H as (Q1 & H1 & H2). destruct (up_step_ev _ _ _ _ H1 Hid) as [K1 K2].
      destruct (IH Q1 H2 K1) as [J1 J2]. split; [exact J1|].
      destruct J2 as [J2|(u1 & u2 & J2 & J3 & J4 & J5 & J6)]; [left; exact J2|].
      destruct K2 as [K2|(u & u1' & K2 & K3 & K4 & K5 & K6)]; [congruence|].
      rewrite K3 in J2. injection J2 as <-. right. exists u, u2. split; [exact K2|]. split; [exact J3|].
      split; [congruence|]. split; [congruence|]. intros o Ho. rewrite J6, K6; [reflexivity| |].
      + intros rq tok len body He Em. eapply Ho; [apply made_elem; exists e; split; [left|exact He]|exact Em].
      + intros rq tok len body Hm Em. eapply Ho; [|exact Em]. apply made_elem in Hm as (e' & Hin & He'). apply made_elem. exists e'. split; [right; exact Hin|exact He'].
  Qed.

  Lemma known_step_ev es Q e Q' : event_ok s e -> known s (answered es) Q -> survives s Q e Q' -> known s (answered (es ++ [e])) Q'.
  Proof using Hmac.
    intros Hok HK H. rewrite answered_app.
    assert (Hold : answered [e] = [] -> known s (answered es ++ answered [e]) Q').
    { intros ->. rewrite app_nil_r. intros tok key size Hu. destruct (HK _ _ _ Hu) as (id & H1 & H2 & H3).
      exists id. destruct (up_step_ev _ _ _ id H H2) as [K1 K2]. split; [exact H1|]. split; [exact K1|].
      intros u Hu'. destruct K2 as [K2|(u0 & u' & K2 & K3 & K4 & K5 & _)]; [congruence|]. rewrite K3 in Hu'. injection Hu' as <-.
      rewrite K4, K5. apply H3, K2. }
    destruct e as [rq r|rq|]; [|apply Hold; reflexivity..].
    inversion H; subst. cbn. eapply known_step; [exact Hmac|apply Hok|exact HK|eassumption].
  Qed.
  Lemma known_all_ev es Q es' Q' : Forall (event_ok s) es' -> known s (answered es) Q -> survives_all s Q es' Q' -> known s (answered (es ++ es')) Q'.
  Proof using Hmac.
    revert es Q. induction es' as [|e es' IH]; intros es Q Hok HK H.
    - inversion H; subst. rewrite app_nil_r. exact HK.
    - apply survives_cons in H as (Q1 & H1 & H2). apply Forall_cons_1 in Hok as [Hok1 Hok].
      replace (es ++ e :: es') with ((es ++ [e]) ++ es') by (rewrite <- app_assoc; reflexivity).
      eapply IH; [exact Hok| |exact H2]. eapply known_step_ev; eassumption.
  Qed.

  Lemma com_step_ev es Q e Q' key : known s (answered es) Q -> survives s Q e Q' ->
    match e with Answered rq r => untouched (answered es) key rq r | Lost rq => untouched_lost (answered es) key rq | Killed => True end ->
    q_com Q' !! key = q_com Q !! key.
  Proof using.
    intros HK H U. destruct H as [rq r Q' H|rq Q' H|ids H].
    - eapply com_step; eassumption.
    - destruct U as (U1 & U2 & U3). destruct H as [|r Q' H|key' size Q' _ _ Hq _ _|key' tok offset len body id' size u d Hn Hp Em Hnm Hu _ _|size body Q1 Q' Hn Hp Em Hb Hq _].
      + reflexivity.
      + eapply com_step; [exact HK|exact H|]. split; [intros E; contradiction|]. split; [intros tok rcp E _; eapply U2, E|exact U3].
      + rewrite Hq. reflexivity.
      + reflexivity.
      + rewrite Hq. apply batch_frames in Hb as (es' & tail & B1 & B2 & _ & B3 & _). apply B3. eapply U3; eassumption.
    - reflexivity.
  Qed.
  Lemma com_all_ev es Q es' Q' key : Forall (event_ok s) es' -> known s (answered es) Q -> survives_all s Q es' Q' -> leaves_alone_ev es key es' ->
    q_com Q' !! key = q_com Q !! key.
  Proof using Hmac.
    revert es Q. induction es' as [|e es' IH]; intros es Q Hok HK H HL.
    - inversion H; subst. reflexivity.
    - apply survives_cons in H as (Q1 & H1 & H2). apply Forall_cons_1 in Hok as [Hok1 Hok].
      rewrite (IH (es ++ [e]) Q1).
      + eapply com_step_ev; [exact HK|exact H1|]. specialize (HL [] e es' eq_refl). rewrite app_nil_r in HL. exact HL.
      + exact Hok.
      + eapply known_step_ev; eassumption.
      + exact H2.
      + intros h1 e' h2 ->. specialize (HL (e :: h1) e' h2 eq_refl). rewrite <- app_assoc. exact HL.
  Qed.
  Lemma part_kept_ev Q es Q' tok id size offset bytes u : survives_all s Q es Q' -> names s tok id size -> id ∈ q_ids Q ->
    last_kept s es tok offset bytes -> q_up Q' !! id = Some u -> qu_parts u offset = Some bytes.
  Proof using Hmac.
    intros H Hn Hid (h1 & rq & receipt & h2 & len & body & -> & Em & <- & Hlast) Hu.
    apply survives_app in H as (Q1 & H1 & H2). apply survives_cons in H2 as (Q2 & H2 & H3). inversion H2; subst.
    match goal with HS : serves _ _ _ _ _ |- _ => destruct (receipt_step s _ _ _ _ _ _ _ _ _ _ HS Em Hn) as (u1 & Hu1 & ->) end.
    destruct (up_all_ev _ _ _ _ H1 Hid) as [Hid1 _].
    destruct (up_all_ev _ _ _ id H3 ltac:(exact Hid1)) as [_ [K|(u0 & u' & K1 & K2 & _ & _ & K3)]]; [congruence|].
    rewrite Hu in K2. injection K2 as <-. cbn [q_part q_up] in K1. rewrite lookup_insert in K1. injection K1 as <-.
    rewrite K3; [cbn [qu_parts]; apply fn_lookup_insert|].
    intros rq' tok' len' body' Hin Em'. pose proof (Hlast _ _ _ _ Hin Em') as Hne. intros E. apply Hne. rewrite E. unfold upload_of. rewrite Hn. reflexivity.
  Qed.

  Theorem uploaded_survives pre create tok mid commit receipts post lastrq r key data Q :
    let before := pre ++ [Answered create (RespUpload 202 tok)] ++ mid ++ [Answered commit (Resp 201)] in
    Forall (event_ok s) (before ++ post ++ [Answered lastrq r]) ->
    survives_all s q_empty (before ++ post ++ [Answered lastrq r]) Q ->
    needs create = Some (CreateObject key (N.of_nat (length data))) -> rq_method commit = HPut tok receipts ->
    (forall i, i * 2 ^ sv_lpage s < N.of_nat (length data) ->
       last_kept s mid tok (i * 2 ^ sv_lpage s) (take (N.to_nat (2 ^ sv_lpage s)) (drop (N.to_nat (i * 2 ^ sv_lpage s)) data))) ->
    leaves_alone_ev before key post -> answers_with s key data lastrq r.
  Proof using Hmac.
    intros before Hok H Hn Em Hparts HL.
    apply Forall_app in Hok as [Hok1 Hok2]. apply Forall_app in Hok2 as [Hok2 _].
    apply survives_app in H as (Q4 & H & Hrest).
    pose proof (known_all_ev [] q_empty before Q4 Hok1 (known_empty s) H) as HK4. cbn [app] in HK4.
    unfold before in H, Hok1.
    rewrite !Forall_app in Hok1. destruct Hok1 as (Ok1 & Ok2 & Ok3 & _).
    apply survives_app in H as (Q0 & Hpre & H). apply survives_app in H as (Q1 & Hcreate & H). apply survives_app in H as (Q2 & Hmid & H).
    pose proof (known_all_ev [] q_empty pre Q0 Ok1 (known_empty s) Hpre) as HK0. cbn [app] in HK0.
    pose proof (known_all_ev _ _ _ _ Ok2 HK0 Hcreate) as HK1.
    destruct (HK1 tok key (N.of_nat (length data))) as (id & N1 & N2 & N3).
    { exists create. split; [|exact Hn]. rewrite answered_app. apply elem_of_app. right. left. }
    apply survives_cons in H as (Q3 & Hcommit & Hnil). inversion Hnil; subst. clear Hnil.
    (* the commit *)
    assert (exists o, q_com Q4 !! key = Some o /\ content o = data) as (o & Ho1 & Ho2).
    { inversion Hcommit as [? ? ? Hcm| |]; subst. inversion Hcm; subst; try congruence;
        try (match goal with E : match ?x with _ => _ end = _ |- _ => destruct x; discriminate E end);
        try (exfalso; unfold needs in *; rewrite Em in *; repeat case_match; discriminate);
        try (exfalso; match goal with E : _ \/ _ |- _ => destruct E as [[? _]|[? _]]; discriminate end).
      match goal with E : rq_method commit = _ |- _ => rewrite Em in E; injection E as <- <- end.
      match goal with N0 : names s tok id0 _ |- _ => unfold names in *; rewrite N1 in N0; injection N0 as <- <- end.
      match goal with Hu0 : q_up Q2 !! id = Some _ |- _ => rename Hu0 into Hu end.
      destruct (up_all_ev _ _ _ _ Hmid N2) as [_ [K|(u0 & u' & K1 & K2 & K3 & K4 & _)]]; [congruence|].
      rewrite Hu in K2. injection K2 as <-. destruct (N3 _ K1) as [E1 E2]. rewrite E1 in K3. rewrite E2 in K4.
      cbn [q_publish q_com]. rewrite K3, lookup_insert. eexists. split; [reflexivity|].
      apply content_of; cbn [co_size co_bytes]; [congruence|].
      apply (written_content s u); [exact K4| |assumption].
      intros i Hi. eapply part_kept_ev; [exact Hmid|exact N1|exact N2|apply Hparts, Hi|exact Hu]. }
    (* afterwards *)
    apply survives_app in Hrest as (Q5 & Hpost & Hlast). apply survives_cons in Hlast as (Q6 & Hlast & _).
    apply survives_answered in Hlast. eapply last_answer; [exact Hlast| |exact Ho2].
    rewrite (com_all_ev before Q4 post Q5 key Hok2 HK4 Hpost HL). exact Ho1.
  Qed.

  Theorem batch_survives pre batch size body n post lastrq r Q :
    let before := pre ++ [Answered batch (RespCount 200 n)] in
    Forall (event_ok s) (before ++ post ++ [Answered lastrq r]) ->
    survives_all s q_empty (before ++ post ++ [Answered lastrq r]) Q ->
    needs batch = Some BatchCreateObjects -> permitted s batch BatchCreateObjects -> rq_method batch = HPost size body ->
    exists es tail, Forall valid_entry es /\ concat body = concat (map entry_bytes es) ++ tail /\ n = N.of_nat (length es) /\
      (forall e tail', valid_entry e -> tail <> entry_bytes e ++ tail') /\
      forall e1 key data e2, es = e1 ++ (key, data) :: e2 -> key ∉ map fst e2 -> leaves_alone_ev before key post -> answers_with s key data lastrq r.
  Proof using Hmac.
    intros before Hok H Hn Hp Em.
    apply Forall_app in Hok as [Hok1 Hok2]. apply Forall_app in Hok2 as [Hok2 _].
    apply survives_app in H as (Q4 & H & Hrest).
    pose proof (known_all_ev [] q_empty before Q4 Hok1 (known_empty s) H) as HK4. cbn [app] in HK4.
    unfold before in H. apply survives_app in H as (Q0 & Hpre & H). apply survives_cons in H as (Q3 & Hb & Hnil). inversion Hnil; subst. clear Hnil.
    apply survives_app in Hrest as (Q5 & Hpost & Hlast). apply survives_cons in Hlast as (Q6 & Hlast & _).
    apply survives_answered in Hlast as Hlast'. apply survives_answered in Hb as Hb'.
    assert (batch_stores Q0 (concat body) (Some n) Q4) as Hbs.
    { inversion Hb'; subst; try congruence.
      match goal with E : rq_method batch = HPost _ _ |- _ => rewrite Em in E; injection E as <- <- end.
      match goal with E : match ?x with _ => _ end = _ |- _ => destruct x; [|discriminate E]; injection E as -> end. assumption. }
    apply batch_frames in Hbs as (es & tail & B1 & B2 & B3 & _ & B5). exists es, tail. split; [exact B1|]. split; [exact B2|].
    destruct B3 as [B3|[B3 B4]]; [discriminate B3|]. injection B3 as ->. split; [reflexivity|]. split; [exact B4|].
    intros e1 key data e2 E Hk HL. destruct (B5 _ _ _ _ E Hk) as (o & Ho1 & Ho2).
    eapply last_answer; [exact Hlast'| |exact Ho2]. rewrite (com_all_ev before Q4 post Q5 key Hok2 HK4 Hpost HL). exact Ho1.
  Qed.
End Events.
