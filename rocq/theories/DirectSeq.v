(** Calls made one after another follow the sequential specification. *)
From Coq Require Import ZifyBool ZifyNat ZifyN.
From stdpp Require Import base numbers list_numbers option gmap sets functions list.
From Verif Require Import Util PageIOModel PageIOSpec DirectModel DirectSpec DirectSys DirectSeqSpec.
Open Scope N_scope.
Ltac Zify.zify_post_hook ::= idtac.

Definition quiet (d : option (list N)) : part := {| pt_writers := 0; pt_clean := false; pt_data := d |}.
Definition up_same (u : upload) (q : qupload) : Prop :=
  up_key u = qu_key q /\ up_size u = qu_size q /\ up_created u = qu_created q /\ up_open u = true /\
  forall off, up_parts u off = quiet (qu_parts q off).
Record Same (S : sstate) (Q : qstate) : Prop := {
  sm_up : forall tok, match ss_up S !! tok, q_up Q !! tok with
    | Some u, Some q => up_same u q | None, None => True | _, _ => False end;
  sm_com : ss_com S = q_com Q;
  sm_ids : ss_ids S = q_ids Q;
  sm_old : forall key co, q_com Q !! key = Some co -> co_id co ∈ q_ids Q;
}.

Lemma same_some S Q tok u : Same S Q -> ss_up S !! tok = Some u -> exists q, q_up Q !! tok = Some q /\ up_same u q.
Proof. intros H E. pose proof (sm_up _ _ H tok) as H1. rewrite E in H1. destruct (q_up Q !! tok); [eauto|contradiction]. Qed.
Lemma same_some_r S Q tok q : Same S Q -> q_up Q !! tok = Some q -> exists u, ss_up S !! tok = Some u /\ up_same u q.
Proof. intros H E. pose proof (sm_up _ _ H tok) as H1. rewrite E in H1. destruct (ss_up S !! tok); [eauto|contradiction]. Qed.
Lemma same_not_open S Q tok : Same S Q -> not_open S tok -> q_up Q !! tok = None.
Proof.
  intros H Hn. destruct (q_up Q !! tok) as [q|] eqn:E; [|reflexivity]. exfalso.
  destruct (same_some_r _ _ _ _ H E) as (u & Eu & Hu). apply (Hn u). split; [exact Eu|apply Hu].
Qed.
Lemma same_find S Q key id co : Same S Q -> sfind S key id co <-> q_find Q key id co.
Proof. intros H. unfold sfind, q_find. now rewrite (sm_com _ _ H). Qed.

(** A whole write of one part. *)
Lemma same_part S Q tok q off f d : Same S Q -> q_up Q !! tok = Some q ->
  f (part_start (quiet (qu_parts q off))) = quiet d -> Same (on_part (on_part S tok off part_start) tok off f) (q_part Q tok q off d).
Proof.
  intros H Eq Hf. destruct (same_some_r _ _ _ _ H Eq) as (u & Eu & Hu & Hs & Hc & Ho & Hp). destruct H as [H1 H2 H3 H4].
  constructor; try assumption.
  intros tok'. cbn [on_part set_up q_part ss_up q_up]. destruct (decide (tok' = tok)) as [->|Hne].
  - rewrite lookup_insert, !lookup_alter, Eu. cbn [fmap option_fmap option_map].
    unfold up_same, set_part, set_parts. cbn [up_key up_size up_created up_open up_parts qu_key qu_size qu_created qu_parts].
    repeat (split; [assumption|]). intros off'. destruct (decide (off' = off)) as [->|Hno].
    + rewrite !fn_lookup_insert, Hp. exact Hf.
    + rewrite !fn_lookup_insert_ne by congruence. apply Hp.
  - rewrite lookup_insert_ne, !lookup_alter_ne by congruence. apply H1.
Qed.

(** ** A call under way *)
Inductive mid (lpage : N) (Q : qstate) : dop -> list vis -> sproc -> sstate -> Prop :=
| mid_call op S : Same S Q -> mid lpage Q op [] (SCall op) S
| mid_writing tok off len st u S0 : Same S0 Q -> q_up Q !! tok = Some u -> valid_part lpage (qu_size u) off len ->
    mid lpage Q (OWrite tok off len st) [] (SWriting tok off len st) (on_part S0 tok off part_start)
| mid_wrote tok off len st u S : q_up Q !! tok = Some u -> valid_part lpage (qu_size u) off len ->
    no_fail st -> N.of_nat (length (stream_bytes st)) = len -> Same S (q_part Q tok u off (Some (stream_bytes st))) ->
    mid lpage Q (OWrite tok off len st) [] (SWrote st) S
| mid_committing tok ine u S0 us : Same S0 Q -> q_up Q !! tok = Some u -> ss_up S0 !! tok = Some us ->
    mid lpage Q (OCommit tok ine) [] (SCommitting tok ine) (set_up S0 (<[tok := closed us]> (ss_up S0)))
| mid_published tok ine u id bytes old S : q_up Q !! tok = Some u -> (ine = true -> q_com Q !! qu_key u = None) -> id ∉ q_ids Q -> has_written u bytes ->
    Same S (q_publish Q tok u id bytes) -> old = co_id <$> q_com Q !! qu_key u -> old <> Some id ->
    mid lpage Q (OCommit tok ine) [] (SPublished tok id old) S
| mid_discarded tok u co S : q_up Q !! tok = Some u -> q_com Q !! qu_key u = Some co -> Same S (q_drop Q tok) -> mid lpage Q (OCommit tok true) [] SDiscarded S
| mid_deleted key oid co S : q_find Q key oid co -> Same S (q_remove Q key) -> mid lpage Q (ODelete key oid) [] (SDeleted (co_id co)) S
| mid_reading key oid start fin buffer co pos chunks S : Same S Q -> q_find Q key oid co ->
    start <= default (co_size co) fin <= co_size co -> start <= pos <= default (co_size co) fin ->
    concat chunks = byte_range (co_bytes co) start pos ->
    mid lpage Q (ORead key oid start fin buffer)
      (VRet (RReading (co_id co) (co_size co) start (default (co_size co) fin)) :: map VChunk chunks)
      (SReading key (co_id co) pos (default (co_size co) fin) buffer) S.

Lemma byte_range_length f a b : length (byte_range f a b) = N.to_nat (b - a).
Proof. unfold byte_range. now rewrite fmap_length, seq_length. Qed.
Lemma byte_range_lookup f a b i : (i < N.to_nat (b - a))%nat -> byte_range f a b !! i = Some (f (a + N.of_nat i)).
Proof. intros H. unfold byte_range. rewrite list_lookup_fmap, lookup_seq_lt by exact H. reflexivity. Qed.
Lemma byte_range_app f a b (data : list N) : a <= b -> (forall i x, data !! i = Some x -> f (b + N.of_nat i) = x) ->
  byte_range f a b ++ data = byte_range f a (b + N.of_nat (length data)).
Proof.
  intros Hab Hd. apply list_eq. intros i. destruct (decide (i < N.to_nat (b - a))%nat) as [Hi|Hi].
  - rewrite lookup_app_l by (rewrite byte_range_length; exact Hi). rewrite !byte_range_lookup by lia. reflexivity.
  - rewrite lookup_app_r by (rewrite byte_range_length; lia). rewrite byte_range_length.
    destruct (data !! (i - N.to_nat (b - a))%nat) as [x|] eqn:E.
    + pose proof (lookup_lt_Some _ _ _ E). rewrite byte_range_lookup by lia. rewrite <- (Hd _ _ E). do 2 f_equal. lia.
    + apply lookup_ge_None in E. symmetry. apply lookup_ge_None. rewrite byte_range_length. lia.
Qed.

Ltac opn Eu Ho := match goal with H : is_open _ _ _ |- _ => destruct H as [Eu Ho] end.
Ltac nf HS := let co := fresh in let Hc := fresh in intros co Hc; apply (same_find _ _ _ _ _ HS) in Hc;
  match goal with H : forall co, ~ sfind _ _ _ co |- _ => eapply H, Hc end.

(** One step of the call under way: it goes on or has answered. *)
Lemma mid_step lpage Q op vs s S n S' s' v :
  mid lpage Q op vs s S -> sstep lpage S (replicate n SDone ++ [s]) s S' s' v ->
  let vs' := vs ++ match v with Some v => [v] | None => [] end in
  (s' <> SDone /\ Forall (fun v => is_final v = false) (match v with Some v => [v] | None => [] end) /\ mid lpage Q op vs' s' S') \/
  (s' = SDone /\ exists Q', answers lpage Q op vs' Q' /\ Same S' Q').
Proof.
  intros HM St. destruct HM as [op S HS|tok off len st u S0 HS Hu Hv|tok off len st u S Hu Hv Hnf Hlen HS|tok ine u S0 us HS Hu Hus|tok ine u id bytes old S Hu Hine Hid Hby HS Hold Hne|tok u co S Hu Hco HS|key oid co S Hf HS|key oid start fin buffer co pos chunks S HS Hf Hr Hpos Hch];
    inversion St; subst; cbn [app].
  (* SCall *)
  - right. split; [reflexivity|]. eexists. split; [apply an_create with (created := created); rewrite <- (sm_ids _ _ HS); assumption|].
    destruct HS as [H1 H2 H3 H4]. constructor.
    + intros tok'. cbn. destruct (decide (tok' = tok)) as [->|Hne].
      * rewrite !lookup_insert. unfold up_same, new_upload. cbn. repeat (split; [reflexivity|]). reflexivity.
      * rewrite !lookup_insert_ne by congruence. apply H1.
    + exact H2.
    + cbn. now rewrite H3.
    + cbn. intros key0 co0 E. apply elem_of_union. right. eapply H4, E.
  - right. split; [reflexivity|]. eexists. split; [constructor|exact HS].
  - right. split; [reflexivity|]. eexists. split; [constructor; eapply same_not_open; eassumption|exact HS].
  - right. split; [reflexivity|]. opn Eu Ho. destruct (same_some _ _ _ _ HS Eu) as (q & Eq & A1 & A2 & A3).
    eexists. split; [eapply an_write_bad; [exact Eq|]|exact HS]. rewrite <- A2. assumption.
  - left. split; [discriminate|]. split; [constructor|]. opn Eu Ho. destruct (same_some _ _ _ _ HS Eu) as (q & Eq & A1 & A2 & A3).
    eapply mid_writing; [exact HS|exact Eq|]. rewrite <- A2. assumption.
  - right. split; [reflexivity|]. eexists. split; [constructor; eapply same_not_open; eassumption|exact HS].
  - left. split; [discriminate|]. split; [constructor|]. opn Eu Ho. destruct (same_some _ _ _ _ HS Eu) as (q & Eq & A).
    eapply mid_committing; eassumption.
  - right. split; [reflexivity|]. eexists. split; [constructor|exact HS]. nf HS.
  - left. split; [discriminate|]. split; [constructor|]. eapply mid_deleted; [apply (same_find _ _ _ _ _ HS); eassumption|].
    destruct HS as [H1 H2 H3 H4]. constructor; [exact H1|cbn; now rewrite H2|exact H3|]. cbn. intros k co0 E.
    apply lookup_delete_Some in E as [_ E]. eapply H4, E.
  - right. split; [reflexivity|]. eexists. split; [constructor|exact HS]. nf HS.
  - right. split; [reflexivity|]. eexists. split; [eapply an_inspect, (same_find _ _ _ _ _ HS); eassumption|exact HS].
  - right. split; [reflexivity|]. eexists. split; [constructor|exact HS]. nf HS.
  - right. split; [reflexivity|]. eexists. split; [eapply an_read_range; [apply (same_find _ _ _ _ _ HS); eassumption|assumption]|exact HS].
  - left. split; [discriminate|]. split; [repeat constructor|].
    apply (mid_reading lpage Q key id start fin buffer co start [] S' HS); [apply (same_find _ _ _ _ _ HS); eassumption|assumption|lia|].
    unfold byte_range. rewrite N.sub_diag. reflexivity.
  (* SWriting *)
  - left. split; [discriminate|]. split; [constructor|]. eapply mid_wrote; try eassumption; [reflexivity|].
    apply same_part; [exact HS|exact Hu|reflexivity].
  - right. split; [reflexivity|]. exists (q_part Q tok u off None). split.
    + match goal with H : write_error _ _ _ _ _ |- _ => inversion H as [ | | Hno]; subst end; [eapply an_write_stream; eassumption|eapply an_write_length; eassumption|].
      exfalso. destruct (same_some_r _ _ _ _ HS Hu) as (u0 & Eu & _ & _ & _ & Ho & _).
      eapply Hno. split; [cbn [on_part set_up ss_up]; rewrite lookup_alter, Eu; reflexivity|exact Ho].
    + apply same_part; [exact HS|exact Hu|reflexivity].
  - right. split; [reflexivity|]. exists (q_part Q tok u off None). split; [eapply an_write_panic; eauto|].
    apply same_part; [exact HS|exact Hu|reflexivity].
  (* SWrote *)
  - right. split; [reflexivity|]. eexists. split; [eapply an_write; eauto|exact HS].
  - right. split; [reflexivity|]. eexists. split; [eapply an_write_panic; eauto|exact HS].
  (* SCommitting *)
  - left. split; [discriminate|]. split; [constructor|].
    assert (u0 = closed us) as -> by (match goal with H : ss_up _ !! tok = Some u0 |- _ => cbn in H; rewrite lookup_insert in H; congruence end).
    destruct (same_some_r _ _ _ _ HS Hu) as (us' & Eus & A1 & A2 & A3 & A4 & A5). assert (us' = us) as -> by congruence.
    pose proof HS as [B1 B2 B3 B4].
    eapply mid_published with (bytes := bytes).
    + exact Hu.
    + rewrite <- B2, <- A1. assumption.
    + rewrite <- B3. assumption.
    + intros offset l i b Ep El. match goal with H : extends _ _ |- _ => apply (H offset l i b); [|exact El] end. cbn [closed up_parts]. rewrite A5. exact Ep.
    + constructor.
      * intros tok'. cbn. destruct (decide (tok' = tok)) as [->|Hne].
        -- rewrite !lookup_delete. exact I.
        -- rewrite !lookup_delete_ne, lookup_insert_ne by congruence. apply B1.
      * cbn. rewrite B2, A1, A2, A3. reflexivity.
      * cbn. now rewrite B3.
      * cbn. intros k co E. apply lookup_insert_Some in E as [[<- <-]|[_ E]]; apply elem_of_union; [left; apply elem_of_singleton; reflexivity|right; eapply B4, E].
    + cbn. now rewrite B2, A1.
    + cbn. intros E. destruct (ss_com S0 !! up_key us) as [co|] eqn:Ec; [|discriminate]. cbn in E. injection E as E. subst id.
      match goal with H : _ ∉ ss_ids _ |- _ => apply H end. cbn. rewrite B3. eapply B4. rewrite <- B2. exact Ec.
  - left. split; [discriminate|]. split; [constructor|].
    assert (u0 = closed us) as -> by (match goal with H : ss_up _ !! tok = Some u0 |- _ => cbn in H; rewrite lookup_insert in H; congruence end).
    destruct (same_some_r _ _ _ _ HS Hu) as (us' & Eus & A1 & A2 & A3 & A4 & A5). assert (us' = us) as -> by congruence.
    pose proof HS as [B1 B2 B3 B4].
    eapply mid_discarded; [exact Hu| |].
    + rewrite <- B2, <- A1. eassumption.
    + constructor; try assumption. intros tok'. cbn. destruct (decide (tok' = tok)) as [->|Hne].
      * rewrite !lookup_delete. exact I.
      * rewrite !lookup_delete_ne, lookup_insert_ne by congruence. apply B1.
  (* SPublished *)
  - right. split; [reflexivity|]. eauto using answers.
  - exfalso. match goal with H : SPublished _ _ _ ∈ _ |- _ => rename H into H3 end. apply elem_of_app in H3 as [H3|H3]; [apply elem_of_replicate in H3 as [H3 _]; discriminate|].
    apply elem_of_list_singleton in H3. injection H3 as _ -> _. congruence.
  (* SDiscarded *)
  - right. split; [reflexivity|]. eauto using answers.
  (* SDeleted *)
  - right. split; [reflexivity|]. eauto using answers.
  - exfalso. match goal with H : SPublished _ _ _ ∈ _ |- _ => rename H into H3 end. apply elem_of_app in H3 as [H3|H3]; [apply elem_of_replicate in H3 as [H3 _]; discriminate|].
    apply elem_of_list_singleton in H3. discriminate.
  (* SReading *)
  - left. split; [discriminate|]. split; [repeat constructor|].
    change [VChunk data] with (map VChunk [data]). rewrite <- (map_app VChunk chunks [data]).
    apply mid_reading; auto; [lia|]. rewrite concat_app, Hch. cbn [concat]. rewrite app_nil_r. apply byte_range_app; [lia|].
    intros i x Ex. destruct Hf as [Hf _]. rewrite <- (sm_com _ _ HS) in Hf. match goal with H : forall co i b, ss_com _ !! _ = _ -> _ |- _ => eapply H; eauto end.
  - right. split; [reflexivity|]. eexists. split; [|exact HS].
    eapply an_read; eauto.
Qed.

(** ** Histories *)
(** Calls made one after another, beginning in [Q0]. *)
Inductive seq_from (lpage : N) (Q0 : qstate) : nat -> list label -> qstate -> Prop :=
| sf_nil : seq_from lpage Q0 0 [] Q0
| sf_call n ls Q op vs Q' :
    seq_from lpage Q0 n ls Q -> answers lpage Q op vs Q' ->
    seq_from lpage Q0 (S n) (ls ++ LCall n op :: map (LVis n) vs) Q'.
Lemma seq_from_empty lpage n ls Q : seq_from lpage q_empty n ls Q -> seq_run lpage n ls Q.
Proof. induction 1; econstructor; eassumption. Qed.
Lemma seq_from_bound lpage Q0 n ls Q : seq_from lpage Q0 n ls Q -> forall j v, LVis j v ∈ ls -> (j < n)%nat.
Proof.
  induction 1 as [|n ls Q op vs Q' H IH Ha]; intros j v Hin; [inversion Hin|].
  apply elem_of_app in Hin as [Hin|Hin]; [pose proof (IH _ _ Hin); lia|].
  apply elem_of_cons in Hin as [Hin|Hin]; [discriminate|]. apply elem_of_list_In, in_map_iff in Hin as (v' & E & _).
  injection E as -> _. lia.
Qed.

Lemma oaa_prefix a b : one_after_another (a ++ b) -> one_after_another a.
Proof. intros H ls1 i op ls2 E. eapply (H ls1 i op (ls2 ++ b)). rewrite E. now rewrite <- app_assoc. Qed.

Definition seq_state (lpage : N) (Q0 : qstate) (z : ssys) (L : list label) : Prop :=
  exists n pre Q, seq_from lpage Q0 n pre Q /\
    ((z_procs z = replicate n SDone /\ L = pre /\ Same (z_state z) Q) \/
     exists op vs s, z_procs z = replicate n SDone ++ [s] /\ L = pre ++ LCall n op :: map (LVis n) vs /\
       s <> SDone /\ Forall (fun v => is_final v = false) vs /\ mid lpage Q op vs s (z_state z)).

Lemma seq_inv lpage S0 Q0 ls z : Same S0 Q0 -> spec_steps lpage {| z_state := S0; z_procs := [] |} ls z ->
  one_after_another (visible ls) -> seq_state lpage Q0 z (visible ls).
Proof.
  intros H0 H. remember {| z_state := S0; z_procs := [] |} as z0 eqn:Ez. induction H as [z|z ls z1 l z2 H IH St]; intros Ho.
  - subst z. exists 0%nat, [], Q0. split; [constructor|]. left. split; [reflexivity|]. split; [reflexivity|exact H0].
  - rewrite visible_app in Ho. specialize (IH Ez (oaa_prefix _ _ Ho)).
    destruct IH as (n & pre & Q & Hrun & IH). rewrite visible_app.
    destruct St as [z1 op|z1 i s S' s' v Hi Hs].
    + cbn [visible List.filter is_visible] in *. destruct IH as [(Hp & HL & HS)|(op0 & vs & s & Hp & HL & Hne & Hfin & HM)].
      * exists n, pre, Q. split; [exact Hrun|]. right. exists op, [], (SCall op). cbn [z_procs z_state].
        rewrite Hp, replicate_length, HL. split; [reflexivity|]. split; [reflexivity|]. split; [discriminate|]. split; [constructor|].
        now constructor.
      * exfalso. destruct (Ho (visible ls) _ _ [] eq_refl n op0) as (v & Hin & Hf).
        { rewrite HL. apply elem_of_app. right. constructor. }
        rewrite HL in Hin. apply elem_of_app in Hin as [Hin|Hin]; [pose proof (seq_from_bound _ _ _ _ _ Hrun _ _ Hin); lia|].
        apply elem_of_cons in Hin as [Hin|Hin]; [discriminate|]. apply elem_of_list_In, in_map_iff in Hin as (v' & E & Hin).
        injection E as ->. apply elem_of_list_In in Hin. rewrite Forall_forall in Hfin. rewrite (Hfin _ Hin) in Hf. discriminate.
    + destruct IH as [(Hp & HL & HS)|(op0 & vs & s0 & Hp & HL & Hne & Hfin & HM)].
      * rewrite Hp in Hi. apply lookup_replicate in Hi as [-> _]. inversion Hs.
      * assert (i = n /\ s = s0) as [-> ->].
        { rewrite Hp in Hi. apply lookup_app_Some in Hi as [Hi|[Hl Hi]].
          - apply lookup_replicate in Hi as [-> _]. inversion Hs.
          - rewrite replicate_length in *. destruct (i - n)%nat eqn:En; [|discriminate]. cbn in Hi. split; [lia|congruence]. }
        rewrite Hp in Hs. destruct (mid_step _ _ _ _ _ _ _ _ _ _ HM Hs) as [(Hne' & Hf' & HM')|(-> & Q' & Ha & HS')].
        -- exists n, pre, Q. split; [exact Hrun|]. right. eexists op0, _, s'. cbn [z_procs z_state].
           split; [rewrite Hp; rewrite insert_app_r_alt by (rewrite replicate_length; lia); rewrite replicate_length, Nat.sub_diag; reflexivity|].
           split; [|split; [exact Hne'|split; [|exact HM']]].
           ++ rewrite HL, <- app_assoc. f_equal. cbn [app]. f_equal. rewrite map_app. f_equal. destruct v; reflexivity.
           ++ apply Forall_app. split; [exact Hfin|exact Hf'].
        -- eexists (S n), _, Q'. split; [eapply sf_call; [exact Hrun|exact Ha]|]. left. cbn [z_procs z_state].
           split; [rewrite Hp; rewrite insert_app_r_alt by (rewrite replicate_length; lia); rewrite replicate_length, Nat.sub_diag; cbn [insert list_insert]; rewrite <- replicate_cons_app; reflexivity|].
           split; [|exact HS'].
           rewrite HL, <- app_assoc. f_equal. cbn [app]. f_equal. rewrite map_app. f_equal. destruct v; reflexivity.
Qed.

Lemma same_empty : Same ss_empty q_empty.
Proof. constructor; [intros tok; cbn; exact I|reflexivity|reflexivity|]. cbn. intros key co E. rewrite lookup_empty in E. discriminate. Qed.
Theorem seq_refines lpage ls z : spec_steps lpage {| z_state := ss_empty; z_procs := [] |} ls z ->
  one_after_another (visible ls) -> all_finished (visible ls) -> exists n Q, seq_run lpage n (visible ls) Q /\ Same (z_state z) Q.
Proof.
  intros H Ho Ha. destruct (seq_inv _ _ _ _ _ same_empty H Ho) as (n & pre & Q & Hrun & [(Hp & HL & HS)|(op0 & vs & s & Hp & HL & Hne & Hfin & HM)]).
  - exists n, Q. rewrite HL. split; [apply seq_from_empty, Hrun|exact HS].
  - exfalso. destruct (Ha n op0) as (v & Hin & Hf).
    { rewrite HL. apply elem_of_app. right. constructor. }
    rewrite HL in Hin. apply elem_of_app in Hin as [Hin|Hin]; [pose proof (seq_from_bound _ _ _ _ _ Hrun _ _ Hin); lia|].
    apply elem_of_cons in Hin as [Hin|Hin]; [discriminate|]. apply elem_of_list_In, in_map_iff in Hin as (v' & E & Hin).
    injection E as ->. apply elem_of_list_In in Hin. rewrite Forall_forall in Hfin. rewrite (Hfin _ Hin) in Hf. discriminate.
Qed.
