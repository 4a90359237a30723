(** The flusher of the direct object index comes to an end and answers every call: proofs. *)
From stdpp Require Import base numbers list list_numbers option gmap sets fin_sets fin_maps.
From Coq Require Import ZifyBool ZifyNat ZifyN.
From Verif Require Import Util Bytes TuplesModel TuplesSpec TuplesLiveSpec TuplesCodec TuplesProofs TuplesSys TuplesDurable.
Open Scope N_scope.
Ltac Zify.zify_post_hook ::= idtac.

(** Steps the flusher has left. *)
Definition work (y : tsys) : nat :=
  match sy_flush y with TIdle => 0 | TWriting changes _ => length changes + 1 end +
  if decide (ts_dirty (sy_state y) = ∅) then 0 else size (ts_dirty (sy_state y)) + 2.

Lemma flush_work y y' : tstep y None y' -> work y = S (work y').
Proof.
  intros S. inversion S as [|? changes Hidle Hch Hnd Hne Hl|? c1 b l c2 signals junk old page Hfl Hold Hjl Hjb Hser|? signals Hfl]; subst y'; subst; unfold work; cbn [sy_flush sy_state ts_dirty].
  - rewrite Hidle. assert (Hs : length changes = size (ts_dirty (sy_state y))).
    { rewrite <- (fmap_length fst). rewrite <- (size_list_to_set (C := gset nat)) by exact Hnd. f_equal. apply set_eq. intros b. rewrite elem_of_list_to_set. apply Hch. }
    rewrite (decide_True_pi eq_refl). destruct (decide (ts_dirty (sy_state y) = ∅)) as [E|E]; [|lia].
    exfalso. rewrite E, size_empty in Hs. destruct changes; [congruence|discriminate].
  - rewrite Hfl, !app_length. cbn [length]. lia.
  - rewrite Hfl. cbn [length]. lia.
Qed.
(** Every call is answered, or its signal is kept. *)
Definition kept (y : tsys) : Prop := forall k, (k < sy_calls y)%nat ->
  k ∈ sy_acked y \/ k ∈ ts_signals (sy_state y) \/ exists changes signals, sy_flush y = TWriting changes signals /\ k ∈ signals.
Lemma call_signals s k c s' : call_exec s k c = Some s' -> ts_signals s' = ts_signals s ++ [k].
Proof.
  destruct c as [o|cur new st|id]; cbn [call_exec]; intros E.
  - unfold insert_object in E. destruct (match bm_min _ with Some _ => _ | None => _ end) as [bid|]; [|discriminate]. cbn [mbind option_bind] in E. destruct (ts_id2b s !! t_id o); [discriminate|].
    destruct (ts_bundles s !! bid) as [bu|]; [|discriminate]. cbn [mbind option_bind] in E. destruct (bu !! t_id o); [discriminate|]. cbn zeta in E. destruct (_ <? _); [discriminate|]. injection E as <-. reflexivity.
  - unfold update_object in E. destruct (ts_id2b s !! cur) as [bid|]; [|discriminate]. cbn [mbind option_bind] in E. destruct (ts_bundles s !! bid) as [bu|]; [|discriminate]. cbn [mbind option_bind] in E.
    destruct (bu !! cur) as [t|]; [|discriminate]. cbn [mbind option_bind] in E. cbn zeta in E. destruct (base.delete cur bu !! new), (base.delete cur (ts_id2b s) !! new); try discriminate. injection E as <-. reflexivity.
  - unfold delete_object in E. destruct (ts_id2b s !! id) as [bid|]; [|discriminate]. cbn [mbind option_bind] in E. destruct (ts_bundles s !! bid) as [bu|]; [|discriminate]. cbn [mbind option_bind] in E.
    destruct (bu !! id) as [t|]; [|discriminate]. cbn [mbind option_bind fmap option_fmap option_map fst] in E. injection E as <-. reflexivity.
Qed.
Lemma kept_step y c y' : kept y -> tstep y c y' -> kept y'.
Proof.
  intros Hk S k Hlt. inversion S as [? ? s' Hx|? changes Hidle Hch Hnd Hne Hl|? c1 b l c2 signals junk old page Hfl Hold Hjl Hjb Hser|? signals Hfl]; subst y'; subst; cbn [sy_calls sy_acked sy_state sy_flush ts_signals] in *.
  - rewrite (call_signals _ _ _ _ Hx). destruct (decide (k = sy_calls y)) as [->|Hne]; [right; left; apply elem_of_app; right; constructor|].
    destruct (Hk k ltac:(lia)) as [H|[H|H]]; [auto|right; left; apply elem_of_app; auto|auto].
  - destruct (Hk k Hlt) as [H|[H|(ch & sg & E & _)]]; [auto| |congruence]. right. right. eauto.
  - destruct (Hk k Hlt) as [H|[H|(ch & sg & E & H)]]; [auto|auto|]. rewrite Hfl in E. injection E as <- <-. right. right. eauto.
  - destruct (Hk k Hlt) as [H|[H|(ch & sg & E & H)]]; [left; apply elem_of_app; auto|auto|]. rewrite Hfl in E. injection E as <- <-. left. apply elem_of_app. auto.
Qed.
Lemma runs_kept spage pages init y0 cs y : opens spage pages init y0 -> runs y0 cs y -> kept y.
Proof.
  intros Ho R. induction R as [y|y cs y1 c y2 R IH S|y cs y1 y2 R IH S]; [|eapply kept_step; [apply IH, Ho|exact S]..].
  destruct Ho as (_ & _ & _ & _ & _ & Hc & _). intros k Hk. lia.
Qed.
(** The flusher is never stuck. *)
Lemma flush_progress spage pages init y0 cs y : opens spage pages init y0 -> Forall valid_call cs -> fresh_ids init cs -> runs y0 cs y -> (0 < work y)%nat -> exists y', tstep y None y'.
Proof.
  intros Ho Hv Hf R Hw. destruct (run_gh _ _ _ _ _ _ Ho Hv Hf R) as (G & home & tb & ds & Gy). destruct (run_inv _ _ _ _ _ _ Ho R) as (I & Hmax & _ & _ & _).
  destruct (sy_flush y) as [|[|[b l] changes] signals] eqn:Efl.
  - unfold work in Hw. rewrite Efl in Hw. destruct (decide (ts_dirty (sy_state y) = ∅)) as [E|E]; [lia|].
    set (changes := (fun b => (b, default [] (values <$> ts_bundles (sy_state y) !! b))) <$> elements (ts_dirty (sy_state y))).
    assert (Hfst : changes.*1 = elements (ts_dirty (sy_state y))).
    { unfold changes. rewrite <- list_fmap_compose. etransitivity; [|apply list_fmap_id]. apply list_fmap_ext; reflexivity. }
    eexists. apply (tstep_snapshot y changes Efl); [intros b; rewrite Hfst; apply elem_of_elements|rewrite Hfst; apply NoDup_elements| |].
    + intros En. apply E. rewrite En in Hfst. cbn in Hfst. apply set_eq. intros b. rewrite <- elem_of_elements, <- Hfst. set_solver.
    + intros b l Hin. unfold changes in Hin. apply elem_of_list_fmap in Hin as (b1 & E1 & Hin). injection E1 as -> ->. apply elem_of_elements in Hin. destruct (i_dirty _ _ I _ Hin) as [m Em]. exists m. rewrite Em. split; [reflexivity|]. reflexivity.
  - eexists. now apply (tstep_signal y signals).
  - destruct (g_changes _ _ _ _ _ _ _ _ Gy _ _ Efl) as (_ & w & bsw & Ew & Hc & _). destruct (Hc b l ltac:(constructor)) as (m & Em & Hlm). destruct (g_key _ _ _ _ _ _ _ _ Gy _ _ _ _ Ew Em) as [Hsz Hke].
    destruct (g_inv _ _ _ _ _ _ _ _ Gy _ _ Ew) as [Hlen _]. destruct (g_ds _ _ _ _ _ _ _ _ Gy) as [_ Hd]. destruct (lookup_lt_is_Some_2 (sy_disk y) b) as [old Hold]; [rewrite Hd, <- Hlen; eapply lookup_lt_Some, Em|].
    destruct (g_page _ _ _ _ _ _ _ _ Gy _ _ Hold) as [Hol Hob].
    assert (Hvl : Forall valid_entry l). { apply Forall_forall. intros t Ht. rewrite Hlm, values_elem in Ht. destruct Ht as [id Hid]. apply Hke in Hid. tauto. }
    pose proof (N.div_mod (2 ^ spage) 24 ltac:(discriminate)) as Hdm. pose proof (N.mod_lt (2 ^ spage) 24 ltac:(discriminate)) as Hml.
    assert (Hll : N.of_nat (length l) <= 2 ^ spage / 24) by (rewrite (perm_values_len _ _ Hlm); exact Hsz).
    destruct (bundle_roundtrip (2 ^ spage / 24) old l Hvl Hll) as (page & E1 & _ & _); [rewrite Hol; clear -Hdm; lia|rewrite Hol; clear -Hdm Hml; lia|].
    eexists. eapply (tstep_write y [] b l changes signals old old page); [exact Efl|exact Hold|reflexivity|exact Hob|rewrite Hmax; exact E1].
Qed.
Lemma flush_end spage pages init y0 cs y : opens spage pages init y0 -> Forall valid_call cs -> fresh_ids init cs -> runs y0 cs y -> work y = 0%nat -> forall k, (k < length cs)%nat -> k ∈ sy_acked y.
Proof.
  intros Ho Hv Hf R Hw k Hk. destruct (run_gh _ _ _ _ _ _ Ho Hv Hf R) as (G & home & tb & ds & Gy). destruct (run_inv _ _ _ _ _ _ Ho R) as (_ & _ & _ & _ & Hcalls).
  unfold work in Hw. destruct (sy_flush y) as [|ch sg] eqn:Efl; [|lia]. destruct (decide (ts_dirty (sy_state y) = ∅)) as [E|E]; [|lia].
  destruct (runs_kept _ _ _ _ _ _ Ho R k ltac:(lia)) as [H|[H|(ch & sg & E2 & _)]]; [exact H| |congruence].
  destruct (g_signals _ _ _ _ _ _ _ _ Gy _ H) as (b & _ & Hb). exfalso. rewrite E in Hb. set_solver.
Qed.
Lemma flusher_runs y0 cs y n y' : runs y0 cs y -> flusher n y y' -> runs y0 cs y'.
Proof. intros R H. induction H as [y|n y y1 y2 H IH S]; [exact R|]. eapply runs_flush; [now apply IH|exact S]. Qed.
Lemma flusher_work n y y' : flusher n y y' -> (n + work y' = work y)%nat.
Proof. induction 1 as [y|n y y1 y2 H IH S]; [reflexivity|]. apply flush_work in S. lia. Qed.
