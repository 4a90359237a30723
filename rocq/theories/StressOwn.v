(** One step of a call the stress tester has made. *)
From Coq Require Import ZifyBool ZifyNat ZifyN.
From stdpp Require Import base numbers option gmap sets functions list.
From Verif Require Import Util Bytes PageIOModel PageIOSpec DirectModel DirectSpec DirectBase DirectSeqSpec DirectSys DirectHist StressModel StressSpec StressProofs.
Open Scope N_scope.
Ltac Zify.zify_post_hook ::= idtac.

Definition moves (g : stcfg) (k : nat) (key : list N) (S S' : sstate) (t : task) (fin : N) (seen : list vis) (p' : sproc) (v : option vis) : Prop :=
  keeps S S' (task_tok t) key /\
  match v with
  | None => linked g k key S' t fin seen p'
  | Some v =>
      if is_final v then
        p' = SDone /\
        match after g k t fin (seen ++ [v]) with
        | Next t' => ready g k key S' t' /\ (task_tok t' = task_tok t \/ task_tok t' = None \/ exists tok, task_tok t' = Some tok /\ tok ∉ ss_ids S)
        | Over => ss_com S' !! key = None
        | Panic => t = TCreate /\ v = VRet RPanicked
        end
      else linked g k key S' t fin (seen ++ [v]) p'
  end.
Lemma is_open_alter S tok u q f : is_open S tok u -> is_open (on_part S tok q f) tok (set_part u q (f (up_parts u q))).
Proof. intros [H1 H2]. split; [|exact H2]. cbn [on_part set_up ss_up]. rewrite lookup_alter, H1. reflexivity. Qed.
Lemma keeps_on_part S tok q f key : keeps S (on_part S tok q f) (Some tok) key.
Proof. constructor; cbn [on_part set_up ss_up ss_com ss_ids]; auto. intros t _ Ht. rewrite lookup_alter_ne by congruence. reflexivity. Qed.
Lemma open_closed S tok u : is_open S tok u -> not_open S tok -> False.
Proof. intros H1 H2. exact (H2 _ H1). Qed.
Lemma open_same S tok u u' : is_open S tok u -> is_open S tok u' -> u' = u.
Proof. intros [H1 _] [H2 _]. congruence. Qed.
Lemma find_it S key id co g k : ss_com S !! key = Some co -> object_ok g k id co -> sfind S key id co.
Proof. intros H [H1 _ _]. split; [exact H|]. intros i E. congruence. Qed.

Section Own2.
  Context (g : stcfg) (lpage : N) (Hg : stress_cfg g lpage) (k : nat) (key : list N) (Hkey : ob_key g k = Some key).

  Lemma own_create S all fin op S' p' v : ready g k key S TCreate -> task_call g k TCreate fin = Some op -> sstep lpage S all (SCall op) S' p' v ->
    moves g k key S S' TCreate fin [] p' v.
  Proof using Hg Hkey.
    intros HR HC Hs. unfold task_call in HC. rewrite Hkey in HC. cbn [mbind option_bind] in HC. injection HC as <-. cbn [ready] in HR. inversion Hs; subst; unfold moves.
    - split.
      + constructor; cbn [add_id set_up ss_up ss_com ss_ids task_tok]; auto; [|set_solver]. intros t Ht _. rewrite lookup_insert_ne; [reflexivity|]. intros ->. contradiction.
      + cbn [is_final app after]. split; [reflexivity|]. split; [|right; right; eexists; split; [reflexivity|assumption]]. cbn [ready add_id set_up ss_up ss_com ss_ids].
        split; [split; [apply (ob_len_bound _ _ Hg)|exists 0; reflexivity]|]. split; [set_solver|]. split; [exact HR|].
        exists (new_upload key (ob_len g k) created). split; [split; [cbn [ss_up]; apply lookup_insert|reflexivity]|]. split; [|intros o; reflexivity].
        constructor; [reflexivity|reflexivity|]. intros j Hj. lia.
    - split; [apply keeps_refl|]. cbn [is_final app after]. auto.
  Qed.

  Lemma own_write S all tok off fin op S' p' v : ready g k key S (TWrite tok off) -> task_call g k (TWrite tok off) fin = Some op -> sstep lpage S all (SCall op) S' p' v ->
    moves g k key S S' (TWrite tok off) fin [] p' v.
  Proof using Hg Hkey.
    intros HR HC Hs. pose proof (lpage_pos _ _ Hg) as HP. pose proof (ob_data_length _ _ Hg k) as HL.
    unfold task_call in HC. rewrite Hkey in HC. cbn [mbind option_bind] in HC. cbn [ready] in HR. destruct HR as (Ha & Ht & Hn & u & Hu & Hok & Hi).
    pose proof Ha as [Ha1 Ha2]. pose proof (chunk_len_ok g k off Ha1) as Hcl. rewrite (pool_data _ _ Hg) in HC by lia. cbn [mbind option_bind] in HC.
    rewrite Hcl in HC. apply (inj Some) in HC as <-. set (m := N.min (off + sg_lpage g) (ob_len g k)) in *. assert (off < m /\ m <= ob_len g k) as [Hm1 Hm2] by lia.
    assert (Hlen : N.of_nat (length (slice (ob_data g k) off m)) = m - off) by (rewrite slice_length by lia; lia). set (data := slice (ob_data g k) off m) in *.
    inversion Hs; subst op || idtac; subst; unfold moves.
    - exfalso. eapply open_closed; eassumption.
    - exfalso. match goal with H : is_open _ _ ?x |- _ => pose proof (open_same _ _ _ _ Hu H) as E; lazymatch type of E with ?y = u => is_var y; subst y | _ => idtac end end.
      pose proof (uk_size _ _ _ _ _ Hok) as Hsz. match goal with H : part_error _ _ _ _ _ |- _ => rename H into Hpe end. rewrite Hsz, Hlen in Hpe.
      destruct Ha2 as [j Hj]. destruct e; cbn [part_error] in Hpe; try contradiction.
      all: try (rewrite <- (sc_lpage _ _ Hg) in Hpe). all: try (fold m in Hpe). all: clear - Hpe Hj Hm1 Hm2 HP.
      all: try lia. apply Hpe. rewrite Hj. apply N.mod_mul. lia.
    - match goal with H : is_open _ _ ?x |- _ => pose proof (open_same _ _ _ _ Hu H) as E; lazymatch type of E with ?y = u => is_var y; subst y | _ => idtac end end.
      split; [apply keeps_on_part|]. eapply lk_writing with (u := set_part u off (part_start (up_parts u off))); try reflexivity; try assumption.
      + apply is_open_alter, Hu.
      + apply upload_start; [exact Hok|lia].
      + cbn [stream_bytes]. rewrite app_nil_r. reflexivity.
      + cbn [set_part set_parts up_parts]. rewrite fn_lookup_insert. cbn [part_start pt_writers]. now rewrite Hi.
      + cbn [set_part set_parts up_parts]. rewrite fn_lookup_insert. cbn [part_start pt_clean]. apply bool_decide_eq_true_2, Hi.
      + intros o Ho. cbn [set_part set_parts up_parts]. rewrite fn_lookup_insert_ne by congruence. apply Hi.
  Qed.

  Lemma own_writing S all tok off fin st u S' p' v :
    at_part g k off -> tok ∈ ss_ids S -> ss_com S !! key = None -> is_open S tok u -> upload_ok g k key u off ->
    st = [Data (slice (ob_data g k) off (N.min (off + sg_lpage g) (ob_len g k)))] ->
    pt_writers (up_parts u off) = 1%nat -> pt_clean (up_parts u off) = true -> (forall o, o <> off -> pt_writers (up_parts u o) = 0%nat) ->
    sstep lpage S all (SWriting tok off (N.of_nat (length (stream_bytes st))) st) S' p' v -> moves g k key S S' (TWrite tok off) fin [] p' v.
  Proof using Hg Hkey.
    intros Ha Ht Hn Hu Hok Hst Hw Hc Ho Hs. pose proof Ha as [Ha1 Ha2]. pose proof (ob_data_length _ _ Hg k) as HL. pose proof (lpage_pos _ _ Hg) as HP.
    set (m := N.min (off + sg_lpage g) (ob_len g k)) in *. assert (off < m /\ m <= ob_len g k) as [Hm1 Hm2] by lia.
    assert (Hlen : length (slice (ob_data g k) off m) = N.to_nat (m - off)) by (apply slice_length; lia).
    assert (Hb : stream_bytes st = slice (ob_data g k) off m) by (rewrite Hst; cbn [stream_bytes]; apply app_nil_r).
    assert (He : Data [] ∉ st).
    { rewrite Hst, elem_of_list_singleton. intros E. injection E as E. rewrite <- E in Hlen. cbn [length] in Hlen. lia. }
    assert (Hf : Fail ∉ st) by (rewrite Hst, elem_of_list_singleton; discriminate). clear Hst.
    inversion Hs; subst; unfold moves.
    - split; [apply keeps_on_part|]. eapply lk_wrote with (u := set_part u off (part_finish (up_parts u off) (stream_bytes st))); try reflexivity; try assumption.
      + apply (is_open_alter S tok u off (fun p => part_finish p (stream_bytes st))), Hu.
      + apply (upload_finish _ _ Hg); [exact Ha|exact Hok|]. cbn [part_finish pt_data]. rewrite Hc, Hb. reflexivity.
      + intros o. cbn [set_part set_parts up_parts]. destruct (decide (o = off)) as [->|Hne].
        * rewrite fn_lookup_insert. cbn [part_finish pt_writers]. now rewrite Hw.
        * rewrite fn_lookup_insert_ne by congruence. now apply Ho.
    - exfalso. match goal with H : write_error _ _ _ _ _ |- _ => destruct H as [H|H|H] end; [contradiction|congruence|eapply open_closed; eassumption].
    - contradiction.
  Qed.

  Lemma own_commit S all tok fin S' p' v : ready g k key S (TCommit tok) -> sstep lpage S all (SCall (OCommit tok false)) S' p' v ->
    moves g k key S S' (TCommit tok) fin [] p' v.
  Proof using Hg Hkey.
    intros HR Hs. cbn [ready] in HR. destruct HR as (Ht & Hn & u & Hu & Hok). inversion Hs as [| | | | | | | | | |? ? Hcl|? ? u' Hu'| | | | | | | | | | | | | | | |]; subst; unfold moves.
    - exfalso. eapply open_closed; eassumption.
    - pose proof (open_same _ _ _ _ Hu Hu') as ->. split.
      + constructor; cbn [set_up ss_up ss_com ss_ids task_tok]; auto. intros t _ Hne. rewrite lookup_insert_ne by congruence. reflexivity.
      + eapply lk_committing with (u := closed u); cbn [set_up ss_up ss_com ss_ids]; try reflexivity; try assumption; [apply lookup_insert|]. destruct Hok as [O1 O2 O3]. constructor; assumption.
  Qed.

  Lemma own_committing S all tok fin u S' p' v : tok ∈ ss_ids S -> ss_com S !! key = None -> ss_up S !! tok = Some u -> upload_ok g k key u (ob_len g k) ->
    sstep lpage S all (SCommitting tok false) S' p' v -> moves g k key S S' (TCommit tok) fin [] p' v.
  Proof using Hg Hkey.
    intros Ht Hn Hu Hok Hs. inversion Hs as [| | | | | | | | | | | |? ? u' id bytes Hu' _ Hid Hex| | | | | | | | | | | | | | |]; subst; unfold moves.
    assert (u' = u) as -> by congruence. pose proof (uk_key _ _ _ _ _ Hok) as Hk. rewrite Hk, Hn. split.
    - constructor; cbn [add_id set_scom set_up ss_up ss_com ss_ids task_tok].
      + intros t _ Hne. rewrite lookup_delete_ne by congruence. reflexivity.
      + intros k' Hk'. rewrite lookup_insert_ne by congruence. reflexivity.
      + set_solver.
      + intros k' co Hco. apply lookup_insert_Some in Hco as [[<- <-]|[_ Hco]]; [right; exact Hid|left; exact Hco].
    - cbn [fmap option_fmap option_map]. eapply lk_published; cbn [add_id set_scom set_up ss_up ss_com ss_ids]; [reflexivity|set_solver|apply lookup_insert|].
      constructor; cbn [co_id co_size co_bytes]; [reflexivity|apply (uk_size _ _ _ _ _ Hok)|]. intros i b Hi. eapply (upload_bytes _ _ Hg); eassumption.
  Qed.

  Lemma own_inspect S all id fin S' p' v : ready g k key S (TInspect id) -> sstep lpage S all (SCall (OInspect key id)) S' p' v ->
    moves g k key S S' (TInspect id) fin [] p' v.
  Proof using Hg Hkey.
    intros (co & Hco & Hok) Hs. pose proof (find_it _ _ _ _ _ _ Hco Hok) as Hf.
    assert (Hc : (p' = SDone /\ v = Some (VRet (RFailed ObjectNotFound)) /\ forall co', ~ sfind S key id co') \/
                 (S' = S /\ p' = SDone /\ exists co', sfind S key id co' /\ v = Some (VRet (RInspected (co_id co') (co_size co') (co_created co'))))).
    { inversion Hs; subst; [left; auto|right; eauto 10]. }
    destruct Hc as [(_ & _ & Hc)|(-> & -> & co' & [Hc _] & ->)]; [exfalso; eapply Hc; exact Hf|]. assert (co' = co) as -> by congruence. clear Hc.
    unfold moves. split; [apply keeps_refl|]. cbn [is_final app after]. split; [reflexivity|]. rewrite decide_True by (symmetry; apply (ok_id _ _ _ _ Hok)).
    rewrite (proj2 (N.eqb_eq _ _) (ok_size _ _ _ _ Hok)). cbn [ready task_tok]. split; [|auto]. split; [apply (ob_len_bound _ _ Hg)|eauto].
  Qed.

  Lemma own_read S all id off fin S' p' v : ready g k key S (TRead id off) -> picks g k (TRead id off) fin -> sstep lpage S all (SCall (ORead key id off (Some fin) 16384)) S' p' v ->
    moves g k key S S' (TRead id off) fin [] p' v.
  Proof using Hg Hkey.
    intros (Hoff & co & Hco & Hok) Hp Hs. pose proof (find_it _ _ _ _ _ _ Hco Hok) as Hf. cbn [picks] in Hp. specialize (Hp Hoff) as [Hp1 Hp2]. pose proof (ok_size _ _ _ _ Hok) as Hsz.
    assert (Hc : (forall co', ~ sfind S key id co') \/ (exists co', sfind S key id co' /\ (fin < off \/ co_size co' < fin)) \/
                 (S' = S /\ exists co', sfind S key id co' /\ p' = SReading key (co_id co') off fin 16384 /\ v = Some (VRet (RReading (co_id co') (co_size co') off fin)))).
    { inversion Hs; subst; cbn [default] in *; eauto 10. }
    destruct Hc as [Hc|[(co' & [Hc _] & Hc')|(-> & co' & [Hc _] & -> & ->)]]; [exfalso; eapply Hc; exact Hf|exfalso; assert (co' = co) as -> by congruence; lia|].
    assert (co' = co) as -> by congruence. unfold moves. split; [apply keeps_refl|]. cbn [is_final app].
    eapply lk_reading with (chunks := []); try reflexivity; try eassumption; try lia.
    - apply (ok_id _ _ _ _ Hok).
    - cbn [concat]. unfold slice. rewrite N.sub_diag. reflexivity.
    - constructor.
  Qed.

  Lemma own_reading S all id off oid fin pos x y z chunks co S' p' v : off < fin -> fin <= ob_len g k -> off <= pos <= fin ->
    ss_com S !! key = Some co -> object_ok g k id co -> id = Some oid -> concat chunks = slice (ob_data g k) off pos -> Forall (fun l => l <> []) chunks ->
    sstep lpage S all (SReading key oid pos fin 16384) S' p' v -> moves g k key S S' (TRead id off) fin (VRet (RReading x y z fin) :: map VChunk chunks) p' v.
  Proof using Hg Hkey.
    intros H1 H2 H3 Hco Hok Hid Hch Hne Hs. pose proof (ob_data_length _ _ Hg k) as HL.
    assert (Hc : S' = S /\ ((pos = fin /\ p' = SDone /\ v = Some (VEnd RDone)) \/
      exists data, (0 < length data)%nat /\ pos + N.of_nat (length data) <= fin /\
        (forall co i b, ss_com S !! key = Some co -> co_id co = oid -> data !! i = Some b -> co_bytes co (pos + N.of_nat i) = b) /\
        p' = SReading key oid (pos + N.of_nat (length data)) fin 16384 /\ v = Some (VChunk data))).
    { inversion Hs; subst; (split; [reflexivity|]); eauto 10. }
    destruct Hc as (-> & [(-> & -> & ->)|(data & D1 & D2 & D3 & -> & ->)]); unfold moves; (split; [apply keeps_refl|]); cbn [is_final].
    - split; [reflexivity|]. cbn [app after]. rewrite stream_of_chunks. cbn [mbind option_bind]. rewrite (check_chunks_ok _ _ Hg) by (assumption || lia). rewrite N.eqb_refl.
      destruct (N.ltb_spec fin (ob_len g k)); cbn [ready task_tok]; (split; [|auto]); [split; [assumption|eauto]|eauto].
    - change (VRet (RReading x y z fin) :: map VChunk chunks ++ [VChunk data]) with (VRet (RReading x y z fin) :: (map VChunk chunks ++ map VChunk [data])) || idtac.
      eapply (lk_reading _ _ _ _ _ _ id off oid _ x y z _ (chunks ++ [data]) co); try reflexivity; try eassumption; try lia.
      + rewrite map_app. reflexivity.
      + rewrite concat_app. cbn [concat]. rewrite app_nil_r, Hch. rewrite <- (slice_app _ off pos (pos + N.of_nat (length data))) by lia. f_equal.
        apply list_eq_same_length with (n := length data); [rewrite slice_length by lia; lia|reflexivity|]. intros i a b Hi Ha Hb.
        rewrite slice_lookup in Hb by lia. assert (co_id co = oid) as Hcid by (pose proof (ok_id _ _ _ _ Hok); congruence).
        pose proof (D3 _ _ _ Hco Hcid Ha) as E1. pose proof (ok_bytes _ _ _ _ Hok _ _ Hb) as E2. rewrite <- E1, <- E2. f_equal. lia.
      + apply Forall_app. split; [exact Hne|]. constructor; [|constructor]. intros ->. cbn in D1. lia.
  Qed.

  Lemma own_delete S all id fin S' p' v : com_ok S -> ready g k key S (TDelete id) -> sstep lpage S all (SCall (ODelete key id)) S' p' v ->
    moves g k key S S' (TDelete id) fin [] p' v.
  Proof using Hg Hkey.
    intros [C1 C2] (co & Hco & Hok) Hs. pose proof (find_it _ _ _ _ _ _ Hco Hok) as Hf.
    assert (Hc : (forall co', ~ sfind S key id co') \/
                 (S' = set_scom S (delete key (ss_com S)) /\ exists co', sfind S key id co' /\ p' = SDeleted (co_id co') /\ v = None)).
    { inversion Hs; subst; eauto 10. }
    destruct Hc as [Hc|(-> & co' & [Hc _] & -> & ->)]; [exfalso; eapply Hc; exact Hf|]. assert (co' = co) as -> by congruence. unfold moves. split.
    - constructor; cbn [set_scom ss_up ss_com ss_ids]; auto.
      + intros k' Hk'. rewrite lookup_delete_ne by congruence. reflexivity.
      + intros k' co' Hk'. apply lookup_delete_Some in Hk' as [_ Hk']. auto.
    - eapply lk_deleted; cbn [set_scom ss_up ss_com ss_ids]; [reflexivity|apply lookup_delete|eapply C1; eassumption|].
      intros k' co' Hk' E. apply lookup_delete_Some in Hk' as [Hne Hk']. apply Hne. exact (C2 _ _ _ _ Hco Hk' (eq_sym E)).
  Qed.

  Lemma own_step S all t fin seen p S' p' v : com_ok S -> pub_ok S all -> linked g k key S t fin seen p -> sstep lpage S all p S' p' v ->
    moves g k key S S' t fin seen p' v.
  Proof using Hg Hkey.
    intros HC HP HL Hs. destruct HL.
    - destruct t.
      + eapply own_create; eassumption.
      + eapply own_write; eassumption.
      + unfold task_call in H1. rewrite Hkey in H1. cbn [mbind option_bind] in H1. apply (inj Some) in H1 as <-. eapply own_commit; eassumption.
      + unfold task_call in H1. rewrite Hkey in H1. cbn [mbind option_bind] in H1. apply (inj Some) in H1 as <-. eapply own_inspect; eassumption.
      + unfold task_call in H1. rewrite Hkey in H1. cbn [mbind option_bind] in H1. rewrite (proj2 (N.ltb_lt _ _) (proj1 H)) in H1. apply (inj Some) in H1 as <-. eapply own_read; eassumption.
      + unfold task_call in H1. rewrite Hkey in H1. cbn [mbind option_bind] in H1. apply (inj Some) in H1 as <-. eapply own_delete; eassumption.
    - subst t len. eapply own_writing; eassumption.
    - subst t. inversion Hs; subst; [|contradiction]. unfold moves. split; [apply keeps_refl|]. cbn [is_final app after]. split; [reflexivity|].
      destruct (N.ltb_spec (off + sg_lpage g) (ob_len g k)) as [Hlt|Hge]; cbn [ready task_tok]; (split; [|auto]).
      + split; [split; [exact Hlt|]|]. { destruct H0 as [_ [j ->]]. exists (j + 1). lia. } eauto 10.
      + split; [assumption|]. split; [assumption|]. exists u. split; [assumption|]. destruct H4 as [U1 U2 U3]. constructor; [assumption|assumption|]. intros j Hj. apply U3. lia.
    - subst t. eapply own_committing; eassumption.
    - subst t. inversion Hs; subst. unfold moves. split; [apply keeps_refl|]. cbn [is_final app after]. split; [reflexivity|]. cbn [ready task_tok]. split; [|auto]. eauto.
    - subst t seen. eapply own_reading; eassumption.
    - subst t. inversion Hs; subst; unfold moves.
      + split; [apply keeps_refl|]. cbn [is_final app after]. auto.
      + exfalso. match goal with H : SPublished _ _ _ ∈ _ |- _ => apply HP in H as (k' & co' & E1 & E2) end. eapply H2; eassumption.
  Qed.
End Own2.
