(** A driver for concrete runs of a direct partition, for examples and
    counterexamples. *)
From Coq Require Import ZifyBool ZifyNat ZifyN.
From stdpp Require Import base numbers list_numbers option gmap sets fin_sets fin_maps functions list.
From Verif Require Import Util Bytes BuddyModel BuddySpec PageIOModel TuplesModel TuplesSpec TuplesCodec DirectModel DirectBase DirectSpec DirectSeqSpec DirectSys.
From Verif Require TuplesDurable PropertiesTuples.
Open Scope N_scope.
Ltac Zify.zify_post_hook ::= idtac.

Lemma one_flush_steps y y' : PropertiesTuples.one_flush y = Some y' ->
  exists y1 y2, tstep y None y1 /\ tstep y1 None y2 /\ tstep y2 None y'.
Proof.
  intros E. unfold PropertiesTuples.one_flush in E. destruct (sy_flush y) eqn:Ef; [|discriminate].
  destruct (fmap _ (elements (ts_dirty (sy_state y)))) as [|[b l] [|]] eqn:Ec; try discriminate.
  destruct (sy_disk y !! b) as [old|] eqn:Eo; [|discriminate]. cbn [mbind option_bind] in E.
  destruct (serialise_bundle _ _ l) as [page|] eqn:Ep; [|discriminate]. cbn [mbind option_bind] in E.
  destruct (decide (is_Some (ts_bundles (sy_state y) !! b))) as [[m Em]|]; [|discriminate]. injection E as <-.
  eexists _, _. split; [apply (tstep_snapshot y [(b, l)] Ef)|split].
  - intros b0. assert ([b] = elements (ts_dirty (sy_state y))) as Eel.
    { apply (f_equal (fmap fst)) in Ec. rewrite <- list_fmap_compose in Ec. cbn in Ec. rewrite <- Ec. transitivity (id <$> elements (ts_dirty (sy_state y))); [apply list_fmap_ext; reflexivity|apply list_fmap_id]. }
    cbn. rewrite Eel. rewrite elem_of_elements. reflexivity.
  - cbn. apply NoDup_singleton.
  - discriminate.
  - intros b0 l0 Hin. apply elem_of_list_singleton in Hin. injection Hin as -> ->.
    exists m. split; [exact Em|].
    assert ((b, l) ∈ (fun b => (b, default [] (TuplesDurable.values <$> (ts_bundles (sy_state y) !! b)))) <$> elements (ts_dirty (sy_state y))) as Hin.
    { rewrite Ec. constructor. }
    apply elem_of_list_fmap in Hin as (b1 & E1 & _). injection E1 as -> ->. rewrite Em. reflexivity.
  - eapply (tstep_write _ [] b l [] _ (replicate (length old) 0)); cbn; [reflexivity|exact Eo|apply replicate_length| |exact Ep].
    apply Forall_replicate. reflexivity.
  - cbn. match goal with |- tstep ?a None _ => apply (tstep_signal a) end. reflexivity.
Qed.

(** A call begins; a call makes [n] steps drawing the given random number; the
    index is flushed. *)
Inductive ev := ECall (op : dop) | EStep (i : nat) (id : N) | EFlush.

Definition or_of (id : N) : oracle := {| or_id := id; or_time := 7; or_junk := fun _ => 0 |}.
Definition drive1 (c : dcfg) (x : dsys * list label) (e : ev) : option (dsys * list label) :=
  let '(y, ls) := x in
  match e with
  | ECall op => Some ({| y_sh := y_sh y; y_procs := y_procs y ++ [PStart op] |}, ls ++ [LCall (length (y_procs y)) op])
  | EStep i id =>
      p ← y_procs y !! i;
      if bool_decide (id ∉ h_used (y_sh y)) && (id <? 2 ^ 128) then
        '(h', p', v) ← pstep c (or_of id) (y_sh y) p;
        Some ({| y_sh := h'; y_procs := <[i := p']> (y_procs y) |}, ls ++ [lab i v])
      else None
  | EFlush =>
      t ← PropertiesTuples.one_flush (h_tup (y_sh y));
      Some ({| y_sh := set_tup (y_sh y) t; y_procs := y_procs y |}, ls ++ [LTau; LTau; LTau])
  end.
Fixpoint drive (c : dcfg) (x : dsys * list label) (es : list ev) : option (dsys * list label) :=
  match es with [] => Some x | e :: es => x ← drive1 c x e; drive c x es end.

Lemma drive1_steps c y0 x e x' : drive1 c x e = Some x' -> dsteps c y0 (snd x) (fst x) -> dsteps c y0 (snd x') (fst x').
Proof.
  destruct x as [y ls]. cbn [fst snd]. intros H Hs. destruct e as [op|i id|]; cbn [drive1] in H.
  - injection H as <-. cbn. eapply dsteps_snoc; [exact Hs|]. apply dstep_call.
  - destruct (y_procs y !! i) as [p|] eqn:Ep; [|discriminate]. cbn [mbind option_bind] in H.
    destruct (bool_decide (id ∉ h_used (y_sh y)) && (id <? 2 ^ 128)) eqn:Eb; [|discriminate].
    apply andb_true_iff in Eb as [E1 E2]. apply bool_decide_eq_true in E1. apply N.ltb_lt in E2.
    destruct (pstep c (or_of id) (y_sh y) p) as [[[h' p'] v]|] eqn:Es; [|discriminate]. cbn [mbind option_bind] in H.
    injection H as <-. cbn [fst snd]. eapply dsteps_snoc; [exact Hs|].
    exact (dstep_proc c y i p (or_of id) h' p' v Ep E1 E2 eq_refl Es).
  - destruct (PropertiesTuples.one_flush (h_tup (y_sh y))) as [t|] eqn:Ef; [|discriminate]. cbn [mbind option_bind] in H.
    injection H as <-. cbn [fst snd]. destruct (one_flush_steps _ _ Ef) as (t1 & t2 & H1 & H2 & H3).
    change [LTau; LTau; LTau] with ([LTau] ++ [LTau] ++ [LTau]). rewrite !app_assoc.
    eapply dsteps_snoc; [eapply dsteps_snoc; [eapply dsteps_snoc; [exact Hs|]|]|].
    + apply dstep_flush, H1.
    + apply (dstep_flush c {| y_sh := set_tup (y_sh y) t1; y_procs := y_procs y |}), H2.
    + apply (dstep_flush c {| y_sh := set_tup (y_sh y) t2; y_procs := y_procs y |}), H3.
Qed.
Lemma drive_steps c y0 es : forall x x', drive c x es = Some x' -> dsteps c y0 (snd x) (fst x) -> dsteps c y0 (snd x') (fst x').
Proof.
  induction es as [|e es IH]; intros x x' H Hs; cbn [drive] in H.
  - injection H as <-. exact Hs.
  - destruct (drive1 c x e) as [x1|] eqn:E; [|discriminate]. cbn [mbind option_bind] in H.
    eapply IH; [exact H|]. eapply drive1_steps; eassumption.
Qed.

(** A small partition: 512-byte small pages and one index page. *)
Definition ex_cfg (lpage heap : N) : dcfg := {| dc_spage := 9; dc_lpage := lpage; dc_base := 2 ^ lpage; dc_heap := heap |}.
Definition ex_fresh (lpage heap : N) : option dsys :=
  t ← PropertiesTuples.ex_open 1;
  match allocator_new (2 ^ lpage) heap 9 lpage (2 ^ 32) DirRight with
  | Ok a => Some {| y_sh := {| h_alloc := a; h_dev := fun _ => 0; h_tup := t; h_objs := []; h_com := ∅; h_inc := ∅; h_met := met_zero; h_used := ∅ |};
                    y_procs := [] |}
  | _ => None
  end.
Lemma ex_fresh_ok lpage heap y : ex_fresh lpage heap = Some y -> fresh_partition (ex_cfg lpage heap) (PropertiesTuples.ex_pages 1) y.
Proof.
  unfold ex_fresh. destruct (PropertiesTuples.ex_open 1) as [t|] eqn:Et; [|discriminate]. cbn [mbind option_bind].
  destruct (allocator_new _ _ _ _ _ _) as [a| |] eqn:Ea; intros H; try discriminate H. injection H as <-.
  constructor; try reflexivity.
  - unfold PropertiesTuples.ex_pages. apply Forall_replicate, Forall_replicate. reflexivity.
  - exists [[]]. apply PropertiesTuples.ex_opens; [exact Et|]. vm_compute. reflexivity.
  - exact Ea.
Qed.
(** A run from the fresh partition. *)
Definition ex_run (lpage heap : N) (es : list ev) : option (dsys * list label) := y ← ex_fresh lpage heap; drive (ex_cfg lpage heap) (y, []) es.
Lemma ex_run_steps lpage heap es y ls : ex_run lpage heap es = Some (y, ls) ->
  exists y0, fresh_partition (ex_cfg lpage heap) (PropertiesTuples.ex_pages 1) y0 /\ dsteps (ex_cfg lpage heap) y0 ls y.
Proof.
  unfold ex_run. destruct (ex_fresh lpage heap) as [y0|] eqn:E; [|discriminate]. cbn [mbind option_bind]. intros H.
  exists y0. split; [now apply ex_fresh_ok|]. apply (drive_steps _ y0 es (y0, []) (y, ls) H). constructor.
Qed.
(** If computing a run shows [L] and some facts about the result, there is such
    a run. *)
Lemma ex_run_shows {A} lpage heap es (t : dsys -> list label -> A) L (x : A) :
  (fun r => (visible (snd r), t (fst r) (snd r))) <$> ex_run lpage heap es = Some (L, x) ->
  exists y0 y ls, fresh_partition (ex_cfg lpage heap) (PropertiesTuples.ex_pages 1) y0 /\ dsteps (ex_cfg lpage heap) y0 ls y /\
    visible ls = L /\ t y ls = x.
Proof.
  destruct (ex_run lpage heap es) as [[y ls]|] eqn:E; [|discriminate]. cbn [fmap option_fmap option_map fst snd]. intros H.
  destruct (ex_run_steps _ _ _ _ _ E) as (y0 & H1 & H2). exists y0, y, ls. injection H as H3 H4. auto.
Qed.

Definition steps (i : nat) (ids : list N) : list ev := EStep i <$> ids.
(** Create an object with key [key] and token [tok], which is not used yet;
    [free] is another unused number. *)
Definition do_create (i : nat) (key : list N) (size tok free : N) : list ev :=
  [ECall (OCreate key size)] ++ steps i [tok; tok; free; free] ++ [EFlush; EStep i free].

(** ** Deciding properties of concrete histories *)
Definition fin_b (ls : list label) (i : nat) : bool :=
  existsb (fun l => match l with LVis j v => (j =? i)%nat && is_final v | _ => false end) ls.
Definition all_fin_b (ls : list label) : bool := forallb (fun l => match l with LCall i _ => fin_b ls i | _ => true end) ls.
Fixpoint oaa_b (pre ls : list label) : bool :=
  match ls with
  | [] => true
  | l :: ls => (match l with LCall _ _ => all_fin_b pre | _ => true end) && oaa_b (pre ++ [l]) ls
  end.
Lemma fin_b_ok ls i : fin_b ls i = true -> finished ls i.
Proof.
  unfold fin_b. rewrite existsb_exists. intros (l & Hin & H). destruct l as [|j v|]; try discriminate H.
  apply andb_true_iff in H as [H1 H2]. apply Nat.eqb_eq in H1. subst. exists v. split; [now apply elem_of_list_In|exact H2].
Qed.
Lemma all_fin_b_ok ls : all_fin_b ls = true -> all_finished ls.
Proof.
  unfold all_fin_b. rewrite forallb_forall. intros H j op Hin. apply elem_of_list_In, H in Hin. now apply fin_b_ok.
Qed.
Lemma oaa_b_ok pre ls : oaa_b pre ls = true -> forall ls1 i op ls2, ls = ls1 ++ LCall i op :: ls2 -> all_finished (pre ++ ls1).
Proof.
  revert pre. induction ls as [|l ls IH]; intros pre H ls1 i op ls2 E; [destruct ls1; discriminate|].
  cbn [oaa_b] in H. apply andb_true_iff in H as [H1 H2]. destruct ls1 as [|l1 ls1].
  - injection E as -> ->. rewrite app_nil_r. now apply all_fin_b_ok.
  - injection E as -> ->. specialize (IH _ H2 ls1 i op ls2 eq_refl). now rewrite <- app_assoc in IH.
Qed.
Lemma oaa_ok ls : oaa_b [] ls = true -> one_after_another ls.
Proof. intros H ls1 i op ls2 E j op' Hin. eapply (oaa_b_ok [] ls H); eassumption. Qed.
Definition valid_op_b (lpage : N) (op : dop) : bool :=
  match op with
  | OWrite _ offset _ _ => offset + 2 ^ lpage <? 2 ^ 64
  | ORead _ _ _ _ buffer => 0 <? buffer
  | _ => true
  end.
Definition valid_calls_b (lpage : N) (ls : list label) : bool := forallb (fun l => match l with LCall _ op => valid_op_b lpage op | _ => true end) ls.
Lemma valid_calls_ok lpage ls : valid_calls_b lpage (visible ls) = true -> valid_calls lpage ls.
Proof.
  unfold valid_calls_b. rewrite forallb_forall. intros H i op Hin.
  assert (In (LCall i op) (visible ls)) as Hv by (unfold visible; rewrite filter_In; split; [now apply elem_of_list_In|reflexivity]).
  apply H in Hv. destruct op; cbn [valid_op valid_op_b] in *; try exact I; now apply N.ltb_lt.
Qed.
