(** C70: every operation of a batch the kv log has cut is acknowledged. *)
From stdpp Require Import base numbers list list_numbers option gmap.
From Coq Require Import ZifyBool ZifyNat ZifyN.
From Verif Require Import Util Bytes PageIOModel KvCodecModel KvCodecSpec KvLogModel KvLogSpec KvLogProofs KvLogSys KvLogInv KvLogLiveSpec KvLogLive PropertiesKvLog.
Open Scope N_scope.
Ltac Zify.zify_post_hook ::= idtac.

Lemma lrun_cover c dev y0 es y : good_conf c -> log_format c dev = Some y0 -> Forall (valid_levent c) es -> lrun c y0 es = Some y -> cover y /\ placed c y.
Proof.
  intros Hc H0. revert y. induction es as [|e es IH] using rev_ind; intros y Hv Hr.
  - cbn in Hr. apply (inj Some) in Hr. subst y0. unfold log_format, log_open in H0. destruct (log_load _ _ _) as [[[h t] ops]|]; [|discriminate H0]. cbn [mbind option_bind] in H0. apply (inj Some) in H0. subst y.
    split; [intros id Hid; cbn in Hid; lia|intros f b Hin; inversion Hin].
  - apply Forall_app in Hv as [Hv He]. rewrite lrun_snoc in Hr. destruct (lrun c y0 es) as [y1|] eqn:E1; [|discriminate]. cbn [mbind option_bind] in Hr.
    destruct (IH _ Hv eq_refl) as [H1 H2]. destruct (lrun_linv c dev y0 es y1 Hc H0 Hv E1) as [q Hq]. eapply step_cover; eassumption.
Qed.
Lemma lrun_two c y0 es1 es2 y1 : lrun c y0 es1 = Some y1 -> lrun c y0 (es1 ++ es2) = lrun c y1 es2.
Proof. unfold lrun. intros E. rewrite foldl_app, E. reflexivity. Qed.

(** [y1]: any state of any run since formatting, crashes and re-openings included.
    Then anything happens but a crash.  If nothing more arrives, then however the steps
    of the batches cut so far are scheduled - device writes ending in any order, their
    hand-over, the completer - nothing of them is left in the end, and every operation
    received since [y1] has been acknowledged, except those the writer still collects
    for the next batch. *)
Theorem C70_every_cut_batch_is_acknowledged : forall c dev y0 es1 y1 es2 y,
  good_conf c -> log_format c dev = Some y0 -> Forall (valid_levent c) (es1 ++ es2) ->
  lrun c y0 es1 = Some y1 -> lrun c y1 es2 = Some y -> ECrash ∉ es2 ->
  comes_to c (fun y' => (l_flights y' = [] /\ l_backlog y' = ∅ /\ l_apply y' = []) /\ l_writer y' = l_writer y /\ l_hist y' = l_hist y /\
    forall n, (length (l_hist y1) <= n < length (l_hist y') - length (w_pending (l_writer y')))%nat -> n ∈ l_acked y') y.
Proof.
  intros c dev y0 es1 y1 es2 y Hc H0 Hv E1 E2 Hno.
  assert (Ht : told (length (l_hist y1)) y).
  { revert y E2 Hno Hv. induction es2 as [|e es2 IH] using rev_ind; intros y E2 Hno Hv.
    - cbn in E2. apply (inj Some) in E2. subst y. destruct (lrun_linv c dev y0 es1 y1 Hc H0 ltac:(rewrite app_nil_r in Hv; exact Hv) E1) as [q Hq]. intros n Hn. pose proof (i_ord _ _ _ Hq). lia.
    - rewrite lrun_snoc in E2. destruct (lrun c y1 es2) as [y2|] eqn:E; [|discriminate]. cbn [mbind option_bind] in E2. rewrite (assoc_L (++)) in Hv. apply Forall_app in Hv as [Hv He].
      destruct (lrun_linv c dev y0 (es1 ++ es2) y2 Hc H0 Hv ltac:(rewrite (lrun_two _ _ _ _ _ E1); exact E)) as [q Hq].
      eapply (step_told c y2 q e y); [exact Hq| |exact E2|apply IH; [reflexivity| |exact Hv]].
      + intros ->. apply Hno. apply elem_of_app. right. constructor.
      + intros X. apply Hno. apply elem_of_app. auto. }
  assert (E : lrun c y0 (es1 ++ es2) = Some y) by (rewrite (lrun_two _ _ _ _ _ E1); exact E2).
  destruct (lrun_linv c dev y0 _ y Hc H0 Hv E) as [q Hq]. destruct (lrun_cover c dev y0 _ y Hc H0 Hv E) as [Hcov Hp].
  exact (log_settles c y _ Hc _ _ y q eq_refl eq_refl Hq Hcov Hp Ht eq_refl eq_refl).
Qed.

(** The example of C31-C33 up to its crash, and then two operations in a batch whose
    write is torn, and a third the writer still collects. *)
Definition ex_live1 : list levent := take 27 ex_log_events.
Definition ex_live2 : list levent := [ERecv (ex_up 7 70 9); ERecv (TDelete (KLit [1])); EFlush (ex_junk 512) (ex_junk 512); ERecv (ex_up 8 80 9); ETorn 0 (fun _ => 1)].
Theorem C70_example : exists y0 y1 y, log_format ex_conf (fun _ => 4) = Some y0 /\ lrun ex_conf y0 ex_live1 = Some y1 /\ lrun ex_conf y1 ex_live2 = Some y /\
  ECrash ∈ ex_live1 /\ length (l_hist y1) = 5%nat /\ l_acked y = [0; 1; 2; 3]%nat /\
  comes_to ex_conf (fun y' => 5%nat ∈ l_acked y' /\ 6%nat ∈ l_acked y') y.
Proof.
  destruct C31_C33_example as (Hc & Hv & _).
  assert (match log_format ex_conf (fun _ => 4) ≫= fun y0 => lrun ex_conf y0 ex_live1 ≫= fun y1 => lrun ex_conf y1 ex_live2 ≫= fun y => Some (y1, y) with
    | Some (y1, y) => (length (l_hist y1) =? 5)%nat && (length (l_hist y) =? 8)%nat && (length (w_pending (l_writer y)) =? 1)%nat && bool_decide (l_acked y = [0; 1; 2; 3]%nat)
    | None => false end = true) as H by (vm_compute; reflexivity).
  destruct (log_format ex_conf (fun _ => 4)) as [y0|] eqn:E0; [|discriminate H]. cbn [mbind option_bind] in H. destruct (lrun ex_conf y0 ex_live1) as [y1|] eqn:E1; [|discriminate H]. cbn [mbind option_bind] in H.
  destruct (lrun ex_conf y1 ex_live2) as [y|] eqn:E2; [|discriminate H]. cbn [mbind option_bind] in H. apply andb_prop in H as [H H4]. apply andb_prop in H as [H H3]. apply andb_prop in H as [H1 H2].
  apply bool_decide_eq_true in H4. apply Nat.eqb_eq in H1, H2, H3. exists y0, y1, y. split; [reflexivity|]. split; [exact E1|]. split; [exact E2|]. split; [apply elem_of_list_In; vm_compute; tauto|]. split; [exact H1|]. split; [exact H4|].
  assert (Hv2 : Forall (valid_levent ex_conf) (ex_live1 ++ ex_live2)).
  { apply Forall_app. split; [apply Forall_take, Hv|]. repeat constructor; cbn [valid_levent valid_task ex_up valid_key valid_data]; rewrite ?replicate_length; try reflexivity; try lia; try (apply Forall_replicate; reflexivity); try (unfold is_byte; lia); try (cbn; lia). }
  assert (Hno : ECrash ∉ ex_live2) by (intros X; apply elem_of_list_In in X; cbn in X; repeat (destruct X as [X|X]; [discriminate X|]); exact X).
  pose proof (C70_every_cut_batch_is_acknowledged _ _ _ _ _ _ _ Hc E0 Hv2 E1 E2 Hno) as C. rewrite H1 in C. clear -C H2 H3.
  assert (Hx : forall y', l_writer y' = l_writer y -> l_hist y' = l_hist y -> (length (l_hist y') - length (w_pending (l_writer y')) = 7)%nat) by (intros y' -> ->; lia). clear H2 H3. generalize dependent (l_writer y). generalize (l_hist y). intros h w C Hx.
  induction C as [y' (_ & A1 & A2 & A3)|y' Hex Hall IH]; [|apply ct_steps; assumption]. apply ct_now. rewrite (Hx y' A1 A2) in A3. split; apply A3; lia.
Qed.
Print Assumptions C70_every_cut_batch_is_acknowledged.
