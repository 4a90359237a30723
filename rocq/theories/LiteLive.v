(** The journal of the lite store empties and every call that has begun ends: proofs. *)
From Coq Require Import ZifyBool ZifyNat ZifyN.
From stdpp Require Import base numbers list_numbers option list.
From Verif Require Import Util BuddyModel LayoutModel MetaModel DirectModel PageIOModel JournalModel JournalSpec LiteModel LiteSpec LiteLiveSpec.
Open Scope N_scope.
Ltac Zify.zify_post_hook ::= idtac.

(** Steps the journal's tasks have left. *)
Definition cost (p : pending) : nat := length (pj_entries p) + 4.
Definition fcost (f : flusher) : nat :=
  match f with FIdle => 0 | FGot p => length (pj_entries p) + 3 | FEntries rest _ => length rest + 2 | FSignalled => 1 end.
Definition qcost (q : list pending) : nat := sum_list_with cost q.
Definition pcost (p : pending) : nat := match pj_signals p with [] => 0 | _ => S (cost p) end.
Definition jwork (s : jstate) : nat := fcost (js_flusher s) + qcost (js_queue s) + pcost (js_pending s).

Definition quiet_event (e : jevent) : Prop := forall t seen, e <> JCommit t seen.
Lemma jstep_work c s e s' : quiet_event e -> jstep c s e = Some s' -> jwork s = S (jwork s').
Proof.
  intros Hq E. unfold jwork, qcost. destruct e as [t seen| | | |i| |]; [exfalso; now eapply Hq|..]; cbn [jstep] in E.
  - destruct (pj_signals (js_pending s)) eqn:Es; [discriminate|]. injection E as <-. cbn [send_pending js_flusher js_queue js_pending pcost pj_signals pending_default].
    rewrite sum_list_with_app. unfold pcost. rewrite Es. simpl. lia.
  - destruct (js_flusher s) eqn:Ef; try discriminate. destruct (js_queue s) as [|p q]; [discriminate|]. injection E as <-. cbn. unfold cost at 1. lia.
  - destruct (js_flusher s) eqn:Ef; try discriminate. injection E as <-. cbn. lia.
  - destruct (js_flusher s) as [| |rest sigs|] eqn:Ef; try discriminate. destruct (rest !! i) as [w|] eqn:Ei; [|discriminate]. injection E as <-. cbn [set_flusher js_flusher js_queue js_pending fcost].
    apply lookup_lt_Some in Ei. rewrite app_length, take_length, drop_length. change (@length write rest) with (@length (N * list N) rest) in *. unfold merger, write in *. lia.
  - destruct (js_flusher s) as [| |[|] sigs|] eqn:Ef; try discriminate. injection E as <-. cbn. lia.
  - destruct (js_flusher s) eqn:Ef; try discriminate. injection E as <-. cbn. lia.
Qed.
Lemma jstep_progress c s : (0 < jwork s)%nat -> exists e s', quiet_event e /\ jstep c s e = Some s'.
Proof.
  intros H. unfold jwork in H. destruct (js_flusher s) as [|p|rest sigs|] eqn:Ef.
  - destruct (js_queue s) as [|p q] eqn:Eq.
    + cbn in H. unfold pcost in H. destruct (pj_signals (js_pending s)) eqn:Es; [cbn in H; lia|]. exists JTick. eexists. split; [intros ? ?; discriminate|]. cbn. rewrite Es. reflexivity.
    + exists JRecv. eexists. split; [intros ? ?; discriminate|]. cbn. rewrite Ef, Eq. reflexivity.
  - exists JWriteJournal. eexists. split; [intros ? ?; discriminate|]. cbn. rewrite Ef. reflexivity.
  - destruct rest as [|w rest]; [exists JSignal|exists (JWriteEntry 0)]; eexists; (split; [intros ? ?; discriminate|]); cbn; rewrite Ef; reflexivity.
  - exists JBlank. eexists. split; [intros ? ?; discriminate|]. cbn. rewrite Ef. reflexivity.
Qed.
(** Every signal is kept, in order. *)
Definition fsigs (f : flusher) : list nat := match f with FGot p => pj_signals p | FEntries _ sigs => sigs | _ => [] end.
Definition jsigs (s : jstate) : Prop :=
  js_acked s ++ fsigs (js_flusher s) ++ concat (pj_signals <$> js_queue s) ++ pj_signals (js_pending s) = seq 0 (js_next s).
Lemma jsigs_send s : jsigs s -> jsigs (send_pending s).
Proof. unfold jsigs. cbn [send_pending js_acked js_flusher js_queue js_pending js_next pending_default pj_signals]. intros <-. rewrite fmap_app, concat_app. cbn. now rewrite !app_nil_r. Qed.
Lemma jsigs_commit c s t seen : jsigs s -> jsigs (commit_transaction c s t seen) /\
  js_next (commit_transaction c s t seen) = match t with [] => js_next s | _ => S (js_next s) end.
Proof.
  intros H. destruct t as [|w t]; [auto|]. unfold commit_transaction. cbn zeta. set (b := _ || _ : bool).
  assert (H1 : jsigs (if b then send_pending s else s)) by (destruct b; auto using jsigs_send).
  assert (H2 : js_next (if b then send_pending s else s) = js_next s) by (destruct b; reflexivity).
  revert H1 H2. generalize (if b then send_pending s else s). clear. intros s1 H1 H2. split; [|cbn; now rewrite H2].
  unfold jsigs in *. cbn [js_acked js_flusher js_queue js_pending js_next pj_signals]. rewrite seq_S, <- H1, <- !(assoc_L (++)). reflexivity.
Qed.
Lemma jsigs_step c s e s' : jsigs s -> jstep c s e = Some s' -> jsigs s' /\ (js_next s <= js_next s')%nat.
Proof.
  intros H E. destruct e as [t seen| | | |i| |]; cbn [jstep] in E.
  - injection E as <-. destruct (jsigs_commit c s t seen H) as [H1 H2]. split; [exact H1|]. rewrite H2. destruct t; lia.
  - destruct (pj_signals (js_pending s)); [discriminate|]. injection E as <-. split; [now apply jsigs_send|reflexivity].
  - destruct (js_flusher s) eqn:Ef; try discriminate. destruct (js_queue s) as [|p q] eqn:Eq; [discriminate|]. injection E as <-. split; [|reflexivity]. unfold jsigs in *. rewrite Ef, Eq in H. cbn in *. rewrite <- H, <- !(assoc_L (++)). reflexivity.
  - destruct (js_flusher s) eqn:Ef; try discriminate. injection E as <-. split; [|reflexivity]. unfold jsigs in *. rewrite Ef in H. exact H.
  - destruct (js_flusher s) as [| |rest sigs|] eqn:Ef; try discriminate. destruct (rest !! i) as [w|] eqn:Ei; [|discriminate]. injection E as <-. split; [|reflexivity]. unfold jsigs in *. rewrite Ef in H. exact H.
  - destruct (js_flusher s) as [| |[|] sigs|] eqn:Ef; try discriminate. injection E as <-. split; [|reflexivity]. unfold jsigs in *. rewrite Ef in H. cbn in *. rewrite <- H, <- !(assoc_L (++)). reflexivity.
  - destruct (js_flusher s) eqn:Ef; try discriminate. injection E as <-. split; [|reflexivity]. unfold jsigs in *. rewrite Ef in H. exact H.
Qed.
Lemma jsigs_run c es : forall s s', jsigs s -> jrun c s es = Some s' -> jsigs s'.
Proof.
  induction es as [|e es IH]; intros s s' H E; cbn [jrun] in E; [injection E as <-; exact H|]. destruct (jstep c s e) as [s1|] eqn:E1; [|discriminate]. eapply IH; [|exact E]. now apply (jsigs_step c s e s1 H E1).
Qed.
Lemma jsigs_init d : jsigs (jinit d). Proof. reflexivity. Qed.
Lemma jsigs_end s : jsigs s -> jwork s = 0%nat -> js_acked s = seq 0 (js_next s).
Proof.
  unfold jsigs, jwork. intros H Hw. destruct (js_flusher s); cbn in *; try lia. destruct (js_queue s) as [|p q]; [|cbn in Hw; unfold cost in Hw; lia]. unfold pcost in Hw. destruct (pj_signals (js_pending s)); [|lia]. cbn in H. now rewrite app_nil_r in H.
Qed.
Lemma jrun_next c es : forall s s', jrun c s es = Some s' -> js_next s' = (js_next s + length (committed es))%nat.
Proof.
  induction es as [|e es IH]; intros s s' E; cbn [jrun] in E; [injection E as <-; cbn; lia|]. destruct (jstep c s e) as [s1|] eqn:E1; [|discriminate]. rewrite (IH _ _ E). unfold committed. cbn [omap list_omap]. fold (committed es).
  destruct e as [[|w t] seen| | | |i| |]; cbn [jstep] in E1; fold committed.
  - injection E1 as <-. cbn. reflexivity.
  - injection E1 as <-. unfold commit_transaction. cbn zeta. destruct (_ || _); cbn; unfold committed; lia.
  - destruct (pj_signals (js_pending s)); [discriminate|]. injection E1 as <-. reflexivity.
  - destruct (js_flusher s); try discriminate. destruct (js_queue s); [discriminate|]. injection E1 as <-. reflexivity.
  - destruct (js_flusher s); try discriminate. injection E1 as <-. reflexivity.
  - destruct (js_flusher s) as [| |rest sigs|]; try discriminate. destruct (rest !! i); [|discriminate]. injection E1 as <-. reflexivity.
  - destruct (js_flusher s) as [| |[|] sigs|]; try discriminate. injection E1 as <-. reflexivity.
  - destruct (js_flusher s); try discriminate. injection E1 as <-. reflexivity.
Qed.
Lemma jrun_snoc c es : forall s s1 e s2, jrun c s es = Some s1 -> jstep c s1 e = Some s2 -> jrun c s (es ++ [e]) = Some s2.
Proof.
  induction es as [|e0 es IH]; intros s s1 e s2 E E2; cbn [jrun app] in *; [injection E as ->; now rewrite E2|]. destruct (jstep c s e0) as [s0|]; [|discriminate]. eapply IH; eassumption.
Qed.
Lemma flushes_run c n s s' es s0 : flushes c n s s' -> jrun c s0 es = Some s -> exists es', jrun c s0 es' = Some s' /\ committed es' = committed es /\ (n + jwork s' = jwork s)%nat.
Proof.
  intros H E. induction H as [s|n s s1 e s2 H IH Hq E2]; [eauto|]. destruct (IH E) as (es' & E1 & Hc & Hw). exists (es' ++ [e]). split; [eapply jrun_snoc; eassumption|]. split.
  - unfold committed in *. rewrite omap_app, Hc. destruct e; [exfalso; now eapply Hq|..]; cbn; apply app_nil_r.
  - apply jstep_work in E2; [lia|exact Hq].
Qed.

(** ** The lite store *)
Definition live (s : lstate) : Prop := jsigs (ls_j s) /\
  forall i b n tks free, ls_calls s !! i = Some (LWait b (Some n) tks free) -> (n < js_next (ls_j s))%nat.
Lemma live_same s j a o u : live s -> jsigs j -> (js_next (ls_j s) <= js_next j)%nat -> live (mk j a o (ls_calls s) u).
Proof. intros [H1 H2] Hj Hn. split; [exact Hj|]. cbn. intros i b n tks free E. apply H2 in E. lia. Qed.
Definition call_below (n : nat) (cl : lcall) : Prop := match cl with LWait _ (Some k) _ _ => (k < n)%nat | _ => True end.
Lemma live_snoc s j a o u cl : live s -> jsigs j -> (js_next (ls_j s) <= js_next j)%nat -> call_below (js_next j) cl -> live (mk j a o (ls_calls s ++ [cl]) u).
Proof.
  intros [H1 H2] Hj Hn Hb. split; [exact Hj|]. cbn. intros i b n tks free E. apply lookup_app_Some in E as [E|[_ E]]; [apply H2 in E; lia|].
  apply list_lookup_singleton_Some in E as [_ E]. subst cl. exact Hb.
Qed.
Lemma live_insert s j a o u i cl : live s -> jsigs j -> (js_next (ls_j s) <= js_next j)%nat -> call_below (js_next j) cl -> live (mk j a o (<[i := cl]> (ls_calls s)) u).
Proof.
  intros [H1 H2] Hj Hn Hb. split; [exact Hj|]. cbn. intros i' b n tks free E. apply list_lookup_insert_Some in E as [(_ & -> & _)|[_ E]]; [exact Hb|apply H2 in E; lia].
Qed.
Lemma txn_live c j t seen j' sig : jsigs j -> do_txn c j t seen = (j', sig) -> jsigs j' /\ (js_next j <= js_next j')%nat /\ match sig with Some n => (n < js_next j')%nat | None => True end.
Proof.
  unfold do_txn. intros H E. injection E as <- <-. destruct (jsigs_commit (li_jc c) j t seen H) as [H1 H2]. split; [exact H1|]. rewrite H2. destruct t; lia.
Qed.
Lemma lstep_live c s e s' obs : live s -> lstep c s e = Some (s', obs) -> live s'.
Proof.
  intros L E. pose proof (proj1 L) as Hj. assert (Hset : forall d, jsigs (set_dev (ls_j s) d)) by (intros d; exact Hj).
  assert (Hstay : forall o r, stay s o = Some (s', r) -> live s') by (intros o r X; unfold stay in X; injection X as <- _; exact L).
  destruct e as [key size assoc id ms|i|i seen|key id fuel seen|key oid fuel seen|i|key oid fuel|key id offset len stream fuel steps|key oid start fin fuel steps|e]; cbn [lstep] in E.
  - unfold do_create in E. destruct (bool_decide _); [discriminate|]. cbn zeta in E.
    destruct (calc_object_layout _ _ _ _) as [[lc t]|]; [|destruct (create_record _ _ _) as [[|]|]; eauto].
    destruct (create_record _ _ _) as [[|raw0 p0]|]; eauto. destruct (tps_collect t) as [l|]; [|eauto].
    destruct (alloc_list _ _) as [a [offs|]]; [|injection E as <- _; now apply live_same].
    destruct (drop _ offs) as [|off [|]]; eauto. destruct (create_record _ _ _) as [[|raw p]|]; eauto.
    injection E as <- _. now apply live_snoc.
  - destruct (ls_calls s !! i) as [[| | |]|]; try discriminate. injection E as <- _. now apply live_insert.
  - destruct (ls_calls s !! i) as [[|r raw pow2 off| |]|]; try discriminate. apply (inj Some) in E. unfold do_link in E. cbn zeta in E.
    destruct (update_head _ _ _ _) as [[o t] tk1]. destruct (ov_set_next _ _ _) as [o2 tk2]. destruct (do_txn _ _ _ _) as [j sig] eqn:Et. apply pair_equal_spec in E as [<- _].
    destruct (txn_live _ _ _ _ _ _ Hj Et) as (H1 & H2 & H3). apply live_insert; [exact L|exact H1|exact H2|exact H3].
  - unfold do_commit in E. cbn zeta in E. destruct (find_for_commit _ _ _ _ _) as [| |[[f|] ex]]; eauto; [discriminate|].
    match type of E with match ?x with _ => _ end = _ => destruct x as [[[[[d o] t] ps] tks]|]; [|eauto] end.
    destruct (ov_set_state _ _ _) as [o2 tk]. destruct (do_txn _ _ _ _) as [j sig] eqn:Et. apply (inj Some), pair_equal_spec in E as [<- _].
    destruct (txn_live _ _ _ _ _ _ (Hset d) Et) as (H1 & H2 & H3). apply live_snoc; [exact L|exact H1|exact H2|exact H3].
  - unfold do_delete in E. cbn zeta in E. destruct (find_object _ _ _ _ _ _) as [| |[f|]]; eauto; [discriminate|].
    destruct (unlink _ _ _ _ _ _) as [[[[[d o] t] ps] tk]|]; [|eauto].
    destruct (do_txn _ _ _ _) as [j sig] eqn:Et. apply (inj Some), pair_equal_spec in E as [<- _].
    destruct (txn_live _ _ _ _ _ _ (Hset d) Et) as (H1 & H2 & H3). apply live_snoc; [exact L|exact H1|exact H2|exact H3].
  - destruct (ls_calls s !! i) as [[| |b sig tks free|]|]; try discriminate. unfold do_finish in E. destruct (match sig with Some n => _ | None => true end); [|discriminate].
    destruct (release_all _ _) as [a| |]; eauto. apply (inj Some), pair_equal_spec in E as [<- _]. now apply live_insert.
  - unfold do_inspect in E. destruct (find_object _ _ _ _ _ _) as [| |[f|]]; eauto; [discriminate|]. destruct (meta_id _); [destruct (meta_size _)|]; eauto.
  - unfold do_write in E. destruct (find_object _ _ _ _ _ _) as [| |[f|]]; eauto; [discriminate|]. destruct (meta_size_pow2 _ ≫= _) as [ob|]; [|eauto].
    destruct (call_run _ _ _ _) as [d [|r]]; [discriminate|]. apply (inj Some), pair_equal_spec in E as [<- _]. apply live_same; [exact L|apply Hset|reflexivity].
  - unfold do_read in E. destruct (find_object _ _ _ _ _ _) as [| |[f|]]; eauto; [discriminate|]. destruct (meta_size_pow2 _ ≫= _) as [ob|]; [|eauto].
    destruct (drain _ _ _) as [[outs [| | |]]|]; eauto; discriminate.
  - assert (exists j, jstep (li_jc c) (ls_j s) e = Some j /\ s' = mk j (ls_alloc s) (ls_ov s) (ls_calls s) (ls_used s)) as (j & Ej & ->).
    { destruct e; [discriminate|..]; (destruct (jstep (li_jc c) (ls_j s) _) as [j|]; [|discriminate]; exists j; split; [reflexivity|]; cbn [mbind option_bind] in E; apply (inj Some), pair_equal_spec in E as [<- _]; reflexivity). }
    destruct (jsigs_step _ _ _ _ Hj Ej) as [H1 H2]. now apply live_same.
Qed.
Lemma lrun_live c es : forall s s' obs, live s -> lrun c s es = Some (s', obs) -> live s'.
Proof.
  induction es as [|e es IH]; intros s s' obs L E; cbn [lrun] in E; [apply (inj Some), pair_equal_spec in E as [<- _]; exact L|].
  destruct (lstep c s e) as [[s1 o1]|] eqn:E1; [|discriminate]. cbn [mbind option_bind] in E. destruct (lrun c s1 es) as [[s2 o2]|] eqn:E2; [|discriminate]. cbn [mbind option_bind] in E.
  apply (inj Some), pair_equal_spec in E as [<- _]. eapply IH; [|exact E2]. eapply lstep_live; eassumption.
Qed.
Lemma init_live c d a : live (li_init c d a).
Proof. split; [reflexivity|]. intros i b n tks free E. discriminate. Qed.

(** What the calls have left. *)
Definition create_left (cl : lcall) : nat := match cl with LNew _ _ _ _ => 2 | LRec _ _ _ _ => 1 | _ => 0 end.
Definition wait_left (cl : lcall) : nat := match cl with LWait _ _ _ _ => 1 | _ => 0 end.
Definition creates (s : lstate) : nat := sum_list_with create_left (ls_calls s).
Definition waits (s : lstate) : nat := sum_list_with wait_left (ls_calls s).
Lemma sum_insert {A} (f : A -> nat) (l : list A) : forall i x y, l !! i = Some x -> (sum_list_with f (<[i := y]> l) + f x = sum_list_with f l + f y)%nat.
Proof.
  induction l as [|z l IH]; intros i x y E; [discriminate|]. destruct i as [|i]; [cbn in *; injection E as ->; lia|]. specialize (IH i x y E). change (<[S i := y]> (z :: l)) with (z :: <[i := y]> l). cbn [sum_list_with]. lia.
Qed.
Lemma going_step c s e s' obs : going_on e -> lstep c s e = Some (s', obs) -> OPanic ∉ obs ->
  (creates s' < creates s)%nat \/ (creates s' = creates s /\ jwork (ls_j s') + waits s' < jwork (ls_j s) + waits s)%nat.
Proof.
  intros Hg E Hp. unfold creates, waits. destruct e as [| i|i seen| | |i| | | |e]; try contradiction; cbn [lstep] in E.
  - destruct (ls_calls s !! i) as [[r raw pow2 off| | |]|] eqn:Ei; try discriminate. apply (inj Some), pair_equal_spec in E as [<- _]. left. cbn [mk ls_calls].
    pose proof (sum_insert create_left _ _ _ (LRec r raw pow2 off) Ei) as H. cbn in H |- *. lia.
  - destruct (ls_calls s !! i) as [[|r raw pow2 off| |]|] eqn:Ei; try discriminate. apply (inj Some) in E. unfold do_link in E. cbn zeta in E.
    destruct (update_head _ _ _ _) as [[o t] tk1]. destruct (ov_set_next _ _ _) as [o2 tk2]. destruct (do_txn _ _ _ _) as [j sig] eqn:Et. apply pair_equal_spec in E as [<- _]. left. cbn [mk ls_calls].
    pose proof (sum_insert create_left _ _ _ (LWait (bucket_of c (cr_key r)) sig [tk1; tk2] []) Ei) as H. cbn in H |- *. lia.
  - destruct (ls_calls s !! i) as [[| |b sig tks free|]|] eqn:Ei; try discriminate. unfold do_finish in E. destruct (match sig with Some n => _ | None => true end); [|discriminate].
    destruct (release_all _ _) as [a| |].
    + apply (inj Some), pair_equal_spec in E as [<- _]. right. cbn [mk ls_calls ls_j].
      pose proof (sum_insert create_left _ _ _ LDone Ei) as H. pose proof (sum_insert wait_left _ _ _ LDone Ei) as H2. cbn in H, H2 |- *. lia.
    + unfold stay in E. apply (inj Some), pair_equal_spec in E as [_ <-]. exfalso. apply Hp. constructor.
    + unfold stay in E. apply (inj Some), pair_equal_spec in E as [_ <-]. exfalso. apply Hp. constructor.
  - assert (exists j, quiet_event e /\ jstep (li_jc c) (ls_j s) e = Some j /\ s' = mk j (ls_alloc s) (ls_ov s) (ls_calls s) (ls_used s)) as (j & Hq & Ej & ->).
    { destruct e; [discriminate|..]; (destruct (jstep (li_jc c) (ls_j s) _) as [j|]; [|discriminate]; exists j; split; [intros ? ?; discriminate|]; split; [reflexivity|]; cbn [mbind option_bind] in E; apply (inj Some), pair_equal_spec in E as [<- _]; reflexivity). }
    right. cbn [mk ls_calls ls_j]. apply jstep_work in Ej; [|exact Hq]. lia.
Qed.
(** Nothing is left to do. *)
Definition settled (s : lstate) : Prop := idle s /\ js_acked (ls_j s) = seq 0 (js_next (ls_j s)) /\ jwork (ls_j s) = 0%nat.
Definition done_b (cl : lcall) : bool := match cl with LDone => true | _ => false end.
Lemma going_progress c s : live s -> settled s \/ exists e s' obs, going_on e /\ lstep c s e = Some (s', obs).
Proof.
  intros L. destruct (decide (jwork (ls_j s) = 0%nat)) as [Hw|Hw].
  - pose proof (jsigs_end _ (proj1 L) Hw) as Ha. destruct (forallb done_b (ls_calls s)) eqn:Ed.
    + left. split; [|auto]. intros i cl Hi. rewrite forallb_forall in Ed. specialize (Ed cl). rewrite <- elem_of_list_In in Ed. apply elem_of_list_lookup_2 in Hi. specialize (Ed Hi). destruct cl; try discriminate. reflexivity.
    + right. assert (exists i cl, ls_calls s !! i = Some cl /\ cl <> LDone) as (i & cl & Hi & Hn).
      { revert Ed. generalize (ls_calls s). induction l as [|x l IH]; cbn; [discriminate|]. destruct (done_b x) eqn:Ex; cbn; intros Ed.
        - destruct (IH Ed) as (i & cl & Hi & Hn). exists (S i), cl. auto.
        - exists 0%nat, x. split; [reflexivity|]. intros ->. discriminate. }
      destruct cl as [r raw pow2 off|r raw pow2 off|b sig tks free|]; [| | |congruence].
      * exists (LCreateWrite i). cbn [lstep going_on]. rewrite Hi. eauto.
      * exists (LCreateLink i 0). cbn [lstep going_on]. rewrite Hi. destruct (do_link c s i r off 0) as [s' o]. eauto.
      * exists (LFinish i). cbn [lstep going_on]. rewrite Hi. unfold do_finish.
        assert ((match sig with Some n => bool_decide (n ∈ js_acked (ls_j s)) | None => true end) = true) as ->.
        { destruct sig as [n|]; [|reflexivity]. apply bool_decide_eq_true. rewrite Ha. apply elem_of_seq. apply (proj2 L) in Hi. lia. }
        destruct (release_all _ _); unfold stay; eauto.
  - right. destruct (jstep_progress (li_jc c) (ls_j s) ltac:(lia)) as (e & j & Hq & Ej). exists (LJ e), (mk j (ls_alloc s) (ls_ov s) (ls_calls s) (ls_used s)), []. split; [exact I|].
    cbn [lstep]. destruct e as [t seen| | | |i| |]; [exfalso; now eapply Hq|..]; rewrite Ej; reflexivity.
Qed.
Lemma calm_snoc c es : forall s s1 obs e, calm c s es -> lrun c s es = Some (s1, obs) -> going_on e -> calm c s (es ++ [e]).
Proof.
  induction es as [|e0 es IH]; intros s s1 obs e Hc E Hg; cbn [app calm] in *.
  - split; [|destruct (lstep c s e) as [[? ?]|]; exact I]. intros H. destruct e; contradiction.
  - destruct Hc as [H1 H2]. split; [exact H1|]. cbn [lrun] in E. destruct (lstep c s e0) as [[s2 o2]|]; [|exact I]. cbn [mbind option_bind] in E.
    destruct (lrun c s2 es) as [[s3 o3]|] eqn:E3; [|discriminate]. eapply IH; eassumption.
Qed.
Lemma lrun_snoc c es : forall s s1 obs e s2 o2, lrun c s es = Some (s1, obs) -> lstep c s1 e = Some (s2, o2) -> lrun c s (es ++ [e]) = Some (s2, obs ++ o2).
Proof.
  induction es as [|e0 es IH]; intros s s1 obs e s2 o2 E E2; cbn [lrun app] in *.
  - apply (inj Some), pair_equal_spec in E as [<- <-]. rewrite E2. cbn. now rewrite app_nil_r.
  - destruct (lstep c s e0) as [[s3 o3]|]; [|discriminate]. cbn [mbind option_bind] in *. destruct (lrun c s3 es) as [[s4 o4]|] eqn:E4; [|discriminate]. cbn [mbind option_bind] in E.
    apply (inj Some), pair_equal_spec in E as [<- <-]. rewrite (IH _ _ _ _ _ _ E4 E2). cbn. now rewrite (assoc_L (++)).
Qed.
Lemma settles c s0 (Hok : forall es s obs, Forall (event_ok c) es -> calm c s0 es -> lrun c s0 es = Some (s, obs) -> OPanic ∉ obs) : live s0 ->
  forall n m es s obs, creates s = n -> (jwork (ls_j s) + waits s)%nat = m -> Forall (event_ok c) es -> calm c s0 es -> lrun c s0 es = Some (s, obs) -> comes_to c settled s.
Proof.
  intros L0. induction n as [n IHn] using lt_wf_ind. induction m as [m IHm] using lt_wf_ind. intros es s obs Hn Hm He Hc E.
  destruct (going_progress c s (lrun_live _ _ _ _ _ L0 E)) as [H|H]; [now apply ct_now|]. apply ct_steps; [exact H|]. intros e s' o' Hg E'.
  assert (He' : Forall (event_ok c) (es ++ [e])). { apply Forall_app. split; [exact He|]. constructor; [|constructor]. destruct e; try contradiction; exact I. }
  pose proof (calm_snoc _ _ _ _ _ _ Hc E Hg) as Hc'. pose proof (lrun_snoc _ _ _ _ _ _ _ _ E E') as E2.
  destruct (going_step _ _ _ _ _ Hg E') as [Hlt|[Heq Hlt]].
  - intros Hin. apply (Hok _ _ _ He' Hc' E2). apply elem_of_app. auto.
  - eapply (IHn (creates s')); [lia|reflexivity|reflexivity|exact He'|exact Hc'|exact E2].
  - eapply (IHm (jwork (ls_j s') + waits s')%nat); [lia|lia|reflexivity|exact He'|exact Hc'|exact E2].
Qed.

(** Without assuming that nothing panics. *)
Lemma going_progress2 c s : live s -> (all_end c s /\ js_acked (ls_j s) = seq 0 (js_next (ls_j s)) /\ jwork (ls_j s) = 0%nat) \/
  exists e s' obs, going_on e /\ lstep c s e = Some (s', obs) /\ OPanic ∉ obs.
Proof.
  intros L. destruct (decide (jwork (ls_j s) = 0%nat)) as [Hw|Hw].
  - pose proof (jsigs_end _ (proj1 L) Hw) as Ha.
    assert (Hcase : forall i cl, ls_calls s !! i = Some cl -> (cl = LDone \/ exists s', lstep c s (LFinish i) = Some (s', [OPanic])) \/ exists e s' obs, going_on e /\ lstep c s e = Some (s', obs) /\ OPanic ∉ obs).
    { intros i cl Hi. destruct cl as [r raw pow2 off|r raw pow2 off|b sig tks free|]; [| | |auto].
      - right. exists (LCreateWrite i). cbn [lstep going_on]. rewrite Hi. eexists _, _. split; [exact I|]. split; [reflexivity|]. apply not_elem_of_nil.
      - right. exists (LCreateLink i 0). cbn [lstep going_on]. rewrite Hi. unfold do_link. cbn zeta. destruct (update_head _ _ _ _) as [[o t] tk1]. destruct (ov_set_next _ _ _) as [o2 tk2]. destruct (do_txn _ _ _ _) as [j sig].
        eexists _, _. split; [exact I|]. split; [reflexivity|]. intros X. apply elem_of_list_singleton in X. discriminate.
      - cbn [lstep]. rewrite Hi. unfold do_finish.
        assert ((match sig with Some n => bool_decide (n ∈ js_acked (ls_j s)) | None => true end) = true) as Hs.
        { destruct sig as [n|]; [|reflexivity]. apply bool_decide_eq_true. rewrite Ha. apply elem_of_seq. apply (proj2 L) in Hi. lia. }
        rewrite Hs. destruct (release_all (ls_alloc s) free) as [a| |] eqn:Er; [|left; right; unfold stay; eauto..].
        right. exists (LFinish i). cbn [lstep going_on]. rewrite Hi. unfold do_finish. rewrite Hs, Er. eexists _, _. split; [exact I|]. split; [reflexivity|]. apply not_elem_of_nil. }
    assert (Hl : forall (l : list lcall) k, (forall i cl, l !! i = Some cl -> ls_calls s !! (k + i)%nat = Some cl) ->
       (forall i cl, l !! i = Some cl -> cl = LDone \/ exists s', lstep c s (LFinish (k + i)%nat) = Some (s', [OPanic])) \/ exists e s' obs, going_on e /\ lstep c s e = Some (s', obs) /\ OPanic ∉ obs).
    { induction l as [|x l IH]; intros k Hk; [left; intros i cl X; discriminate|]. destruct (Hcase k x) as [Hx|Hx]; [rewrite <- (Nat.add_0_r k); apply Hk; reflexivity| |auto].
      destruct (IH (S k)) as [Hr|Hr]; [intros i cl X; replace (S k + i)%nat with (k + S i)%nat by lia; now apply Hk| |auto].
      left. intros [|i] cl X; cbn in X; [injection X as <-; rewrite Nat.add_0_r; exact Hx|]. replace (k + S i)%nat with (S k + i)%nat by lia. now apply Hr. }
    destruct (Hl (ls_calls s) 0%nat) as [H|H]; [auto| |auto]. left. split; [|auto]. exact H.
  - right. destruct (jstep_progress (li_jc c) (ls_j s) ltac:(lia)) as (e & j & Hq & Ej). exists (LJ e), (mk j (ls_alloc s) (ls_ov s) (ls_calls s) (ls_used s)), []. split; [exact I|]. split; [|apply not_elem_of_nil].
    cbn [lstep]. destruct e as [t seen| | | |i| |]; [exfalso; now eapply Hq|..]; rewrite Ej; reflexivity.
Qed.
Lemma settles2 c : forall n m s, creates s = n -> (jwork (ls_j s) + waits s)%nat = m -> live s ->
  comes_to_or_panics c (fun s => all_end c s /\ js_acked (ls_j s) = seq 0 (js_next (ls_j s)) /\ jwork (ls_j s) = 0%nat) s.
Proof.
  induction n as [n IHn] using lt_wf_ind. induction m as [m IHm] using lt_wf_ind. intros s Hn Hm L.
  destruct (going_progress2 c s L) as [H|H]; [now apply cp_now|]. apply cp_steps; [exact H|]. intros e s' o' Hg E' Hp. pose proof (lstep_live _ _ _ _ _ L E') as L'.
  destruct (going_step _ _ _ _ _ Hg E' Hp) as [Hlt|[Heq Hlt]].
  - eapply (IHn (creates s')); [lia|reflexivity|reflexivity|exact L'].
  - eapply (IHm (jwork (ls_j s') + waits s')%nat); [lia|lia|reflexivity|exact L'].
Qed.
