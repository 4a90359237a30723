From stdpp Require Import base numbers list list_numbers option sets.
From Coq Require Import ZifyBool ZifyNat ZifyN.
From Verif Require Import Util LayoutModel LayoutProofs PageIOModel PageIOSpec PageIOProofs PageIOWrite.
Open Scope N_scope.
Ltac Zify.zify_post_hook ::= idtac.

Section Sys.
Context (f : flavour) (spage lpage : N) (o : obj) (ps : list (N * N)).
Context (Hop : object_pages f spage lpage o ps).
Context (want : N -> N).

Notation size := (o_size o).

(** Addresses the part at [offset] may change. *)
Definition may_touch (offset x : N) : Prop :=
  match f with
  | Lite => exists i, in_part lpage size offset i /\ locate ps i = Some x
  | Direct => exists i a p, in_part lpage size offset i /\ locate ps i = Some a /\ (a, p) ∈ ps /\ in_page (a, p) x
  end.

Record WInv (offset : N) (s0 : list item) (d : device) (w : writer) : Prop := {
  wi_targets : targets_ok f spage ps size offset (w_len w) (w_targets w);
  wi_part : offset + w_len w = N.min (offset + 2 ^ lpage) size;
  wi_written : asum (take (w_page w) (w_targets w)) = w_written w;
  wi_done : forall i, i < w_written w -> byte_at d ps (offset + i) = want (offset + i);
  wi_ahead : forall i b, (w_buf w ++ stream_bytes (w_stream w)) !! i = Some b ->
     w_written w + N.of_nat i < w_len w -> want (offset + w_written w + N.of_nat i) = b;
  wi_count : w_written w + N.of_nat (length (w_buf w ++ stream_bytes (w_stream w))) =
     N.of_nat (length (stream_bytes s0));
  wi_fail : no_fail (w_stream w) -> no_fail s0;
}.

Definition call_ok (offset len : N) (s0 : list item) (d : device) (c : wcall) : Prop :=
  match c with
  | Running w => w_len w = len /\ WInv offset s0 d w
  | Returned WOk =>
      N.of_nat (length (stream_bytes s0)) = len /\ no_fail s0 /\
      offset + len = N.min (offset + 2 ^ lpage) size /\
      (forall i, i < len -> byte_at d ps (offset + i) = want (offset + i))
  | Returned _ => True
  end.

(** What a step may do to the device. *)
Definition dev_ok (offset : N) (d d' : device) : Prop :=
  (forall i, i < size -> byte_at d ps i = want i -> byte_at d' ps i = want i) /\
  (forall x, d' x <> d x -> may_touch offset x).

Lemma dev_ok_refl offset d : dev_ok offset d d.
Proof. split; [auto|]. intros x H. congruence. Qed.

Lemma written_le offset s0 d w : WInv offset s0 d w -> w_written w <= w_len w.
Proof. intros W. rewrite <- (wi_written _ _ _ _ W), <- (to_sum _ _ _ _ _ _ _ (wi_targets _ _ _ _ W)). apply asum_take_le. Qed.

Lemma continue_ok offset s0 valid junk d w buf stream :
  WInv offset s0 d w ->
  buf ++ stream_bytes stream = w_buf w ++ stream_bytes (w_stream w) ->
  (no_fail stream -> no_fail (w_stream w)) ->
  let '(d', c') := write_continue f spage valid junk d w buf stream in
  dev_ok offset d d' /\ call_ok offset (w_len w) s0 d' c'.
Proof.
  intros W Hbuf Hnf. unfold write_continue.
  destruct (N.ltb_spec (w_len w) (w_written w + N.of_nat (length buf))) as [Hov|Hov].
  { split; [apply dev_ok_refl|exact I]. }
  destruct (w_targets w !! w_page w) as [[amt a]|] eqn:Et.
  2:{ split; [apply dev_ok_refl|exact I]. }
  destruct (N.ltb_spec (N.of_nat (length buf)) amt) as [Hs|Hs].
  { split; [apply dev_ok_refl|]. split; [reflexivity|]. destruct W as [W1 W2 W3 W4 W5 W6 W7]. constructor; cbn [w_len w_targets w_page w_written w_buf w_stream];
      rewrite ?Hbuf; auto. }
  destruct (match f with Lite => false | Direct => negb valid end).
  { split; [apply dev_ok_refl|exact I]. }
  destruct W as [W1 W2 W3 W4 W5 W6 W7].
  destruct (to_page _ _ _ _ _ _ _ W1 _ _ _ Et) as (Hamt & k & p & Ek & Hk & Hp & Hpad & Hpadsz).
  rewrite W3 in Hk.
  remember (take (N.to_nat amt) buf ++
            ((fun i => junk (N.of_nat i)) <$> seq 0 (N.to_nat (padded_len f spage amt - amt)))) as data eqn:Edata.
  assert (Hdl : N.of_nat (length data) = padded_len f spage amt).
  { rewrite Edata, app_length, take_length, fmap_length, seq_length. lia. }
  assert (Hin : forall x b, a <= x < a + amt -> buf !! N.to_nat (x - a) = Some b -> dev_write d a data x = b).
  { intros x b Hx Eb. apply dev_write_in; [lia|]. rewrite Edata, lookup_app_l; [|rewrite take_length; lia].
    rewrite lookup_take by lia. exact Eb. }
  assert (Hout : forall x, x < a \/ a + padded_len f spage amt <= x -> dev_write d a data x = d x).
  { intros x Hx. apply dev_write_out. rewrite Hdl. exact Hx. }
  assert (Hahead : forall r, r < amt -> exists b, buf !! N.to_nat r = Some b /\ want (offset + w_written w + r) = b).
  { intros r Hr. destruct (lookup_lt_is_Some_2 buf (N.to_nat r)) as [b Eb]; [lia|]. exists b. split; [exact Eb|].
    replace (offset + w_written w + r) with (offset + w_written w + N.of_nat (N.to_nat r)) by lia.
    apply W5; [|lia]. rewrite <- Hbuf. rewrite lookup_app_l by lia. exact Eb. }
  assert (Hnew : forall r, r < amt -> byte_at (dev_write d a data) ps (offset + w_written w + r) = want (offset + w_written w + r)).
  { intros r Hr. destruct (Hahead r Hr) as (b & Eb & ->). unfold byte_at. rewrite <- Hk.
    rewrite (locate_page _ _ _ _ _ Ek) by lia. cbn [from_option]. apply Hin; [lia|].
    replace (a + r - a) with r by lia. exact Eb. }
  assert (Hkeep : forall i, i < size -> byte_at d ps i = want i -> byte_at (dev_write d a data) ps i = want i).
  { intros i Hi Hb. unfold byte_at in *. destruct (locate ps i) as [x|] eqn:El; [|exact Hb]. cbn [from_option] in *.
    apply locate_Some in El as El2. destruct El2 as (k' & a' & p' & Ek' & Hi' & Ex).
    destruct (decide (k' = k)) as [->|Hne].
    - rewrite Ek in Ek'. inversion Ek'; subst a' p'.
      destruct (N.lt_ge_cases (i - psum ps k) amt) as [Hlt|Hge].
      + specialize (Hnew _ Hlt). unfold byte_at in Hnew. rewrite <- Hk in Hnew.
        replace (psum ps k + (i - psum ps k)) with i in Hnew by lia. rewrite El in Hnew. exact Hnew.
      + destruct (N.eq_dec (padded_len f spage amt) amt) as [E|NE].
        * rewrite Hout by (right; rewrite E; lia). exact Hb.
        * specialize (Hpadsz NE). lia.
    - rewrite Hout; [exact Hb|].
      destruct (N.lt_ge_cases x a); [auto|]. right.
      destruct (N.le_gt_cases (a + padded_len f spage amt) x); [assumption|]. exfalso.
      apply (op_disjoint _ _ _ _ _ Hop k' k _ _ x Hne Ek' Ek); unfold in_page; cbn [fst snd]; lia. }
  assert (Hpart : forall r, r < amt -> in_part lpage size offset (psum ps k + r)).
  { intros r Hr. unfold in_part. rewrite <- W2.
    assert (w_written w + amt <= w_len w) by lia. lia. }
  split; [split|].
  - exact Hkeep.
  - intros x Hx. assert (a <= x < a + padded_len f spage amt) as Hxr.
    { destruct (N.lt_ge_cases x a); [exfalso; apply Hx, Hout; auto|].
      destruct (N.le_gt_cases (a + padded_len f spage amt) x); [exfalso; apply Hx, Hout; auto|]. lia. }
    unfold may_touch. destruct f.
    + cbn [padded_len] in Hxr. exists (psum ps k + (x - a)). split; [apply Hpart; lia|].
      rewrite (locate_page _ _ _ _ _ Ek) by lia. f_equal. lia.
    + exists (psum ps k), a, p. split; [rewrite <- (N.add_0_r (psum ps k)); apply Hpart; lia|]. split.
      * rewrite <- (N.add_0_r (psum ps k)). rewrite (locate_page _ _ _ _ _ Ek) by lia. f_equal. lia.
      * split; [eapply elem_of_list_lookup_2; exact Ek|]. unfold in_page. cbn [fst snd]. lia.
  - split; [reflexivity|]. constructor; cbn [w_len w_targets w_page w_written w_buf w_stream].
    + exact W1.
    + exact W2.
    + rewrite (asum_take_S _ _ _ Et). cbn [fst]. lia.
    + intros i Hi. destruct (N.lt_ge_cases i (w_written w)).
      * apply Hkeep; [lia|]. apply W4. assumption.
      * specialize (Hnew (i - w_written w) ltac:(lia)).
        replace (offset + w_written w + (i - w_written w)) with (offset + i) in Hnew by lia. exact Hnew.
    + intros i b Eb Hlt. replace (offset + (w_written w + amt) + N.of_nat i)
        with (offset + w_written w + N.of_nat (N.to_nat amt + i)) by lia.
      apply W5; [|lia]. rewrite <- Hbuf. rewrite <- (take_drop (N.to_nat amt) buf), <- app_assoc.
      rewrite lookup_app_r by (rewrite take_length; lia).
      rewrite take_length. replace (N.to_nat amt + i - N.to_nat amt `min` length buf)%nat with i by lia. exact Eb.
    + rewrite <- W6, <- Hbuf. rewrite !app_length, drop_length. lia.
    + auto.
Qed.

(** Frame, for any contents. *)
Definition call_frame (offset : N) (c : wcall) : Prop :=
  match c with
  | Running w => targets_ok f spage ps size offset (w_len w) (w_targets w) /\
                 offset + w_len w = N.min (offset + 2 ^ lpage) size
  | Returned _ => True
  end.

Lemma continue_frame offset valid junk d w buf stream :
  call_frame offset (Running w) ->
  let '(d', c') := write_continue f spage valid junk d w buf stream in
  (forall x, d' x <> d x -> may_touch offset x) /\ call_frame offset c'.
Proof.
  intros [W1 W2]. unfold write_continue.
  destruct (N.ltb_spec (w_len w) (w_written w + N.of_nat (length buf))) as [Hov|Hov]; [split; [congruence|exact I]|].
  destruct (w_targets w !! w_page w) as [[amt a]|] eqn:Et; [|split; [congruence|exact I]].
  destruct (N.ltb_spec (N.of_nat (length buf)) amt) as [Hs|Hs]; [split; [congruence|split; assumption]|].
  destruct (match f with Lite => false | Direct => negb valid end); [split; [congruence|exact I]|].
  split; [|split; assumption].
  destruct (to_page _ _ _ _ _ _ _ W1 _ _ _ Et) as (Hamt & k & p & Ek & Hk & Hp & Hpad & Hpadsz).
  remember (take (N.to_nat amt) buf ++
            ((fun i => junk (N.of_nat i)) <$> seq 0 (N.to_nat (padded_len f spage amt - amt)))) as data eqn:Edata.
  assert (Hdl : N.of_nat (length data) = padded_len f spage amt).
  { rewrite Edata, app_length, take_length, fmap_length, seq_length. lia. }
  assert (Hout : forall x, x < a \/ a + padded_len f spage amt <= x -> dev_write d a data x = d x).
  { intros x Hx. apply dev_write_out. rewrite Hdl. exact Hx. }
  assert (Hpart : forall r, r < amt -> in_part lpage size offset (psum ps k + r)).
  { intros r Hr. unfold in_part. rewrite <- W2.
    pose proof (asum_take_S _ _ _ Et) as HS. cbn [fst] in HS.
    pose proof (asum_take_le (w_targets w) (S (w_page w))) as Hle. rewrite (to_sum _ _ _ _ _ _ _ W1) in Hle. lia. }
  intros x Hx. assert (a <= x < a + padded_len f spage amt) as Hxr.
  { destruct (N.lt_ge_cases x a); [exfalso; apply Hx, Hout; auto|].
    destruct (N.le_gt_cases (a + padded_len f spage amt) x); [exfalso; apply Hx, Hout; auto|]. lia. }
  unfold may_touch. destruct f.
  + cbn [padded_len] in Hxr. exists (psum ps k + (x - a)). split; [apply Hpart; lia|].
    rewrite (locate_page _ _ _ _ _ Ek) by lia. f_equal. lia.
  + exists (psum ps k), a, p. split; [rewrite <- (N.add_0_r (psum ps k)); apply Hpart; lia|]. split.
    * rewrite <- (N.add_0_r (psum ps k)). rewrite (locate_page _ _ _ _ _ Ek) by lia. f_equal. lia.
    * split; [eapply elem_of_list_lookup_2; exact Ek|]. unfold in_page. cbn [fst snd]. lia.
Qed.

Lemma call_step_frame offset valid junk d c :
  call_frame offset c ->
  let '(d', c') := call_step f spage valid junk d c in
  (forall x, d' x <> d x -> may_touch offset x) /\ call_frame offset c'.
Proof.
  intros H. destruct c as [w|r]; cbn [call_step]; [|split; [congruence|exact I]].
  unfold write_step. destruct (w_stream w) as [|[chunk|] stream].
  - destruct (w_buf w); [split; [congruence|exact I]|]. apply continue_frame, H.
  - apply continue_frame, H.
  - split; [congruence|exact I].
Qed.

Lemma start_frame offset len s : offset + 2 ^ lpage < 2 ^ 64 ->
  call_frame offset (write_start f spage lpage o offset len s).
Proof.
  intros Hw. unfold write_start.
  destruct (object_pages_view _ _ _ _ _ Hop) as (lc & t & V).
  destruct (write_check lpage size offset len) eqn:Ec; [exact I|].
  destruct (targets_spec _ _ _ _ _ _ _ _ _ V (op_limit _ _ _ _ _ Hop) Hw Ec) as (ts & Ets & Hts & Hl).
  rewrite Ets. split; assumption.
Qed.

Definition FInv (offs : list N) (d0 : device) (s : device * list wcall) : Prop :=
  length (snd s) = length offs /\
  (forall i offset c, offs !! i = Some offset -> snd s !! i = Some c -> call_frame offset c) /\
  (forall x, fst s x <> d0 x -> exists offset, offset ∈ offs /\ may_touch offset x).

Lemma FInv_run offs d0 s es : FInv offs d0 s -> FInv offs d0 (sys_run f spage s es).
Proof.
  revert s. induction es as [|e es IH]; intros s H; [exact H|]. apply IH. clear IH.
  destruct H as (Hl & Hcalls & Hd). unfold sys_step. destruct s as [d cs]. cbn [fst snd] in *.
  destruct (cs !! e_call e) as [c|] eqn:Ec; [|repeat split; auto].
  destruct (lookup_lt_is_Some_2 offs (e_call e)) as [offset Eq].
  { rewrite <- Hl. eapply lookup_lt_Some. exact Ec. }
  pose proof (call_step_frame offset (e_valid e) (e_junk e) d c (Hcalls _ _ _ Eq Ec)) as Hs.
  destruct (call_step f spage (e_valid e) (e_junk e) d c) as [d' c'] eqn:Es. destruct Hs as [Hdev Hc'].
  split; [cbn [snd]; now rewrite insert_length|]. split.
  - intros i off2 c2 Eq2 Ec2. cbn [fst snd] in *. destruct (decide (i = e_call e)) as [->|Hne].
    + rewrite list_lookup_insert in Ec2 by (eapply lookup_lt_Some; exact Ec). inversion Ec2; subst c2.
      rewrite Eq in Eq2. inversion Eq2; subst. exact Hc'.
    + rewrite list_lookup_insert_ne in Ec2 by congruence. eapply Hcalls; eassumption.
  - intros x Hx. cbn [fst] in *. destruct (N.eq_dec (d' x) (d x)) as [E|NE].
    + apply Hd. congruence.
    + exists offset. split; [eapply elem_of_list_lookup_2; exact Eq|]. apply Hdev. exact NE.
Qed.

Lemma step_ok offset s0 valid junk d w :
  WInv offset s0 d w ->
  let '(d', c') := write_step f spage valid junk d w in
  dev_ok offset d d' /\ call_ok offset (w_len w) s0 d' c'.
Proof.
  intros W. unfold write_step. destruct (w_stream w) as [|[chunk|] stream] eqn:Es.
  - destruct (w_buf w) as [|b buf] eqn:Eb.
    + split; [apply dev_ok_refl|].
      destruct (N.eqb_spec (w_written w) (w_len w)) as [E|]; cbn [negb]; [|exact I]. cbn [call_ok].
      destruct W as [W1 W2 W3 W4 W5 W6 W7]. rewrite Es, Eb in *. cbn [stream_bytes app length] in W6.
      split; [lia|]. split; [apply W7; unfold no_fail; set_solver|]. split; [exact W2|].
      rewrite <- E. exact W4.
    + apply continue_ok; [exact W| |].
      * rewrite Es, Eb. reflexivity.
      * rewrite Es. auto.
  - apply continue_ok; [exact W| |].
    + rewrite Es. cbn [stream_bytes]. now rewrite app_assoc.
    + rewrite Es. unfold no_fail. set_solver.
  - split; [apply dev_ok_refl|exact I].
Qed.

(** Other calls keep their invariant. *)
Lemma call_ok_frame off' offset len s0 d d' c :
  dev_ok off' d d' -> call_ok offset len s0 d c -> call_ok offset len s0 d' c.
Proof.
  intros [Hk _] H. destruct c as [w|[| |]]; cbn [call_ok] in *; auto.
  - destruct H as [Hl [W1 W2 W3 W4 W5 W6 W7]]. split; [exact Hl|]. constructor; auto.
    intros i Hi. apply Hk; [|auto].
    pose proof (asum_take_le (w_targets w) (w_page w)). rewrite W3, (to_sum _ _ _ _ _ _ _ W1) in *. lia.
  - destruct H as (H1 & H2 & H3 & H4). repeat split; auto. intros i Hi. apply Hk; [lia|auto].
Qed.

(** A call's request. *)
Notation request := (N * N * list item)%type.
Definition start_call (q : request) : wcall :=
  let '(offset, len, s) := q in write_start f spage lpage o offset len s.
Definition consistent (q : request) : Prop :=
  let '(offset, len, s) := q in
  offset + 2 ^ lpage < 2 ^ 64 /\
  (forall i b, stream_bytes s !! i = Some b -> N.of_nat i < len -> want (offset + N.of_nat i) = b).

Lemma start_ok d offset len s : consistent (offset, len, s) ->
  call_ok offset len s d (write_start f spage lpage o offset len s).
Proof.
  intros [Hw Hc]. unfold write_start.
  destruct (object_pages_view _ _ _ _ _ Hop) as (lc & t & V).
  destruct (write_check lpage size offset len) eqn:Ec; [exact I|].
  destruct (targets_spec _ _ _ _ _ _ _ _ _ V (op_limit _ _ _ _ _ Hop) Hw Ec) as (ts & Ets & Hts & Hl).
  rewrite Ets. split; [reflexivity|]. constructor; cbn [w_len w_targets w_page w_written w_buf w_stream app].
  - exact Hts.
  - exact Hl.
  - reflexivity.
  - lia.
  - intros i b E Hi. rewrite N.add_0_r. apply Hc; [exact E|lia].
  - lia.
  - auto.
Qed.

Definition SInv (qs : list request) (d0 : device) (s : device * list wcall) : Prop :=
  length (snd s) = length qs /\
  (forall i offset len s0 c, qs !! i = Some (offset, len, s0) -> snd s !! i = Some c ->
     call_ok offset len s0 (fst s) c) /\
  (forall x, fst s x <> d0 x -> exists offset len s0, (offset, len, s0) ∈ qs /\ may_touch offset x).

Lemma SInv_start qs d0 : Forall consistent qs -> SInv qs d0 (d0, start_call <$> qs).
Proof.
  intros Hc. split; [apply fmap_length|]. split; [|intros x H; cbn in H; congruence].
  intros i offset len s0 c Eq Ec. cbn [fst snd] in *. rewrite list_lookup_fmap in Ec.  rewrite Eq in Ec. cbn in Ec.
  inversion Ec; subst c. apply start_ok. rewrite Forall_forall in Hc. apply Hc. eapply elem_of_list_lookup_2. exact Eq.
Qed.

Lemma SInv_step qs d0 s e : SInv qs d0 s -> SInv qs d0 (sys_step f spage s e).
Proof.
  intros (Hl & Hcalls & Hd). unfold sys_step. destruct s as [d cs]. cbn [fst snd] in *.
  destruct (cs !! e_call e) as [c|] eqn:Ec; [|repeat split; auto].
  destruct (lookup_lt_is_Some_2 qs (e_call e)) as [[[offset len] s0] Eq].
  { rewrite <- Hl. eapply lookup_lt_Some. exact Ec. }
  pose proof (Hcalls _ _ _ _ _ Eq Ec) as Hc.
  assert (exists d' c', call_step f spage (e_valid e) (e_junk e) d c = (d', c') /\ dev_ok offset d d' /\ call_ok offset len s0 d' c')
    as (d' & c' & Es & Hdev & Hc').
  { destruct c as [w|r]; cbn [call_step].
    - destruct Hc as [Hwl HW]. pose proof (step_ok offset s0 (e_valid e) (e_junk e) d w HW) as Hs.
      destruct (write_step f spage (e_valid e) (e_junk e) d w) as [d' c']. exists d', c'. rewrite Hwl in Hs. tauto.
    - exists d, (Returned r). split; [reflexivity|]. split; [apply dev_ok_refl|exact Hc]. }
  rewrite Es. split; [cbn [snd]; now rewrite insert_length|]. split.
  - intros i off2 len2 s2 c2 Eq2 Ec2. cbn [fst snd] in *. destruct (decide (i = e_call e)) as [->|Hne].
    + rewrite list_lookup_insert in Ec2 by (eapply lookup_lt_Some; exact Ec). inversion Ec2; subst c2.
      rewrite Eq in Eq2. inversion Eq2; subst. exact Hc'.
    + rewrite list_lookup_insert_ne in Ec2 by congruence.
      eapply call_ok_frame; [exact Hdev|]. eapply Hcalls; eassumption.
  - intros x Hx. cbn [fst] in *. destruct (N.eq_dec (d' x) (d x)) as [E|NE].
    + apply Hd. congruence.
    + exists offset, len, s0. split; [eapply elem_of_list_lookup_2; exact Eq|]. apply Hdev. exact NE.
Qed.

Lemma SInv_run qs d0 s es : SInv qs d0 s -> SInv qs d0 (sys_run f spage s es).
Proof. revert s. induction es as [|e es IH]; intros s H; [exact H|]. apply IH, SInv_step, H. Qed.

End Sys.

(** A decidable check of page disjointness, for examples. *)
Definition disj2 (p q : N * N) : bool := (fst p + 2 ^ snd p <=? fst q) || (fst q + 2 ^ snd q <=? fst p).
Fixpoint disjointb (ps : list (N * N)) : bool :=
  match ps with [] => true | p :: ps => forallb (disj2 p) ps && disjointb ps end.
Lemma disj2_ok p q x : disj2 p q = true -> in_page p x -> in_page q x -> False.
Proof. unfold disj2, in_page. intros H [H1 H2] [H3 H4]. gpow. lia. Qed.
Lemma disjointb_ok ps : disjointb ps = true -> disjoint_pages ps.
Proof.
  induction ps as [|p ps IH]; intros H i j q r x Hij Hi Hj Hq Hr; [discriminate|].
  cbn [disjointb] in H. apply andb_prop in H as [H1 H2]. rewrite forallb_forall in H1.
  assert (forall k z, ps !! k = Some z -> disj2 p z = true) as H3.
  { intros k z E. apply H1. apply elem_of_list_In. eapply elem_of_list_lookup_2. exact E. }
  destruct i as [|i], j as [|j]; cbn in Hi, Hj.
  - lia.
  - inversion Hi; subst q. eapply disj2_ok; [eapply H3; exact Hj|eassumption|eassumption].
  - inversion Hj; subst r. eapply disj2_ok; [eapply H3; exact Hi|eassumption|eassumption].
  - eapply (IH H2 i j); eauto.
Qed.

(** ** Termination *)
Section Term.
Context (f : flavour) (spage : N) (ps : list (N * N)) (size offset : N).

Definition SI (w : writer) : Prop :=
  targets_ok f spage ps size offset (w_len w) (w_targets w) /\
  asum (take (w_page w) (w_targets w)) = w_written w.

Definition all_valid (vjs : list (bool * (N -> N))) : Prop := Forall (fun vj => fst vj = true) vjs.

Lemma cont_cases w buf stream junk d : SI w ->
  let r := snd (write_continue f spage true junk d w buf stream) in
  (w_len w < w_written w + N.of_nat (length buf) /\ r = Returned (WErr DataStreamLengthMismatch)) \/
  (w_written w + N.of_nat (length buf) <= w_len w /\ w_written w = w_len w /\ r = Returned WPanic) \/
  (w_written w + N.of_nat (length buf) <= w_len w /\ w_written w < w_len w /\
   exists amt w', 0 < amt /\ asum (take (S (w_page w)) (w_targets w)) = w_written w + amt /\
     r = Running w' /\ SI w' /\ w_len w' = w_len w /\ w_targets w' = w_targets w /\ w_stream w' = stream /\
     ((N.of_nat (length buf) < amt /\ w_written w' = w_written w /\ w_page w' = w_page w /\ w_buf w' = buf) \/
      (amt <= N.of_nat (length buf) /\ w_written w' = w_written w + amt /\ w_page w' = S (w_page w) /\
       w_buf w' = drop (N.to_nat amt) buf))).
Proof.
  intros [Ht Hs]. unfold write_continue.
  destruct (N.ltb_spec (w_len w) (w_written w + N.of_nat (length buf))) as [Hov|Hov]; [left; cbn; auto|right].
  destruct (w_targets w !! w_page w) as [[amt a]|] eqn:Et.
  - right. split; [exact Hov|].
    destruct (to_page _ _ _ _ _ _ _ Ht _ _ _ Et) as (Hamt & _).
    pose proof (asum_take_S _ _ _ Et) as HS. cbn [fst] in HS. rewrite Hs in HS.
    pose proof (asum_take_le (w_targets w) (S (w_page w))) as Hle.
    rewrite (to_sum _ _ _ _ _ _ _ Ht) in Hle. split; [lia|].
    destruct (N.ltb_spec (N.of_nat (length buf)) amt).
    + exists amt. eexists. split; [exact Hamt|]. split; [exact HS|]. split; [reflexivity|].
      split; [split; assumption|]. cbn. repeat split; auto.
    + assert ((match f with Lite => false | Direct => negb true end) = false) as -> by (destruct f; reflexivity).
      exists amt. eexists. split; [exact Hamt|]. split; [exact HS|]. split; [reflexivity|].
      split; [split; [exact Ht|exact HS]|]. cbn [w_len w_targets w_stream w_written w_page w_buf]. repeat split; auto.
  - left. split; [exact Hov|]. split; [|reflexivity].
    rewrite <- Hs, <- (to_sum _ _ _ _ _ _ _ Ht). f_equal.
    apply take_ge. apply lookup_ge_None_1. exact Et.
Qed.

Definition rest (w : writer) : N := N.of_nat (length (w_buf w ++ stream_bytes (w_stream w))).
Definition measure (w : writer) : nat := (length (w_stream w) + length (w_buf w ++ stream_bytes (w_stream w)))%nat.

Lemma run_returned s r vjs : snd (call_run f spage (s, Returned r) vjs) = Returned r.
Proof. revert s. induction vjs as [|vj vjs IH]; intros s; [reflexivity|]. cbn. apply IH. Qed.

Lemma run_cons d c vj vjs : call_run f spage (d, c) (vj :: vjs) =
  call_run f spage (call_step f spage (fst vj) (snd vj) d c) vjs.
Proof. reflexivity. Qed.

(** [Q]: a property of running states from which the result [r] is certain. *)
Lemma run_to r (Q : writer -> Prop) :
  (forall w junk d, Q w ->
     snd (write_step f spage true junk d w) = Returned r \/
     exists w', snd (write_step f spage true junk d w) = Running w' /\ Q w' /\ (measure w' < measure w)%nat) ->
  forall n w d vjs, Q w -> (measure w < n)%nat -> (n <= length vjs)%nat -> all_valid vjs ->
  snd (call_run f spage (d, Running w) vjs) = Returned r.
Proof.
  intros HQ n. induction n as [|n IH]; intros w d vjs Hw Hm Hn Hv; [lia|].
  destruct vjs as [|[v j] vjs]; [cbn in Hn; lia|]. inversion Hv as [|? ? Hv1 Hv2]; subst. cbn [fst] in Hv1. subst v.
  rewrite run_cons. cbn [call_step fst snd].
  destruct (HQ w j d Hw) as [E|(w' & E & Hw' & Hlt)].
  - destruct (write_step f spage true j d w) as [d' c']. cbn in E. subst c'. apply run_returned.
  - destruct (write_step f spage true j d w) as [d' c']. cbn in E. subst c'.
    apply IH; [exact Hw'|lia|cbn in Hn; lia|exact Hv2].
Qed.

Lemma asum_take_mono ts i j : (i <= j)%nat -> asum (take i ts) <= asum (take j ts).
Proof.
  intros H.
  pose proof (asum_take_le (take j ts) i) as Hx. rewrite take_take in Hx.
  replace (i `min` j)%nat with i in Hx by lia. exact Hx.
Qed.

Ltac fin_step := cbn [snd].

Definition Qexact (w : writer) : Prop :=
  SI w /\ no_fail (w_stream w) /\ no_empty (w_stream w) /\ w_written w + rest w = w_len w.
Definition Qlong (w : writer) : Prop :=
  SI w /\ no_empty (w_stream w) /\ w_len w < w_written w + rest w /\
  w_written w + N.of_nat (length (w_buf w)) <= w_len w.
Definition Qfail (w : writer) : Prop :=
  SI w /\ no_empty (w_stream w) /\ w_written w + rest w <= w_len w /\ Fail ∈ w_stream w.
Definition Qbound (w : writer) : Prop :=
  SI w /\ no_fail (w_stream w) /\ w_written w + rest w < w_len w /\
  exists j, w_written w + rest w = asum (take j (w_targets w)).

Lemma written_le' w : SI w -> w_written w <= w_len w.
Proof. intros [Ht Hs]. rewrite <- Hs, <- (to_sum _ _ _ _ _ _ _ Ht). apply asum_take_le. Qed.

(** Sizes after a continuing step. *)
Lemma cont_sizes (w w' : writer) buf stream amt :
  w_stream w' = stream ->
  ((N.of_nat (length buf) < amt /\ w_written w' = w_written w /\ w_page w' = w_page w /\ w_buf w' = buf) \/
   (amt <= N.of_nat (length buf) /\ w_written w' = w_written w + amt /\ w_page w' = S (w_page w) /\
    w_buf w' = drop (N.to_nat amt) buf)) ->
  w_written w' + rest w' = w_written w + N.of_nat (length (buf ++ stream_bytes stream)) /\
  (length (w_buf w' ++ stream_bytes (w_stream w')) <= length (buf ++ stream_bytes stream))%nat /\
  (amt <= N.of_nat (length buf) -> 0 < amt ->
     (length (w_buf w' ++ stream_bytes (w_stream w')) < length (buf ++ stream_bytes stream))%nat).
Proof.
  intros Es [(H1 & H2 & H3 & H4)|(H1 & H2 & H3 & H4)]; unfold rest; rewrite Es, H2, H4, !app_length, ?drop_length; lia.
Qed.

(** How a call can end. *)
Definition Qall (s0 : list item) (len : N) (w : writer) : Prop :=
  SI w /\ w_len w = len /\ w_written w + rest w = N.of_nat (length (stream_bytes s0)) /\ forall x, x ∈ w_stream w -> x ∈ s0.
Lemma Qall_step s0 len w junk d r : Qall s0 len w -> snd (write_step f spage true junk d w) = r ->
  match r with Running w' => Qall s0 len w' | Returned WOk => True | Returned r => stream_fault s0 len r end.
Proof.
  intros (HS & El & Hr & Hin) <-. unfold write_step. unfold rest in Hr. pose proof (written_le' w HS) as Hle. rewrite El in Hle.
  destruct (w_stream w) as [|[chunk|] stream] eqn:Es.
  - cbn [stream_bytes] in Hr. rewrite app_nil_r in Hr. destruct (w_buf w) as [|b buf] eqn:Eb.
    + cbn [snd]. cbn [length] in Hr. rewrite El. destruct (N.eqb_spec (w_written w) len) as [E|E]; cbn [negb]; [exact I|].
      constructor. lia.
    + rewrite <- Eb in *. assert (Hbl : (0 < length (w_buf w))%nat) by (rewrite Eb; cbn; lia).
      destruct (cont_cases w (w_buf w) [] junk d HS) as [(Ho & ->)|[(Ho & Hl & _)|(Ho & Hl & amt & w' & Hamt & Hsum & -> & HS' & Hlen & Hts & Hst & Hc)]].
      * constructor. lia.
      * exfalso. lia.
      * pose proof (cont_sizes _ _ _ _ _ Hst Hc) as (Hz1 & _). cbn [stream_bytes] in Hz1. rewrite app_nil_r in Hz1.
        split; [exact HS'|]. split; [congruence|]. split; [lia|]. rewrite Hst. intros x Hx. inversion Hx.
  - cbn [stream_bytes] in Hr. rewrite app_assoc in Hr.
    destruct (cont_cases w (w_buf w ++ chunk) stream junk d HS) as [(Ho & ->)|[(Ho & Hl & ->)|(Ho & Hl & amt & w' & Hamt & Hsum & -> & HS' & Hlen & Hts & Hst & Hc)]].
    + constructor. rewrite app_length in Hr. lia.
    + constructor. apply Hin. assert (chunk = []) as ->; [|constructor]. rewrite app_length in Ho. destruct chunk; [reflexivity|]. cbn [length] in Ho. lia.
    + pose proof (cont_sizes _ _ _ _ _ Hst Hc) as (Hz1 & _).
      split; [exact HS'|]. split; [congruence|]. split; [lia|]. rewrite Hst. intros x Hx. apply Hin. now constructor.
  - cbn [snd]. constructor. apply Hin. constructor.
Qed.
Lemma Qall_run s0 len vjs : forall w d d' r, all_valid vjs -> Qall s0 len w ->
  call_run f spage (d, Running w) vjs = (d', Returned r) -> r <> WOk -> stream_fault s0 len r.
Proof.
  induction vjs as [|[v j] vjs IH]; intros w d d' r Hv HQ E Hr; [discriminate|].
  inversion Hv as [|? ? Hv1 Hv2]; subst. cbn [fst] in Hv1. subst v. rewrite run_cons in E. cbn [call_step fst snd] in E.
  pose proof (Qall_step s0 len w j d _ HQ eq_refl) as Hs. destruct (write_step f spage true j d w) as [d1 [w1|r1]]; cbn [snd] in Hs.
  - eapply IH; eassumption.
  - pose proof (run_returned d1 r1 vjs) as Hx. rewrite E in Hx. cbn [snd] in Hx. injection Hx as ->. destruct r1; [contradiction|exact Hs|exact Hs].
Qed.

Lemma Qexact_step w junk d : Qexact w ->
  snd (write_step f spage true junk d w) = Returned WOk \/
  exists w', snd (write_step f spage true junk d w) = Running w' /\ Qexact w' /\ (measure w' < measure w)%nat.
Proof.
  intros (HS & Hnf & Hne & Hr). unfold write_step. unfold rest in Hr.
  destruct (w_stream w) as [|[chunk|] stream] eqn:Es.
  - destruct (w_buf w) as [|b buf] eqn:Eb.
    + left. cbn in Hr. destruct (N.eqb_spec (w_written w) (w_len w)); [reflexivity|lia].
    + rewrite <- Eb in *. assert (Hbl : (0 < length (w_buf w))%nat) by (rewrite Eb; cbn; lia).
      cbn [stream_bytes] in Hr. rewrite app_nil_r in Hr.
      destruct (cont_cases w (w_buf w) [] junk d HS) as [(Ho & _)|[(Ho & Hl & _)|(Ho & Hl & amt & w' & Hamt & Hsum & E & HS' & Hlen & Hts & Hst & Hc)]]; try lia.
      right. exists w'. split; [exact E|].
      pose proof (cont_sizes _ _ _ _ _ Hst Hc) as (Hz1 & Hz2 & Hz3).
      pose proof (asum_take_le (w_targets w) (S (w_page w))) as Hle. rewrite (to_sum _ _ _ _ _ _ _ (proj1 HS)) in Hle.
      cbn [stream_bytes] in *. rewrite app_nil_r in *. specialize (Hz3 ltac:(lia) Hamt).
      split; [|unfold measure; rewrite Hst, Es; cbn [stream_bytes length] in *; rewrite ?app_nil_r in *; rewrite Hst in Hz3; cbn [stream_bytes] in Hz3; rewrite ?app_nil_r in *; lia].
      split; [exact HS'|]. rewrite Hst. split; [exact Hnf|]. split; [exact Hne|]. lia.
  - assert (Hch : (0 < length chunk)%nat).
    { destruct chunk; [|cbn; lia]. exfalso. apply Hne. set_solver. }
    cbn [stream_bytes] in Hr. rewrite app_assoc in Hr.
    destruct (cont_cases w (w_buf w ++ chunk) stream junk d HS) as [(Ho & _)|[(Ho & Hl & _)|(Ho & Hl & amt & w' & Hamt & Hsum & E & HS' & Hlen & Hts & Hst & Hc)]];
      [rewrite !app_length in *; lia|rewrite !app_length in *; lia|].
    right. exists w'. split; [exact E|].
    pose proof (cont_sizes _ _ _ _ _ Hst Hc) as (Hz1 & Hz2 & _).
    split; [|unfold measure; rewrite Hst, Es; cbn [stream_bytes length] in *; rewrite app_assoc; rewrite Hst in Hz2; lia].
    split; [exact HS'|]. rewrite Hst. split; [unfold no_fail in *; set_solver|]. split; [unfold no_empty in *; set_solver|]. lia.
  - exfalso. apply Hnf. set_solver.
Qed.

Lemma Qlong_step w junk d : Qlong w ->
  snd (write_step f spage true junk d w) = Returned (WErr DataStreamLengthMismatch) \/
  exists w', snd (write_step f spage true junk d w) = Running w' /\ Qlong w' /\ (measure w' < measure w)%nat.
Proof.
  intros (HS & Hne & Hr & Hb). unfold write_step. unfold rest in Hr.
  destruct (w_stream w) as [|[chunk|] stream] eqn:Es.
  - destruct (w_buf w) as [|b buf] eqn:Eb.
    + cbn in Hr. lia.
    + rewrite <- Eb in *. cbn [stream_bytes] in Hr. rewrite app_nil_r in Hr.
      destruct (cont_cases w (w_buf w) [] junk d HS) as [(Ho & E)|[(Ho & Hl & _)|(Ho & Hl & _)]]; try lia.
  - assert (Hch : (0 < length chunk)%nat).
    { destruct chunk; [|cbn; lia]. exfalso. apply Hne. set_solver. }
    cbn [stream_bytes] in Hr. rewrite app_assoc in Hr.
    destruct (cont_cases w (w_buf w ++ chunk) stream junk d HS) as [(Ho & E)|[(Ho & Hl & _)|(Ho & Hl & amt & w' & Hamt & Hsum & E & HS' & Hlen & Hts & Hst & Hc)]];
      [left; exact E|rewrite !app_length in *; lia|].
    right. exists w'. split; [exact E|].
    pose proof (cont_sizes _ _ _ _ _ Hst Hc) as (Hz1 & Hz2 & _).
    split; [|unfold measure; rewrite Hst, Es; cbn [stream_bytes length] in *; rewrite app_assoc; rewrite Hst in Hz2; lia].
    split; [exact HS'|]. rewrite Hst. split; [unfold no_empty in *; set_solver|]. split; [lia|].
    destruct Hc as [(H1 & H2 & H3 & H4)|(H1 & H2 & H3 & H4)]; rewrite H2, H4, ?drop_length; lia.
  - cbn [stream_bytes] in Hr. rewrite app_nil_r in Hr. lia.
Qed.

Lemma Qfail_step w junk d : Qfail w ->
  snd (write_step f spage true junk d w) = Returned (WErr DataStreamError) \/
  exists w', snd (write_step f spage true junk d w) = Running w' /\ Qfail w' /\ (measure w' < measure w)%nat.
Proof.
  intros (HS & Hne & Hr & Hf). unfold write_step. unfold rest in Hr.
  destruct (w_stream w) as [|[chunk|] stream] eqn:Es.
  - exfalso. set_solver.
  - assert (Hch : (0 < length chunk)%nat).
    { destruct chunk; [|cbn; lia]. exfalso. apply Hne. set_solver. }
    cbn [stream_bytes] in Hr. rewrite app_assoc in Hr.
    destruct (cont_cases w (w_buf w ++ chunk) stream junk d HS) as [(Ho & _)|[(Ho & Hl & _)|(Ho & Hl & amt & w' & Hamt & Hsum & E & HS' & Hlen & Hts & Hst & Hc)]];
      [rewrite !app_length in *; lia|rewrite !app_length in *; lia|].
    right. exists w'. split; [exact E|].
    pose proof (cont_sizes _ _ _ _ _ Hst Hc) as (Hz1 & Hz2 & _).
    split; [|unfold measure; rewrite Hst, Es; cbn [stream_bytes length] in *; rewrite app_assoc; rewrite Hst in Hz2; lia].
    split; [exact HS'|]. rewrite Hst. split; [unfold no_empty in *; set_solver|]. split; [lia|]. set_solver.
  - left. reflexivity.
Qed.

Lemma Qbound_step w junk d : Qbound w ->
  snd (write_step f spage true junk d w) = Returned (WErr DataStreamLengthMismatch) \/
  exists w', snd (write_step f spage true junk d w) = Running w' /\ Qbound w' /\ (measure w' < measure w)%nat.
Proof.
  intros (HS & Hnf & Hr & j & Hj). unfold write_step. unfold rest in Hr, Hj.
  destruct (w_stream w) as [|[chunk|] stream] eqn:Es.
  - destruct (w_buf w) as [|b buf] eqn:Eb.
    + left. cbn in Hr. destruct (N.eqb_spec (w_written w) (w_len w)); [lia|reflexivity].
    + rewrite <- Eb in *. assert (Hbl : (0 < length (w_buf w))%nat) by (rewrite Eb; cbn; lia).
      cbn [stream_bytes] in Hr, Hj. rewrite app_nil_r in Hr, Hj.
      destruct (cont_cases w (w_buf w) [] junk d HS) as [(Ho & _)|[(Ho & Hl & _)|(Ho & Hl & amt & w' & Hamt & Hsum & E & HS' & Hlen & Hts & Hst & Hc)]]; try lia.
      right. exists w'. split; [exact E|].
      pose proof (cont_sizes _ _ _ _ _ Hst Hc) as (Hz1 & Hz2 & Hz3).
      assert (Hpj : (S (w_page w) <= j)%nat).
      { destruct (Nat.le_gt_cases (S (w_page w)) j); [assumption|].
        pose proof (asum_take_mono (w_targets w) j (w_page w) ltac:(lia)) as Hm. rewrite (proj2 HS) in Hm. lia. }
      pose proof (asum_take_mono (w_targets w) _ _ Hpj) as Hle.
      cbn [stream_bytes] in *. rewrite app_nil_r in *. specialize (Hz3 ltac:(lia) Hamt).
      split; [|unfold measure; rewrite Hst, Es; cbn [stream_bytes length] in *; rewrite ?app_nil_r in *; rewrite Hst in Hz3; cbn [stream_bytes] in Hz3; rewrite ?app_nil_r in *; lia].
      split; [exact HS'|]. rewrite Hst. split; [exact Hnf|]. split; [lia|]. exists j. rewrite Hts. lia.
  - cbn [stream_bytes] in Hr, Hj. rewrite app_assoc in Hr, Hj.
    destruct (cont_cases w (w_buf w ++ chunk) stream junk d HS) as [(Ho & _)|[(Ho & Hl & _)|(Ho & Hl & amt & w' & Hamt & Hsum & E & HS' & Hlen & Hts & Hst & Hc)]];
      [rewrite !app_length in *; lia|rewrite !app_length in *; lia|].
    right. exists w'. split; [exact E|].
    pose proof (cont_sizes _ _ _ _ _ Hst Hc) as (Hz1 & Hz2 & _).
    split; [|unfold measure; rewrite Hst, Es; cbn [stream_bytes length] in *; rewrite app_assoc; rewrite Hst in Hz2; lia].
    split; [exact HS'|]. rewrite Hst. split; [unfold no_fail in *; set_solver|]. split; [lia|]. exists j. rewrite Hts. lia.
  - exfalso. apply Hnf. set_solver.
Qed.

(** A truncated stream that does not end on a page boundary: never returns. *)
Definition Qhang (w : writer) : Prop :=
  SI w /\ no_fail (w_stream w) /\ w_written w + rest w < w_len w /\
  forall j, w_written w + rest w <> asum (take j (w_targets w)).

Lemma Qhang_step w junk d : Qhang w ->
  exists w', snd (write_step f spage true junk d w) = Running w' /\ Qhang w'.
Proof.
  intros (HS & Hnf & Hr & Hj). unfold write_step. unfold rest in Hr, Hj.
  destruct (w_stream w) as [|[chunk|] stream] eqn:Es.
  - destruct (w_buf w) as [|b buf] eqn:Eb.
    + exfalso. apply (Hj (w_page w)). rewrite (proj2 HS). cbn. lia.
    + rewrite <- Eb in *. cbn [stream_bytes] in Hr, Hj. rewrite app_nil_r in Hr, Hj.
      destruct (cont_cases w (w_buf w) [] junk d HS) as [(Ho & _)|[(Ho & Hl & _)|(Ho & Hl & amt & w' & Hamt & Hsum & E & HS' & Hlen & Hts & Hst & Hc)]]; try lia.
      exists w'. split; [exact E|].
      pose proof (cont_sizes _ _ _ _ _ Hst Hc) as (Hz1 & Hz2 & Hz3).
      cbn [stream_bytes] in *. rewrite app_nil_r in *.
      split; [exact HS'|]. rewrite Hst. split; [exact Hnf|]. split; [lia|]. intros j. rewrite Hts, Hz1. apply Hj.
  - cbn [stream_bytes] in Hr, Hj. rewrite app_assoc in Hr, Hj.
    destruct (cont_cases w (w_buf w ++ chunk) stream junk d HS) as [(Ho & _)|[(Ho & Hl & _)|(Ho & Hl & amt & w' & Hamt & Hsum & E & HS' & Hlen & Hts & Hst & Hc)]];
      [rewrite !app_length in *; lia|rewrite !app_length in *; lia|].
    exists w'. split; [exact E|].
    pose proof (cont_sizes _ _ _ _ _ Hst Hc) as (Hz1 & Hz2 & _).
    split; [exact HS'|]. rewrite Hst. split; [unfold no_fail in *; set_solver|]. split; [lia|]. intros j. rewrite Hts, Hz1. apply Hj.
  - exfalso. apply Hnf. set_solver.
Qed.

Lemma Qhang_run vjs : forall w d, Qhang w -> all_valid vjs ->
  exists w', snd (call_run f spage (d, Running w) vjs) = Running w'.
Proof.
  induction vjs as [|[v j] vjs IH]; intros w d Hw Hv; [exists w; reflexivity|].
  inversion Hv as [|? ? Hv1 Hv2]; subst. cbn [fst] in Hv1. subst v.
  rewrite run_cons. cbn [call_step fst snd].
  destruct (Qhang_step w j d Hw) as (w' & E & Hw').
  destruct (write_step f spage true j d w) as [d' c']. cbn in E. subst c'. apply IH; assumption.
Qed.
End Term.
