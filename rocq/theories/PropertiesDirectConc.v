(** Properties C23 and C26: concurrent writes, commits, reads and deletions on a
    direct partition. *)
From Coq Require Import ZifyBool ZifyNat ZifyN.
From stdpp Require Import base numbers list_numbers option gmap sets functions list.
From Verif Require Import Util Bytes BuddyModel BuddySpec PageIOModel PageIOSpec PageIOProofs TuplesModel TuplesSpec.
From Verif Require Import DirectModel DirectBase DirectSteps DirectInv DirectTup DirectAlloc DirectSpec DirectRel DirectSeqSpec DirectSys DirectDrive.
From Verif Require Import DirectHistSpec DirectHist DirectCancelModel.
Open Scope N_scope.
Ltac Zify.zify_post_hook ::= idtac.

Lemma good_any c y ls y' z lk zz : cfg_ok c -> valid_calls (dc_lpage c) ls -> Good c y z lk zz -> dsteps c y ls y' ->
  exists ls' z' lk' zz', spec_steps (dc_lpage c) z ls' z' /\ visible ls' = visible ls /\ Good c y' z' lk' zz'.
Proof.
  intros Hc Hv HG Hs. induction Hs as [y|y ls y1 l y2 Hs IH St].
  - exists [], z, lk, zz. split; [constructor|]. auto.
  - destruct IH as (ls1 & z1 & lk1 & zz1 & H1 & H2 & H3); [intros i op Hin; apply (Hv i); apply elem_of_app; now left|exact HG|].
    assert (Hl : start_ok c l) by (destruct l; cbn; auto; apply (Hv i); apply elem_of_app; right; constructor).
    destruct (good_step _ _ _ _ _ _ _ Hc Hl H3 St) as (ls2 & z2 & lk2 & zz2 & H4 & H5 & H6 & _).
    exists (ls1 ++ ls2), z2, lk2, zz2. split; [eapply spec_app; eassumption|]. split; [rewrite !visible_app; now rewrite H2, H5|exact H6].
Qed.
Lemma dsteps_objs c y ls y' : dsteps c y ls y' -> forall r ob, h_objs (y_sh y) !! r = Some ob ->
  exists ob', h_objs (y_sh y') !! r = Some ob' /\ same_obj ob ob'.
Proof.
  intros H. induction H as [y|y ls y1 l y2 Hs IH St]; intros r ob E; [exists ob; split; [exact E|apply same_obj_refl]|].
  destruct (IH _ _ E) as (ob1 & E1 & Hm1).
  assert (Hle : objs_le (y_sh y1) (y_sh y2)).
  { destruct St as [y3 op|y3 i p o h' p' v Hi Hid Hlt Htm Hs'|y3 i p addr len f Hi Hf|y3 t' Ht]; cbn; try (apply objs_le_refl; reflexivity).
    apply pstep_R in Hs'. eapply step_objs; eassumption. }
  destruct (Hle _ _ E1) as (ob2 & E2 & Hm2 & _). exists ob2. split; [exact E2|].
  destruct Hm1 as (?&?&?&?), Hm2 as (?&?&?&?). repeat split; congruence.
Qed.

(** ** C23 *)
(** Full property: no write call changes a committed object.  Proved for calls
    that run to their end in any interleaving; missing: calls dropped half-way, for
    which it is false (below).

    From the moment an object can be found under its key until it is deleted or
    replaced, no stored byte of it changes, whatever else is running. *)
Theorem C23_committed_bytes_never_change_partial : forall c pages y0 ls1 y1 ls2 y2 key r ob,
  cfg_ok c -> fresh_partition c pages y0 -> dsteps c y0 ls1 y1 -> dsteps c y1 ls2 y2 -> valid_calls (dc_lpage c) (ls1 ++ ls2) ->
  h_com (y_sh y1) !! key = Some r -> h_com (y_sh y2) !! key = Some r -> h_objs (y_sh y1) !! r = Some ob ->
  forall i, i < m_size (b_meta ob) -> stored_byte c y2 ob i = stored_byte c y1 ob i.
Proof.
  intros c pages y0 ls1 y1 ls2 y2 key r ob Hc Hf H1 H2 Hv Hk1 Hk2 Hob i Hi.
  pose proof (fresh_good _ _ _ (ck_pages _ Hc) Hf) as HG0.
  destruct (good_any _ _ _ _ _ _ _ Hc (fun i op Hin => Hv i op (proj2 (elem_of_app _ _ _) (or_introl Hin))) HG0 H1) as (t1 & z1 & lk1 & zz1 & T1 & _ & HG1).
  destruct (good_any _ _ _ _ _ _ _ Hc (fun i op Hin => Hv i op (proj2 (elem_of_app _ _ _) (or_intror Hin))) HG1 H2) as (t2 & z2 & lk2 & zz2 & T2 & _ & HG2).
  destruct (spec_history _ _ _ T1) as (B1 & L1 & G1 & _). destruct (history_grows _ _ _ _ _ _ L1 G1 T2) as (B2 & Hsub & _ & G2).
  destruct HG1 as [(qs1 & sp1 & _ & _ & _ & _ & _ & R1)]. destruct HG2 as [(qs2 & sp2 & _ & _ & _ & _ & _ & R2)].
  pose proof (rl_com _ _ _ _ R1 key) as C1. pose proof (rl_com _ _ _ _ R2 key) as C2. rewrite Hk1 in C1. rewrite Hk2 in C2.
  destruct (ss_com (z_state z1) !! key) as [co1|] eqn:E1; [|contradiction]. destruct (ss_com (z_state z2) !! key) as [co2|] eqn:E2; [|contradiction].
  destruct C1 as (ob1 & F1 & I1 & _ & _ & D1). destruct C2 as (ob2 & F2 & I2 & _ & _ & D2).
  assert (ob1 = ob) as -> by congruence. destruct (dsteps_objs _ _ _ _ H2 _ _ Hob) as (ob3 & F3 & Ha & Hb & _). assert (ob3 = ob2) as -> by congruence.
  destruct (g_com _ _ _ _ G1 _ _ E1) as [k1 X1]. destruct (g_com _ _ _ _ G2 _ _ E2) as [k2 X2].
  assert (Hid : co_id co2 = co_id co1) by congruence. pose proof (lookup_weaken _ _ _ _ X1 Hsub) as X3. rewrite <- Hid, X2 in X3. injection X3 as _ Hbytes.
  specialize (D1 i Hi). rewrite Hb in D2. specialize (D2 i Hi). unfold stored_byte. fold (dpages c (b_meta ob)). unfold byte_at in D1, D2.
  destruct (locate (dpages c (b_meta ob)) i) as [a|]; [|reflexivity]. cbn in *. rewrite D1, D2. congruence.
Qed.
Print Assumptions C23_committed_bytes_never_change_partial.

(** Every object has one content: the one every read of it returns while it
    exists, and, if no part was written by two calls, the one with all the bytes
    of all successful writes to its upload, including those running concurrently
    with the commit. *)
Theorem C23_objects_have_one_content : forall c pages y0 ls y,
  cfg_ok c -> fresh_partition c pages y0 -> dsteps c y0 ls y -> valid_calls (dc_lpage c) ls ->
  exists content : N -> N -> N,
    (forall ls1 i data ls2 id start, visible ls = ls1 ++ LVis i (VChunk data) :: ls2 -> reads ls1 i id start ->
       seen ls2 id \/ still_there y id -> bytes_at (content id) (start + N.of_nat (length (delivered i ls1))) data) /\
    (parts_written_once ls -> forall tok id i off data,
       committed_as ls tok id -> wrote_part ls i tok off data -> bytes_at (content id) off data).
Proof.
  intros c pages y0 ls y Hc Hf Hs Hv. pose proof (fresh_good _ _ _ (ck_pages _ Hc) Hf) as HG0.
  destruct (good_any _ _ _ _ _ _ _ Hc Hv HG0 Hs) as (t & z & lk & zz & T & Hvis & HG).
  destruct (spec_reads _ _ _ T) as (B & B1 & B2 & _). exists B. split.
  - intros ls1 i data ls2 id start E Hr Hst. rewrite <- Hvis in E. apply visible_split in E as (a & b & E & <- & <-).
    rewrite reads_visible in Hr. rewrite seen_visible in Hst. rewrite delivered_visible. eapply B1; [exact E|exact Hr|].
    destruct Hst as [H|(key & r & ob & H1 & H2 & H3)]; [now left|right]. destruct HG as [(qs & sp & _ & _ & _ & _ & _ & R)].
    pose proof (rl_com _ _ _ _ R key) as C. rewrite H1 in C. destruct (ss_com (z_state z) !! key) as [co|] eqn:Ek; [|contradiction].
    destruct C as (ob' & Eo & Ei & _). exists key, co. split; [exact Ek|congruence].
  - rewrite <- once_visible, <- Hvis, once_visible. intros Ho tok id i off data Hcm Hw.
    rewrite <- committed_visible, <- Hvis, committed_visible in Hcm. rewrite <- wrote_visible, <- Hvis, wrote_visible in Hw. eapply B2; eassumption.
Qed.
Print Assumptions C23_objects_have_one_content.

(** A run: two parts of an upload are written concurrently with each other and
    with the commit; two reads run concurrently with the creation of another
    object; at the end the object still exists. *)
Definition c23_data (b : N) : list N := replicate 1024 b.
Definition c23_run : list ev :=
  do_create 0 [97] 1029 1 2
  ++ [ECall (OWrite 1 0 1024 [Data (c23_data 7)]); ECall (OWrite 1 1024 5 [Data [1; 2; 3; 4; 5]]); ECall (OCommit 1 false)]
  ++ steps 1 [2; 2; 2; 2] ++ steps 2 [2; 2; 2; 2] ++ steps 3 [2; 2] ++ steps 1 [2; 2; 2] ++ steps 2 [2; 2; 2]
  ++ steps 3 [2; 2; 3] ++ [EFlush] ++ steps 3 [3; 3]
  ++ [ECall (ORead [97] None 1020 None 1000)] ++ steps 4 [3; 3] ++ [ECall (OCreate [98] 5)] ++ steps 5 [3; 3] ++ steps 4 [4; 4].
Definition c23_labels : list label :=
  [LCall 0 (OCreate [97] 1029); LVis 0 (VRet (RCreated 1)); LCall 1 (OWrite 1 0 1024 [Data (c23_data 7)]);
   LCall 2 (OWrite 1 1024 5 [Data [1; 2; 3; 4; 5]]); LCall 3 (OCommit 1 false); LVis 1 (VRet RWritten); LVis 2 (VRet RWritten);
   LVis 3 (VRet (RCommitted (Some 2))); LCall 4 (ORead [97] None 1020 None 1000); LVis 4 (VRet (RReading 2 1029 1020 1029));
   LVis 4 (VChunk [7; 7; 7; 7]); LCall 5 (OCreate [98] 5); LVis 4 (VChunk [1; 2; 3; 4; 5]); LVis 4 (VEnd RDone)].
Definition there_b (key : list N) (id : N) (y : dsys) : bool :=
  match h_com (y_sh y) !! key ≫= (fun r => h_objs (y_sh y) !! r) with Some ob => b_id ob =? id | None => false end.
Lemma there_b_ok key id y : there_b key id y = true -> still_there y id.
Proof.
  unfold there_b, still_there. destruct (h_com (y_sh y) !! key) as [r|] eqn:E1; [|discriminate]. cbn [mbind option_bind].
  destruct (h_objs (y_sh y) !! r) as [ob|] eqn:E2; [|discriminate]. rewrite N.eqb_eq. intros <-. exists key, r, ob. auto.
Qed.
Definition writes_of (ls : list label) : list (nat * (N * N)) :=
  omap (fun l => match l with LCall i (OWrite tok off _ _) => Some (i, (tok, off)) | _ => None end) ls.
Definition once_b (ls : list label) : bool :=
  let ws := writes_of ls in forallb (fun a => forallb (fun b => negb (bool_decide (snd a = snd b)) || (fst a =? fst b)%nat) ws) ws.
Lemma once_b_ok ls : once_b ls = true -> parts_written_once ls.
Proof.
  unfold once_b. rewrite forallb_forall. intros H i j tok off len st len' st' H1 H2.
  assert (Hin : forall k l s, LCall k (OWrite tok off l s) ∈ ls -> In (k, (tok, off)) (writes_of ls)).
  { intros k l s Hk. apply elem_of_list_In, elem_of_list_omap. eexists. split; [exact Hk|reflexivity]. }
  specialize (H _ (Hin _ _ _ H1)). rewrite forallb_forall in H. specialize (H _ (Hin _ _ _ H2)). cbn in H.
  rewrite bool_decide_eq_true_2 in H by reflexivity. now apply Nat.eqb_eq in H.
Qed.
Theorem C23_example : exists y0 y ls, cfg_ok (ex_cfg 10 8192) /\
  fresh_partition (ex_cfg 10 8192) (PropertiesTuples.ex_pages 1) y0 /\ dsteps (ex_cfg 10 8192) y0 ls y /\ valid_calls 10 ls /\
  visible ls = c23_labels /\ still_there y 2 /\ parts_written_once ls /\ committed_as ls 1 2 /\
  wrote_part ls 1 1 0 (c23_data 7) /\ wrote_part ls 2 1 1024 [1; 2; 3; 4; 5].
Proof.
  destruct (ex_run_shows 10 8192 c23_run (fun y _ => there_b [97] 2 y) c23_labels true ltac:(vm_compute; reflexivity)) as (y0 & y & ls & H1 & H2 & H3 & H4).
  exists y0, y, ls. split; [constructor; cbn; lia|]. split; [exact H1|]. split; [exact H2|].
  split; [apply valid_calls_ok; rewrite H3; reflexivity|]. split; [exact H3|]. split; [eapply there_b_ok, H4|].
  split; [apply once_visible; rewrite H3; apply once_b_ok; vm_compute; reflexivity|].
  assert (Hin : forall k x, c23_labels !! k = Some x -> is_visible x = true -> x ∈ ls).
  { intros k x Hk Hx. apply in_visible; [exact Hx|]. rewrite H3. eapply elem_of_list_lookup_2, Hk. }
  split; [exists 3%nat, false; split; [apply (Hin 4%nat)|apply (Hin 7%nat)]; reflexivity|].
  split; [exists 1024, [Data (c23_data 7)]|exists 5, [Data [1; 2; 3; 4; 5]]].
  - split; [apply (Hin 2%nat); reflexivity|]. split; [apply (Hin 5%nat); reflexivity|]. cbn [stream_bytes]. now rewrite app_nil_r.
  - split; [apply (Hin 3%nat); reflexivity|]. split; [apply (Hin 6%nat); reflexivity|]. reflexivity.
Qed.
Print Assumptions C23_example.

(** ** Dropped calls *)
Lemma xsteps_base c x0 ls0 x ls y : xsteps c x0 ls0 x -> dsteps c (x_sys x) ls y ->
  xsteps c x0 (ls0 ++ (XL <$> ls)) {| x_sys := y; x_orphans := x_orphans x |}.
Proof.
  intros H Hs. remember (x_sys x) as y0 eqn:E. induction Hs as [y|y ls y1 l y2 Hs IH St].
  - subst y. cbn. rewrite app_nil_r. destruct x. exact H.
  - rewrite fmap_app, app_assoc. eapply xsteps_snoc; [apply IH, E|]. exact (xstep_sys c {| x_sys := y1; x_orphans := x_orphans x |} l y2 St).
Qed.
Lemma seen_labels_app a b : seen_labels (a ++ b) = seen_labels a ++ seen_labels b.
Proof. unfold seen_labels. apply bind_app. Qed.
Lemma seen_labels_base ls : seen_labels (XL <$> ls) = visible ls.
Proof. unfold seen_labels, visible. induction ls as [|l ls IH]; [reflexivity|]. cbn. rewrite <- IH. destruct l; reflexivity. Qed.

(** With clients that disconnect the property fails: a write is dropped while
    its device write is under way; the part is written again, the object is
    committed, and read; then the device write of the dropped call completes and
    the object has other bytes. *)
Definition c23_before : list ev :=
  do_create 0 [97] 5 1 2 ++ [ECall (OWrite 1 0 5 [Data [9; 9; 9; 9; 9]])] ++ steps 1 (replicate 4 2).
Definition c23_after : list ev :=
  [ECall (OWrite 1 0 5 [Data [1; 2; 3; 4; 5]])] ++ steps 2 (replicate 7 2)
  ++ [ECall (OCommit 1 false)] ++ steps 3 [2; 2; 2; 2; 3] ++ [EFlush] ++ steps 3 [3; 3]
  ++ [ECall (ORead [97] None 0 None 100)] ++ steps 4 [3; 3; 3].
Definition c23_again : list ev := [ECall (ORead [97] None 0 None 100)] ++ steps 5 [3; 3; 3].
Definition c23_x_labels : list label :=
  [LCall 0 (OCreate [97] 5); LVis 0 (VRet (RCreated 1)); LCall 1 (OWrite 1 0 5 [Data [9; 9; 9; 9; 9]]);
   LCall 2 (OWrite 1 0 5 [Data [1; 2; 3; 4; 5]]); LVis 2 (VRet RWritten); LCall 3 (OCommit 1 false); LVis 3 (VRet (RCommitted (Some 2)));
   LCall 4 (ORead [97] None 0 None 100); LVis 4 (VRet (RReading 2 5 0 5)); LVis 4 (VChunk [1; 2; 3; 4; 5]); LVis 4 (VEnd RDone);
   LCall 5 (ORead [97] None 0 None 100); LVis 5 (VRet (RReading 2 5 0 5)); LVis 5 (VChunk [9; 9; 9; 9; 9]); LVis 5 (VEnd RDone)].
(** The drop of call 1 and the completion of its write. *)
Definition dropped (c : dcfg) (i : nat) (y : dsys) : option (dsys * (N * list N)) :=
  p ← y_procs y !! i;
  if waits p then
    a ← pending_write c (fun _ => 0) p; Some ({| y_sh := drop_guard (y_sh y) p; y_procs := <[i := PDone]> (y_procs y) |}, a)
  else None.
Definition landed (y : dsys) (a : N * list N) : dsys :=
  {| y_sh := set_dev (y_sh y) (dev_write (h_dev (y_sh y)) (fst a) (snd a)); y_procs := y_procs y |}.
Definition c23_x : option (list label) :=
  '(y1, l1) ← ex_run 10 8192 c23_before;
  '(y2, a) ← dropped (ex_cfg 10 8192) 1 y1;
  '(y3, l3) ← drive (ex_cfg 10 8192) (y2, []) c23_after;
  '(y4, l4) ← drive (ex_cfg 10 8192) (landed y3 a, []) c23_again;
  Some (visible l1 ++ visible l3 ++ visible l4).
Theorem C23_dropped_write_changes_committed_object_refuted : exists c pages y0 ls x,
  cfg_ok c /\ fresh_partition c pages y0 /\ xsteps c {| x_sys := y0; x_orphans := [] |} ls x /\ seen_labels ls = c23_x_labels.
Proof.
  assert (E : c23_x = Some c23_x_labels) by (vm_compute; reflexivity). unfold c23_x in E.
  destruct (ex_run 10 8192 c23_before) as [[y1 l1]|] eqn:E1; [|discriminate]. cbn [mbind option_bind] in E.
  destruct (dropped (ex_cfg 10 8192) 1 y1) as [[y2 a]|] eqn:E2; [|discriminate]. cbn [mbind option_bind] in E.
  destruct (drive (ex_cfg 10 8192) (y2, []) c23_after) as [[y3 l3]|] eqn:E3; [|discriminate]. cbn [mbind option_bind] in E.
  destruct (drive (ex_cfg 10 8192) (landed y3 a, []) c23_again) as [[y4 l4]|] eqn:E4; [|discriminate]. cbn [mbind option_bind] in E.
  injection E as E. destruct (ex_run_steps _ _ _ _ _ E1) as (y0 & Hf & S1).
  pose proof (xsteps_base _ _ [] {| x_sys := y0; x_orphans := [] |} _ _ (xsteps_nil _ _) S1) as X1. cbn [app x_orphans] in X1.
  unfold dropped in E2. destruct (y_procs y1 !! 1%nat) as [p|] eqn:Ep; [|discriminate]. cbn [mbind option_bind] in E2.
  destruct (waits p) eqn:Ew; [|discriminate]. destruct (pending_write (ex_cfg 10 8192) (fun _ => 0) p) as [[addr data]|] eqn:Epw; [|discriminate].
  cbn [mbind option_bind] in E2. injection E2 as <- <-.
  pose proof (xsteps_snoc _ _ _ _ _ _ X1 (xstep_drop _ {| x_sys := y1; x_orphans := [] |} 1 p (fun _ => 0) Ep Ew)) as X2.
  cbn [x_sys x_orphans app] in X2. rewrite Epw in X2. cbn [option_list] in X2.
  pose proof (drive_steps _ _ _ _ _ E3 (dsteps_nil _ _)) as S3. cbn [fst snd] in S3.
  pose proof (xsteps_base _ _ _ _ _ _ X2 S3) as X3. cbn [x_orphans] in X3.
  pose proof (xsteps_snoc _ _ _ _ _ _ X3 (xstep_land _ {| x_sys := y3; x_orphans := [(addr, data)] |} [] addr data [] eq_refl)) as X4.
  cbn [x_sys x_orphans app] in X4.
  pose proof (drive_steps _ _ _ _ _ E4 (dsteps_nil _ _)) as S4. cbn [fst snd] in S4.
  pose proof (xsteps_base _ _ _ _ _ _ X4 S4) as X5. cbn [x_orphans] in X5.
  eexists (ex_cfg 10 8192), (PropertiesTuples.ex_pages 1), y0, _, _. split; [constructor; cbn; lia|]. split; [exact Hf|]. split; [exact X5|].
  rewrite !seen_labels_app, !seen_labels_base. rewrite <- E. rewrite !app_nil_r, <- !app_assoc. reflexivity.
Qed.
Print Assumptions C23_dropped_write_changes_committed_object_refuted.

(** ** C26 *)
(** Full property: a read returns bytes of its object or an error.  It holds for
    what is read while the object exists, that is, if some call finds it later or it
    exists at the end. *)
Theorem C26_reads_of_existing_objects_partial : forall c pages y0 ls y,
  cfg_ok c -> fresh_partition c pages y0 -> dsteps c y0 ls y -> valid_calls (dc_lpage c) ls ->
  exists content : N -> N -> N,
    (forall ls1 i data ls2 id start, visible ls = ls1 ++ LVis i (VChunk data) :: ls2 -> reads ls1 i id start ->
       seen ls2 id \/ still_there y id -> bytes_at (content id) (start + N.of_nat (length (delivered i ls1))) data) /\
    (parts_written_once ls -> forall tok id i off data,
       committed_as ls tok id -> wrote_part ls i tok off data -> bytes_at (content id) off data).
Proof. exact C23_objects_have_one_content. Qed.
Print Assumptions C26_reads_of_existing_objects_partial.

(** It fails for a read that overlaps a deletion: nothing marks a deleted object
    (delete_object.rs:44-56; the check of read_object.rs:58-64 asks whether the
    object is committed, which it stays forever), so the stream goes on and returns
    what was written to the space since: the bytes of another key's upload. *)
Definition c26_run : list ev :=
  do_create 0 [97] 5 1 2 ++ [ECall (OWrite 1 0 5 [Data [1; 2; 3; 4; 5]])] ++ steps 1 (replicate 7 2)
  ++ [ECall (OCommit 1 false)] ++ steps 2 [2; 2; 2; 2; 3] ++ [EFlush] ++ steps 2 [3; 3]
  ++ [ECall (ORead [97] None 0 None 100)] ++ steps 3 [3]
  ++ [ECall (ODelete [97] None)] ++ steps 4 [3; 3] ++ [EFlush] ++ steps 4 [3; 3; 3]
  ++ do_create 5 [98] 5 3 4 ++ [ECall (OWrite 3 0 5 [Data [9; 9; 9; 9; 9]])] ++ steps 6 (replicate 7 4)
  ++ steps 3 [4; 4].
Definition c26_labels : list label :=
  [LCall 0 (OCreate [97] 5); LVis 0 (VRet (RCreated 1)); LCall 1 (OWrite 1 0 5 [Data [1; 2; 3; 4; 5]]); LVis 1 (VRet RWritten);
   LCall 2 (OCommit 1 false); LVis 2 (VRet (RCommitted (Some 2)));
   LCall 3 (ORead [97] None 0 None 100); LVis 3 (VRet (RReading 2 5 0 5));
   LCall 4 (ODelete [97] None); LVis 4 (VRet RDeleted);
   LCall 5 (OCreate [98] 5); LVis 5 (VRet (RCreated 3)); LCall 6 (OWrite 3 0 5 [Data [9; 9; 9; 9; 9]]); LVis 6 (VRet RWritten);
   LVis 3 (VChunk [9; 9; 9; 9; 9]); LVis 3 (VEnd RDone)].
Theorem C26_read_returns_bytes_of_another_object_refuted : exists c pages y0 ls y,
  cfg_ok c /\ fresh_partition c pages y0 /\ dsteps c y0 ls y /\ valid_calls (dc_lpage c) ls /\ visible ls = c26_labels.
Proof.
  destruct (ex_run_shows 10 8192 c26_run (fun _ _ => tt) c26_labels tt ltac:(vm_compute; reflexivity)) as (y0 & y & ls & H1 & H2 & H3 & _).
  exists (ex_cfg 10 8192), (PropertiesTuples.ex_pages 1), y0, ls, y. split; [constructor; cbn; lia|]. split; [exact H1|]. split; [exact H2|].
  split; [|exact H3]. apply valid_calls_ok; rewrite H3; reflexivity.
Qed.
Print Assumptions C26_read_returns_bytes_of_another_object_refuted.
