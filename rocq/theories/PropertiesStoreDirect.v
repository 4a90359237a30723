(** C67: the store of the benchmark that is backed by libblobd-direct answers right, and
    the benchmark on it. *)
From Coq Require Import ZifyBool ZifyNat ZifyN.
From stdpp Require Import base numbers option gmap functions sorting list.
From Verif Require Import Util Bytes BuddyModel PageIOModel TuplesModel DirectModel DirectBase DirectSpec DirectSeqSpec.
From Verif Require Import StoreModel StoreSpec StoreProofs BenchModel BenchSpec BenchProofs PropertiesBench StoreDirect StoreDirectSpec StoreDirectProofs.
Open Scope N_scope.
Ltac Zify.zify_post_hook ::= idtac.

(** On a formatted store of any number of partitions, whatever the hash function, the
    ids, the clock, the index flushers and the device do: after every history of calls
    made in their turn, whatever comes of such a call is the right answer - what was
    written is what is read - or the refusal of a creation. *)
Theorem C67_direct_answers_right : forall hash (c : nat -> dcfg) ys lpage, ys <> [] ->
  (forall p y, ys !! p = Some y -> cfg_ok (c p) /\ dc_lpage (c p) = lpage /\ exists pages, fresh_partition (c p) pages y) ->
  right_while_room (direct_store hash c) ys (2 ^ lpage) (direct_ok (2 ^ lpage)).
Proof.
  intros hash c ys lpage Hn Hp. apply shard_contract; [exact Hn| |].
  - intros st op H. destruct op, st; exact H.
  - intros p y Hy. destruct (Hp p y Hy) as (Hc & <- & pages & Hf). apply (partition_right (c p) pages y Hc Hf).
Qed.

(** ** The benchmark *)
(** On any store of which every answer is right: if the benchmark fails, it is in
    creating the objects, and a run of the full length has done everything. *)
Theorem C67_benchmark_fails_only_in_creating : forall St (A : adapter St) s0 (ok : kstate -> sop -> Prop) g, bench_ok g -> right_while_room A s0 (bc_chunk g) ok -> takes g ok ->
  forall n b, breach g A s0 n b ->
    (bfails g A b -> b_phase b = PCreate /\ exists i rest key, b_todo b !! i = Some (SoCreate key (bc_size g) :: rest) /\ A (b_store b) (SoCreate key (bc_size g)) None) /\
    (n <= run_length g)%nat /\
    (n = run_length g -> b_phase b = PDone /\ Forall (fun l => l = []) (b_todo b) /\
       forall i, (i < bc_count g)%nat -> exists tok rnd, picked g rnd /\ filter (fun op => op_key op = bkey i) (b_hist b).*1 = life g i tok rnd).
Proof.
  intros St A s0 ok g Hg HA0 Ht n b Hb.
  assert (HA : answers_if A s0 (bc_chunk g) ok right_but_length).
  { intros h s F op ans s' Hr Hf Hal Hok Ha. destruct (HA0 h s F op Hr Hf Hal Hok _ Ha) as [(a2 & s2 & E & Hgd)|[E _]]; [|discriminate]. injection E as <- <-. eapply right_loose; eassumption. }
  pose proof (binv_reach g Hg A s0 ok HA Ht n b Hb) as Hi. pose proof (step_count g A s0 n b Hb) as Hc. rewrite (total_length g (bo_all _ Hg)) in Hc.
  split; [|split; [lia|]].
  - intros Hf. destruct (binv_safe g Hg A s0 ok HA Ht b Hi Hf) as (i & op & rest & El & Hn & (F & T1 & T2 & T3 & T4) & Hcr). destruct (HA0 _ _ F op T1 T2 T3 T4 _ Hn) as [(? & ? & E & _)|(_ & key & size & ->)]; [discriminate|].
    specialize (Hcr key size eq_refl). split; [exact Hcr|]. exists i, rest, key. destruct Hi as [_ _ (F' & _ & _ & Hi)]. destruct (Hi i _ El) as (tok & rnd & _ & _ & _ & Hp). rewrite Hcr in Hp. cbn [prog] in Hp. destruct Hp as [[E _]|[E _]]; [|discriminate].
    injection E as -> -> ->. auto.
  - intros ->.
    assert (Hz : (sum_list_with length (b_todo b) = 0 /\ sum_list_with (weight g) (after g (b_phase b)) = 0)%nat) by lia. destruct Hz as [Hz1 Hz2].
    assert (Hd : b_phase b = PDone). { destruct (b_phase b); try reflexivity; exfalso; cbn [after app sum_list_with] in Hz2; unfold weight in Hz2; destruct (bc_skip_deletion g); cbn [sum_list_with] in Hz2; lia. }
    assert (Hall : Forall (fun l => l = []) (b_todo b)).
    { clear -Hz1. induction (b_todo b) as [|l todo IH]; [constructor|]. cbn [sum_list_with] in Hz1. constructor; [destruct l; [reflexivity|cbn [length] in Hz1; lia]|apply IH; lia]. }
    split; [exact Hd|]. split; [exact Hall|]. intros i Hlt. destruct Hi as [_ Hlen (F & Hr & Hf & Hi)].
    destruct (lookup_lt_is_Some_2 (b_todo b) i ltac:(lia)) as [l Hl]. assert (l = []) as -> by (rewrite Forall_forall in Hall; apply Hall; eapply elem_of_list_lookup_2, Hl).
    destruct (Hi i [] Hl) as (tok & rnd & Hp & _ & Hfil & _). rewrite Hd in *. rewrite app_nil_r, (script_life g Hg) in Hfil. eauto.
Qed.
(** ... and so on a direct store, with objects of any size, if no part ends beyond 2^64. *)
Theorem C67_benchmark_on_direct : forall hash (c : nat -> dcfg) ys lpage g, ys <> [] ->
  (forall p y, ys !! p = Some y -> cfg_ok (c p) /\ dc_lpage (c p) = lpage /\ exists pages, fresh_partition (c p) pages y) ->
  bench_ok g -> bc_chunk g = 2 ^ lpage -> bc_size g + 2 ^ lpage <= 2 ^ 64 ->
  right_while_room (direct_store hash c) ys (bc_chunk g) (direct_ok (2 ^ lpage)) /\ takes g (direct_ok (2 ^ lpage)).
Proof.
  intros hash c ys lpage g Hn Hp Hg E Hs. split; [rewrite E; now apply C67_direct_answers_right|].
  constructor; cbn [direct_ok]; auto.
Qed.

(** ** An example: two partitions, the keys told apart by their first byte *)
Definition only_vis (i : nat) (l : label) : option vis := match l with LVis k v => if (k =? i)%nat then Some v else None | _ => None end.
Definition parse (i : nat) (ls : list label) : option (dop * list vis) :=
  match visible ls with LCall j d :: rest => if (j =? i)%nat then vs ← mapM (only_vis i) rest; Some (d, vs) else None | _ => None end.
Lemma only_vis_map i rest : forall vs, mapM (only_vis i) rest = Some vs -> rest = map (LVis i) vs.
Proof.
  induction rest as [|l rest IH]; intros vs E; [injection E as <-; reflexivity|]. cbn [mapM] in E. destruct (only_vis i l) as [v|] eqn:El; [|discriminate]. cbn [mbind option_bind] in E.
  destruct (mapM (only_vis i) rest) as [vs'|]; [|discriminate]. cbn [mbind option_bind] in E. injection E as <-. cbn [map]. rewrite <- (IH _ eq_refl). f_equal.
  destruct l as [|k v'|]; try discriminate. cbn [only_vis] in El. destruct (Nat.eqb_spec k i) as [->|]; [|discriminate]. now injection El as ->.
Qed.
Lemma parse_ok i ls d vs : parse i ls = Some (d, vs) -> visible ls = LCall i d :: map (LVis i) vs.
Proof.
  unfold parse. destruct (visible ls) as [|[j d'| |] rest]; try discriminate. destruct (Nat.eqb_spec j i) as [->|]; [|discriminate]. destruct (mapM (only_vis i) rest) as [vs'|] eqn:E; [|discriminate].
  cbn [mbind option_bind]. intros H. injection H as <- <-. f_equal. now apply only_vis_map.
Qed.
Fixpoint direct_exec (hash : list N -> N) (c : dcfg) (ys : list dsys) (cs : list (sop * list DirectDrive.ev)) : option (list dsys * list (sop * sans) * list (sop * dop)) :=
  match cs with
  | [] => Some (ys, [], [])
  | (op, es) :: cs =>
      let '(p, op') := shard_op (N.of_nat (length ys)) hash op in
      y ← ys !! N.to_nat p; '(y', ls) ← DirectDrive.drive c (y, []) es; '(d, vs) ← parse (length (y_procs y)) ls;
      if existsb is_final vs then
        a ← direct_answer vs; '(ys', h, ds) ← direct_exec hash c (<[N.to_nat p := y']> ys) cs; Some (ys', (op, shard_answer (N.of_nat (length ys)) p a) :: h, (op', d) :: ds)
      else None
  end.
Lemma runs_front {St} (A : adapter St) h s' : forall s0 s1 op ans, A s0 op (Some (ans, s1)) -> runs A s1 h s' -> runs A s0 ((op, ans) :: h) s'.
Proof.
  intros s0 s1 op ans H0 Hr. induction Hr as [|h s op' ans' s' Hr IH Ha]; [apply (ru_snoc A s0 [] s0 op ans s1); [constructor|exact H0]|].
  rewrite app_comm_cons. econstructor; eassumption.
Qed.
Lemma direct_exec_runs hash c cs : forall ys ys' h ds, direct_exec hash c ys cs = Some (ys', h, ds) -> Forall (fun x => direct_call x.1 x.2) ds -> runs (direct_store hash (fun _ => c)) ys h ys'.
Proof.
  induction cs as [|[op es] cs IH]; intros ys ys' h ds E Hd; cbn [direct_exec] in E; [injection E as <- <- <-; constructor|].
  destruct (shard_op (N.of_nat (length ys)) hash op) as [p op'] eqn:Esh. destruct (ys !! N.to_nat p) as [y|] eqn:Ey; [|discriminate]. cbn [mbind option_bind] in E.
  destruct (DirectDrive.drive c (y, []) es) as [[y' ls]|] eqn:Edr; [|discriminate]. cbn [mbind option_bind] in E. destruct (parse (length (y_procs y)) ls) as [[d vs]|] eqn:Ep; [|discriminate]. cbn [mbind option_bind] in E.
  destruct (existsb is_final vs) eqn:Efin; [|discriminate]. destruct (direct_answer vs) as [a|] eqn:Ea; [|discriminate]. cbn [mbind option_bind] in E.
  destruct (direct_exec hash c _ cs) as [[[ys2 h2] ds2]|] eqn:E2; [|discriminate]. cbn [mbind option_bind] in E. apply (inj Some) in E. apply pair_equal_spec in E as [E <-]. apply pair_equal_spec in E as [<- <-].
  apply Forall_cons in Hd as [Hd0 Hd]. cbn [fst snd] in Hd0. eapply runs_front; [|eapply IH; [exact E2|exact Hd]].
  unfold direct_store, sharded. rewrite Esh. exists y, (Some (a, y')). split; [exact Ey|]. split; [|reflexivity].
  exists d, ls, y', vs. split; [exact Hd0|]. split; [apply (DirectDrive.drive_steps c y es (y, []) (y', ls) Edr); constructor|]. split; [now apply parse_ok|].
  split; [|rewrite Ea; reflexivity]. apply existsb_exists in Efin as (v & Hv & Hf). exists v. split; [now apply elem_of_list_In|exact Hf].
Qed.

Definition first_byte (key : list N) : N := default 0 (head key).
Definition dc0 : dcfg := DirectDrive.ex_cfg 10 8192.
Definition dkA : list N := [97]. Definition dkB : list N := [98].
Definition exd_calls : list (sop * list DirectDrive.ev) :=
  let call op es := DirectDrive.ECall op :: es in
  let commit i := DirectDrive.steps i [2; 2; 2; 2; 3] ++ [DirectDrive.EFlush] ++ DirectDrive.steps i [3; 3] in
  [(SoCreate dkA 5, DirectDrive.do_create 0 dkA 5 1 2); (SoCreate dkB 1025, DirectDrive.do_create 0 dkB 1025 1 2);
   (SoWrite dkB 2 1024 [6], call (OWrite 1 1024 1 [Data [6]]) (DirectDrive.steps 1 (replicate 7 2)));
   (SoWrite dkA 3 0 [1; 2; 3; 4; 5], call (OWrite 1 0 5 [Data [1; 2; 3; 4; 5]]) (DirectDrive.steps 1 (replicate 7 2)));
   (SoWrite dkB 2 0 (replicate 1024 8), call (OWrite 1 0 1024 [Data (replicate 1024 8)]) (DirectDrive.steps 2 (replicate 7 2)));
   (SoCommit dkB 2, call (OCommit 1 false) (commit 3%nat)); (SoCommit dkA 3, call (OCommit 1 false) (commit 2%nat));
   (SoInspect dkB, call (OInspect dkB None) (DirectDrive.steps 4 [3])); (SoRead dkB 1023 None, call (ORead dkB None 1023 None 100) (DirectDrive.steps 5 [3; 3; 3; 3]));
   (SoRead dkA 1 (Some 3), call (ORead dkA None 1 (Some 3) 100) (DirectDrive.steps 3 [3; 3; 3]));
   (SoDelete dkA, call (ODelete dkA None) (DirectDrive.steps 4 [3; 3] ++ [DirectDrive.EFlush] ++ DirectDrive.steps 4 [3; 3; 3]))].
Definition exd_hist : list (sop * sans) :=
  [(SoCreate dkA 5, AnToken 3); (SoCreate dkB 1025, AnToken 2); (SoWrite dkB 2 1024 [6], AnUnit); (SoWrite dkA 3 0 [1; 2; 3; 4; 5], AnUnit); (SoWrite dkB 2 0 (replicate 1024 8), AnUnit);
   (SoCommit dkB 2, AnUnit); (SoCommit dkA 3, AnUnit); (SoInspect dkB, AnSize 1025); (SoRead dkB 1023 None, AnData [8; 6]); (SoRead dkA 1 (Some 3), AnData [2; 3]); (SoDelete dkA, AnUnit)].
Definition exd_ops : list (sop * dop) :=
  [(SoCreate dkA 5, OCreate dkA 5); (SoCreate dkB 1025, OCreate dkB 1025); (SoWrite dkB 1 1024 [6], OWrite 1 1024 1 [Data [6]]); (SoWrite dkA 1 0 [1; 2; 3; 4; 5], OWrite 1 0 5 [Data [1; 2; 3; 4; 5]]);
   (SoWrite dkB 1 0 (replicate 1024 8), OWrite 1 0 1024 [Data (replicate 1024 8)]); (SoCommit dkB 1, OCommit 1 false); (SoCommit dkA 1, OCommit 1 false); (SoInspect dkB, OInspect dkB None);
   (SoRead dkB 1023 None, ORead dkB None 1023 None 100); (SoRead dkA 1 (Some 3), ORead dkA None 1 (Some 3) 100); (SoDelete dkA, ODelete dkA None)].
Definition direct_demo (lpage heap : N) (cs : list (sop * list DirectDrive.ev)) : option (list (sop * sans) * list (sop * dop)) :=
  y ← DirectDrive.ex_fresh lpage heap; '(_, h, ds) ← direct_exec first_byte (DirectDrive.ex_cfg lpage heap) [y; y] cs; Some (h, ds).
Lemma direct_demo_runs lpage heap cs h ds : direct_demo lpage heap cs = Some (h, ds) -> Forall (fun x => direct_call x.1 x.2) ds ->
  exists y ys', fresh_partition (DirectDrive.ex_cfg lpage heap) (PropertiesTuples.ex_pages 1) y /\ runs (direct_store first_byte (fun _ => DirectDrive.ex_cfg lpage heap)) [y; y] h ys'.
Proof.
  unfold direct_demo. destruct (DirectDrive.ex_fresh lpage heap) as [y|] eqn:Ey; [|discriminate]. cbn [mbind option_bind].
  destruct (direct_exec first_byte (DirectDrive.ex_cfg lpage heap) [y; y] cs) as [[[ys' h'] ds']|] eqn:E; [|discriminate]. cbn [mbind option_bind]. intros H. apply (inj Some) in H. apply pair_equal_spec in H as [-> ->].
  intros Hd. exists y, ys'. split; [now apply DirectDrive.ex_fresh_ok|]. eapply direct_exec_runs; eassumption.
Qed.
Lemma exd_eq : direct_demo 10 8192 exd_calls = Some (exd_hist, exd_ops).
Proof. vm_compute. reflexivity. Qed.
Lemma exd_ops_ok : Forall (fun x => direct_call x.1 x.2) exd_ops.
Proof. unfold exd_ops. repeat (apply List.Forall_cons; [cbn [fst snd direct_call]; first [reflexivity|exists 100; split; reflexivity]|]). apply List.Forall_nil. Qed.
(** The states of the keys along a history, and whether each call of it is in turn. *)
Definition in_turnb (chunk : N) (st : kstate) (op : sop) : bool :=
  match op, st with
  | SoCreate key size, KAbsent => forallb (fun b => b <? 256) key && (size <? 2 ^ 64)
  | SoWrite _ tok off data, KUpload tok' size parts =>
      (tok =? tok') && bool_decide (off ∈ tiles chunk size) && bool_decide (parts !! off = None) && (blen data =? N.min chunk (size - off)) && (size + chunk <=? 2 ^ 64)
  | SoCommit _ tok, KUpload tok' size parts => (tok =? tok') && forallb (fun off => bool_decide (is_Some (parts !! off))) (tiles chunk size)
  | SoInspect _, KStored _ | SoDelete _, KStored _ => true
  | SoRead _ start fin, KStored data => (start <=? default (blen data) fin) && (default (blen data) fin <=? blen data)
  | _, _ => false
  end.
Lemma in_turnb_ok chunk st op : in_turnb chunk st op = true -> allowed chunk st op /\ direct_ok chunk st op.
Proof.
  destruct op, st; cbn [in_turnb allowed direct_ok]; try discriminate; try (intros _; split; exact I); rewrite ?andb_true_iff.
  - intros [H1 H2]. split; [|exact I]. split; [|now apply N.ltb_lt]. rewrite forallb_forall in H1. apply Forall_forall. intros x Hx. apply N.ltb_lt, H1, elem_of_list_In, Hx.
  - intros [[[[H1 H2] H3] H4] H5]. apply N.eqb_eq in H1, H4. apply bool_decide_eq_true in H2, H3. apply N.leb_le in H5. auto.
  - intros [H1 H2]. apply N.eqb_eq in H1. split; [|exact I]. split; [exact H1|]. rewrite forallb_forall in H2. intros off Ho. eapply bool_decide_eq_true, H2, elem_of_list_In, Ho.
  - intros [H1 H2]. apply N.leb_le in H1, H2. auto.
Qed.
Fixpoint dstates (chunk : N) (F : list N -> kstate) (h : list (sop * sans)) : (list N -> kstate) * bool :=
  match h with
  | [] => (F, true)
  | (op, ans) :: h => let '(F', b) := dstates chunk (<[op_key op := next chunk (F (op_key op)) op ans]> F) h in (F', in_turnb chunk (F (op_key op)) op && b)
  end.
Lemma dstates_follows chunk h2 : forall h1 F F', follows chunk (direct_ok chunk) h1 F -> dstates chunk F h2 = (F', true) -> follows chunk (direct_ok chunk) (h1 ++ h2) F'.
Proof.
  induction h2 as [|[op ans] h2 IH]; intros h1 F F' Hf E; cbn [dstates] in E; [injection E as <-; now rewrite app_nil_r|].
  destruct (dstates chunk _ h2) as [F1 b] eqn:E2. apply pair_equal_spec in E as [<- E]. apply andb_true_iff in E as [E ->]. apply in_turnb_ok in E as [E0 E1].
  replace (h1 ++ (op, ans) :: h2) with ((h1 ++ [(op, ans)]) ++ h2) by (rewrite <- app_assoc; reflexivity). eapply IH; [|exact E2]. constructor; assumption.
Qed.
Lemma dstates_ends chunk h : (dstates chunk (fun _ => KAbsent) h).2 = true -> follows chunk (direct_ok chunk) h (fun key => (dstates chunk (fun _ => KAbsent) h).1 key).
Proof. intros E. apply (dstates_follows chunk h [] (fun _ => KAbsent)); [constructor|]. destruct (dstates chunk _ h) as [F b]. cbn [fst snd] in *. now subst b. Qed.
Definition exd_state (key : list N) : kstate := (dstates (2 ^ 10) (fun _ => KAbsent) exd_hist).1 key.
Lemma exd_turn : (dstates (2 ^ 10) (fun _ => KAbsent) exd_hist).2 = true /\ exd_state dkA = KAbsent /\ exd_state dkB = KStored (replicate 1024 8 ++ [6]).
Proof. split; [vm_compute; reflexivity|]. split; vm_compute; reflexivity. Qed.
Theorem C67_example : exists y ys F, fresh_partition dc0 (PropertiesTuples.ex_pages 1) y /\ cfg_ok dc0 /\ dc_lpage dc0 = 10 /\
  runs (direct_store first_byte (fun _ => dc0)) [y; y] exd_hist ys /\ follows (2 ^ 10) (direct_ok (2 ^ 10)) exd_hist F /\ F dkA = KAbsent /\ F dkB = KStored (replicate 1024 8 ++ [6]) /\
  allowed (2 ^ 10) (F dkB) (SoRead dkB 7 None) /\ direct_ok (2 ^ 10) (F dkB) (SoRead dkB 7 None).
Proof.
  destruct (direct_demo_runs _ _ _ _ _ exd_eq exd_ops_ok) as (y & ys & H1 & H2). destruct exd_turn as (T1 & T2 & T3). exists y, ys, exd_state. split; [exact H1|]. split; [constructor; cbn; lia|]. split; [reflexivity|].
  split; [exact H2|]. split; [apply (dstates_ends _ _ T1)|]. split; [exact T2|]. split; [exact T3|]. rewrite T3. apply in_turnb_ok. vm_compute. reflexivity.
Qed.
Print Assumptions C67_direct_answers_right.
Print Assumptions C67_benchmark_fails_only_in_creating.
Print Assumptions C67_benchmark_on_direct.
Print Assumptions C67_example.
