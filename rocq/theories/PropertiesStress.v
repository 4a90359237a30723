(** C63: the stress tester. *)
From Coq Require Import ZifyBool ZifyNat ZifyN.
From stdpp Require Import base numbers option gmap sets functions list.
From Verif Require Import Util Bytes PageIOModel PageIOSpec DirectModel DirectSpec DirectBase DirectSeqSpec DirectSys DirectHist DirectDrive.
From Verif Require Import StressModel StressSpec StressProofs StressOwn StressSys StressPast.
From Verif Require PropertiesTuples.
Open Scope N_scope.
Ltac Zify.zify_post_hook ::= idtac.

(** On the direct store, whatever the schedule of the workers and of the store, no
    assertion of the tester ever fails: a worker only panics when the store has no
    room for a new object. *)
Theorem C63_direct_passes g c pages ls ts k : cfg_ok c -> stress_cfg g (dc_lpage c) -> stress_direct g c pages ls ts ->
  ts !! k = Some TFailed ->
  exists key i, ob_key g k = Some key /\ LCall i (OCreate key (ob_len g k)) ∈ ls /\ LVis i (VRet RPanicked) ∈ ls.
Proof.
  intros Hc Hg H Hk. destruct (stress_direct_inv _ _ _ _ _ Hc Hg H) as (ls' & z & Hv & HI).
  destruct (iv_fits _ _ _ _ HI _ _ Hk) as (key & E & i & F1 & F2). exists key, i. split; [exact E|].
  split; [apply (proj1 (in_visible (LCall i _) ls eq_refl))|apply (proj1 (in_visible (LVis i _) ls eq_refl))]; rewrite <- Hv.
  - now apply (proj2 (in_visible (LCall i _) ls' eq_refl)).
  - now apply (proj2 (in_visible (LVis i _) ls' eq_refl)).
Qed.

(** And no task is ever stuck: a worker that takes one can make its call. *)
Theorem C63_tasks_can_go_on g c pages ls ts k t : cfg_ok c -> stress_cfg g (dc_lpage c) -> stress_direct g c pages ls ts ->
  ts !! k = Some (TQueued t) -> exists fin op, picks g k t fin /\ task_call g k t fin = Some op.
Proof.
  intros Hc Hg H Hk. destruct (stress_direct_inv _ _ _ _ _ Hc Hg H) as (ls' & z & Hv & HI). exists (ob_len g k).
  destruct (task_call g k t (ob_len g k)) as [op|] eqn:E; [|exfalso; eapply (call_some _ _ Hg); eassumption].
  exists op. split; [|reflexivity]. destruct t; cbn [picks]; try exact I. lia.
Qed.

(** Whatever the store: when the tester is done with an object, it has created it,
    written all of it, committed it, found it under its id with its size, read each
    of its bytes with the value it wrote, and deleted it. *)
Theorem C63_done_means_tested g lpage ls ts k : stress_cfg g lpage -> stress g ls ts -> ts !! k = Some TOver ->
  exists key tok id, ob_key g k = Some key /\ tested g ls k key tok id.
Proof.
  intros Hg H Hk. pose proof (past _ _ _ H) as HP. destruct (ob_key_some _ _ Hg k) as (key & E). exists key.
  destruct (came_tested g lpage Hg ls k key E (pa_came _ _ _ HP _ _ Hk)) as (tok & id & Ht). eauto.
Qed.

(** Whatever the store: a result that is not as expected makes the tester fail, for
    good.  [wrong]: an error or a panic, a wrong size or id on inspection, a stream
    with an error, too short or too long, or with a wrong byte. *)
Inductive wrong (g : stcfg) : nat -> dop -> list vis -> Prop :=
| wr_failed k op e vs : VRet (RFailed e) ∈ vs -> wrong g k op vs
| wr_panicked k op vs : VRet RPanicked ∈ vs -> wrong g k op vs
| wr_id k key id oid size created : id <> Some oid -> wrong g k (OInspect key id) [VRet (RInspected oid size created)]
| wr_size k key id oid size created : size <> ob_len g k -> wrong g k (OInspect key id) [VRet (RInspected oid size created)]
| wr_stream k key id a fin r vs : (forall chunks, vs <> map VChunk chunks ++ [VEnd RDone]) -> wrong g k (ORead key id a (Some fin) 16384) (VRet r :: vs)
| wr_bytes k key id a fin r chunks : concat chunks <> slice (ob_data g k) a fin ->
    wrong g k (ORead key id a (Some fin) 16384) (VRet r :: map VChunk chunks ++ [VEnd RDone]).
Lemma chunks_inj c1 c2 : map VChunk c1 = map VChunk c2 -> c1 = c2.
Proof. revert c2. induction c1 as [|x c1 IH]; intros [|y c2] H; try discriminate H; [reflexivity|]. injection H as -> H. f_equal. now apply IH. Qed.
Lemma wrong_panics g lpage k key t fin op vs : stress_cfg g lpage -> ob_key g k = Some key -> picks g k t fin -> task_call g k t fin = Some op ->
  wrong g k op vs -> after g k t fin vs = Panic.
Proof.
  intros Hg Hkey Hp Hc Hw. unfold task_call in Hc. rewrite Hkey in Hc. cbn [mbind option_bind] in Hc.
  assert (Hchunks : forall chunks, VRet RPanicked ∉ map VChunk chunks ++ [VEnd RDone] /\ forall e, VRet (RFailed e) ∉ map VChunk chunks ++ [VEnd RDone]).
  { intros chunks. split; [|intros e]; rewrite elem_of_app, elem_of_list_fmap, elem_of_list_singleton; intros [(x & E & _)|E]; discriminate E. }
  assert (Hread : forall id off vs, t = TRead id off ->
    (forall chunks x y z w, vs = VRet (RReading x y z w) :: map VChunk chunks ++ [VEnd RDone] -> off < ob_len g k -> concat chunks = slice (ob_data g k) off fin -> False) ->
    off < ob_len g k -> after g k t fin vs = Panic).
  { clear op vs Hc Hw. intros id off vs -> Hn Hoff. cbn [after]. destruct vs as [|[r| |] vs]; try reflexivity. destruct r; try reflexivity.
    destruct (stream_of vs) as [chunks|] eqn:Es; [|reflexivity]. cbn [mbind option_bind]. cbn [picks] in Hp. specialize (Hp Hoff) as [P1 P2].
    destruct (check_chunks g k off fin chunks) as [off'|] eqn:Ec; [|reflexivity]. apply (check_chunks_inv _ _ Hg) in Ec as (E1 & E2 & E3); [|lia..].
    destruct (N.eqb_spec off' fin) as [->|]; [|reflexivity]. exfalso. apply stream_of_inv in Es as ->. eapply Hn; [reflexivity|exact Hoff|exact E3]. }
  destruct t as [|tok off|tok|id|id off|id].
  - apply (inj Some) in Hc as <-. cbn [after]. destruct vs as [|[[]| |] [|]]; try reflexivity. exfalso. inversion Hw as [? ? ? ? H|? ? ? H| | | |]; subst; apply elem_of_list_singleton in H; discriminate H.
  - destruct (pool_get _ _ _); [|discriminate Hc]. cbn [mbind option_bind] in Hc. apply (inj Some) in Hc as <-. cbn [after]. destruct vs as [|[[]| |] [|]]; try reflexivity.
    exfalso. inversion Hw as [? ? ? ? H|? ? ? H| | | |]; subst; apply elem_of_list_singleton in H; discriminate H.
  - apply (inj Some) in Hc as <-. cbn [after]. destruct vs as [|[[]| |] [|]]; try reflexivity; destruct id; try reflexivity.
    exfalso. inversion Hw as [? ? ? ? H|? ? ? H| | | |]; subst; apply elem_of_list_singleton in H; discriminate H.
  - apply (inj Some) in Hc as <-. cbn [after]. destruct vs as [|[[]| |] [|]]; try reflexivity. destruct (decide _) as [E|]; [|reflexivity]. destruct (N.eqb_spec size (ob_len g k)) as [E'|]; [|reflexivity].
    exfalso. inversion Hw as [? ? ? ? H|? ? ? H|? ? ? ? ? ? H|? ? ? ? ? ? H| |]; subst; try (apply elem_of_list_singleton in H; discriminate H); congruence.
  - destruct (N.ltb_spec off (ob_len g k)) as [Hlt|]; [|discriminate Hc]. apply (inj Some) in Hc as <-. apply (Hread id off); [reflexivity| |exact Hlt].
    intros chunks x y z w -> _ Hb. inversion Hw as [? ? ? ? H|? ? ? H| | |? ? ? ? ? ? ? H|? ? ? ? ? ? ch H]; subst.
    + apply elem_of_cons in H as [H|H]; [discriminate H|]. now apply (proj2 (Hchunks chunks)) in H.
    + apply elem_of_cons in H as [H|H]; [discriminate H|]. now apply (proj1 (Hchunks chunks)) in H.
    + now apply (H chunks).
    + match goal with E : map VChunk ch ++ _ = _ |- _ => apply app_inj_2 in E as [E _]; [|reflexivity]; apply chunks_inj in E; subst; contradiction end.
  - apply (inj Some) in Hc as <-. cbn [after]. destruct vs as [|[[]| |] [|]]; try reflexivity. exfalso. inversion Hw as [? ? ? ? H|? ? ? H| | | |]; subst; apply elem_of_list_singleton in H; discriminate H.
Qed.

(** The object of a call that names a key. *)
Definition op_key (op : dop) : option (list N) :=
  match op with OCreate key _ | OInspect key _ | ORead key _ _ _ _ | ODelete key _ => Some key | _ => None end.
Theorem C63_wrong_results_are_noticed g lpage ls ts k key i op vs : stress_cfg g lpage -> stress g ls ts -> (k < sg_objects g)%nat -> ob_key g k = Some key ->
  did ls i op vs -> op_key op = Some key -> wrong g k op vs -> ts !! k = Some TFailed.
Proof.
  intros Hg H Hk Hkey (H1 & H2 & H3) Hop Hw. pose proof (past _ _ _ H) as HP. destruct (pa_noticed _ _ _ HP _ _ H1) as (k' & t & fin & Hk' & Hp & Hc & Hd).
  assert (k' = k) as ->.
  { destruct (ob_key_some _ _ Hg k') as (key' & E). eapply (ob_keys_differ _ _ Hg); [exact Hk'|exact Hk|exact E|]. rewrite Hkey, <- Hop.
    unfold task_call in Hc. rewrite E in Hc. cbn [mbind option_bind] in Hc. destruct t; try (apply (inj Some) in Hc as <-; try discriminate Hop; reflexivity).
    - destruct (pool_get _ _ _); [|discriminate Hc]. cbn [mbind option_bind] in Hc. apply (inj Some) in Hc as <-. discriminate Hop.
    - destruct (_ <? _); [|discriminate Hc]. apply (inj Some) in Hc as <-. reflexivity. }
  destruct Hd as [Hd|[_ Hd]].
  - exfalso. destruct (pa_came _ _ _ HP _ _ Hd) as (_ & _ & _ & _ & Hn). exact (Hn H3).
  - apply Hd. rewrite H2. eapply wrong_panics; eauto.
Qed.
(** A write or a commit that fails is noticed too. *)
Theorem C63_failures_are_noticed g lpage ls ts i op v : stress_cfg g lpage -> stress g ls ts -> LCall i op ∈ ls -> LVis i v ∈ ls ->
  (exists e, v = VRet (RFailed e)) \/ v = VRet RPanicked -> exists k, ts !! k = Some TFailed.
Proof.
  intros Hg H H1 Hv He. assert (H3 : finished ls i) by (exists v; split; [exact Hv|]; destruct He as [[e ->]| ->]; reflexivity).
  pose proof (past _ _ _ H) as HP. destruct (pa_noticed _ _ _ HP _ _ H1) as (k & t & fin & Hk & Hp & Hc & Hd). exists k. destruct Hd as [Hd|[_ Hd]].
  - exfalso. destruct (pa_came _ _ _ HP _ _ Hd) as (_ & _ & _ & _ & Hn). exact (Hn H3).
  - apply Hd. destruct (ob_key_some _ _ Hg k) as (key & E). eapply wrong_panics; [exact Hg|exact E|exact Hp|exact Hc|]. apply in_results in Hv.
    destruct He as [[e ->]| ->]; [eapply wr_failed|eapply wr_panicked]; exact Hv.
Qed.

(** The objects have different keys, so that their tests do not disturb each other. *)
Theorem C63_keys_differ g lpage k k' : stress_cfg g lpage -> (k < sg_objects g)%nat -> (k' < sg_objects g)%nat -> k <> k' ->
  exists key key', ob_key g k = Some key /\ ob_key g k' = Some key' /\ key <> key'.
Proof.
  intros Hg Hk Hk' Hne. destruct (ob_key_some _ _ Hg k) as (key & E). destruct (ob_key_some _ _ Hg k') as (key' & E'). exists key, key'. split; [exact E|]. split; [exact E'|].
  intros ->. apply Hne. eapply (ob_keys_differ _ _ Hg); eassumption.
Qed.

(** ** A run *)
Inductive sev := SStart (k : nat) (fin : N) | SGo (k : nat) | SFlush.
Definition picks_b (g : stcfg) (k : nat) (t : task) (fin : N) : bool :=
  match t with TRead _ off => (off <? fin) && (fin <=? ob_len g k) | _ => true end.
Definition unused_b (ls : list label) (i : nat) : bool := forallb (fun l => match l with LCall j _ => negb (j =? i)%nat | _ => true end) ls.
Definition sdrive1 (g : stcfg) (c : dcfg) (x : dsys * list label * list tstate) (e : sev) : dsys * list label * list tstate :=
  let '(y, ls, ts) := x in
  match e with
  | SStart k fin =>
      match ts !! k with
      | Some (TQueued t) =>
          match task_call g k t fin with
          | Some op => if picks_b g k t fin && unused_b ls (length (y_procs y)) then
                         match drive1 c (y, ls) (ECall op) with Some (y, ls) => (y, ls, <[k := TRunning (length (y_procs y) - 1) t fin []]> ts) | None => x end
                       else x
          | None => x
          end
      | _ => x
      end
  | SGo k =>
      match ts !! k with
      | Some (TRunning i t fin seen) =>
          match drive1 c (y, ls) (EStep i (1000 + N.of_nat (length ls))) with
          | Some (y, ls) =>
              (y, ls, match list.last ls with
                      | Some (LVis _ v) => <[k := if is_final v then state_of (after g k t fin (seen ++ [v])) else TRunning i t fin (seen ++ [v])]> ts
                      | _ => ts
                      end)
          | None => x
          end
      | _ => x
      end
  | SFlush => match drive1 c (y, ls) EFlush with Some (y, ls) => (y, ls, ts) | None => x end
  end.
Definition sdrive (g : stcfg) (c : dcfg) (x : dsys * list label * list tstate) (es : list sev) : dsys * list label * list tstate := foldl (sdrive1 g c) x es.
Lemma drive1_label c y ls e y' ls' : drive1 c (y, ls) e = Some (y', ls') ->
  match e with
  | ECall op => ls' = ls ++ [LCall (length (y_procs y)) op] /\ length (y_procs y') = S (length (y_procs y))
  | EStep i _ => exists v, ls' = ls ++ [lab i v]
  | EFlush => ls' = ls ++ [LTau; LTau; LTau]
  end.
Proof.
  destruct e as [op|i id|]; cbn [drive1].
  - intros H. injection H as <- <-. split; [reflexivity|]. cbn [y_procs]. rewrite app_length. cbn. lia.
  - destruct (y_procs y !! i) as [p|]; [|discriminate]. cbn [mbind option_bind]. destruct (_ && _); [|discriminate]. destruct (pstep _ _ _ _) as [[[h p'] v]|]; [|discriminate].
    cbn [mbind option_bind]. intros H. injection H as <- <-. eauto.
  - destruct (PropertiesTuples.one_flush _); [|discriminate]. cbn [mbind option_bind]. intros H. injection H as <- <-. reflexivity.
Qed.
Lemma sdrive1_ok g c y0 y ls ts e y' ls' ts' : dsteps c y0 ls y -> stress g ls ts -> sdrive1 g c (y, ls, ts) e = (y', ls', ts') -> dsteps c y0 ls' y' /\ stress g ls' ts'.
Proof.
  intros Hs Hr H. destruct e as [k fin|k|].
  - cbn [sdrive1] in H. assert (Hno : (y, ls, ts) = (y', ls', ts') -> dsteps c y0 ls' y' /\ stress g ls' ts') by (intros E; injection E as <- <- <-; auto).
    destruct (ts !! k) as [[t| | |]|] eqn:Ek; try (exact (Hno H)). destruct (task_call g k t fin) as [op|] eqn:Ec; [|exact (Hno H)].
    destruct (picks_b g k t fin && unused_b ls (length (y_procs y))) eqn:Eb; [|exact (Hno H)]. apply andb_true_iff in Eb as [Eb Eu].
    destruct (drive1 c (y, ls) (ECall op)) as [[y1 ls1]|] eqn:Ed; [|exact (Hno H)]. injection H as <- <- <-. pose proof (drive1_label _ _ _ _ _ _ Ed) as [El El2].
    split; [exact (drive1_steps c y0 (y, ls) _ (y1, ls1) Ed Hs)|]. rewrite El, El2. replace (S (length (y_procs y)) - 1)%nat with (length (y_procs y)) by lia.
    eapply st_call; [exact Hr|exact Ek| |exact Ec|].
    + destruct t; cbn [picks picks_b] in *; try exact I. lia.
    + intros op' Hin. unfold unused_b in Eu. rewrite forallb_forall in Eu. apply elem_of_list_In in Hin. specialize (Eu _ Hin). cbn in Eu. rewrite Nat.eqb_refl in Eu. discriminate Eu.
  - cbn [sdrive1] in H. assert (Hno : (y, ls, ts) = (y', ls', ts') -> dsteps c y0 ls' y' /\ stress g ls' ts') by (intros E; injection E as <- <- <-; auto).
    destruct (ts !! k) as [[|i t fin seen| |]|] eqn:Ek; try (exact (Hno H)). destruct (drive1 c (y, ls) _) as [[y1 ls1]|] eqn:Ed; [|exact (Hno H)].
    pose proof (drive1_label _ _ _ _ _ _ Ed) as [v El]. pose proof (drive1_steps c y0 (y, ls) _ (y1, ls1) Ed Hs) as Hd. injection H as <- <- H. split; [exact Hd|].
    rewrite El in *. rewrite last_snoc in H. destruct v as [v|]; cbn [lab] in *.
    + destruct (is_final v) eqn:Ef; rewrite <- H; [eapply st_end; eassumption|eapply st_item; eassumption].
    + rewrite <- H. now apply st_tau.
  - cbn [sdrive1] in H. destruct (drive1 c (y, ls) EFlush) as [[y1 ls1]|] eqn:Ed; injection H as <- <- <-; [|auto]. pose proof (drive1_label _ _ _ _ _ _ Ed) as El.
    split; [exact (drive1_steps c y0 (y, ls) _ (y1, ls1) Ed Hs)|]. rewrite El. apply (stress_taus g ls ts 3), Hr.
Qed.
Lemma sdrive_ok g c y0 es : forall y ls ts y' ls' ts', dsteps c y0 ls y -> stress g ls ts -> sdrive g c (y, ls, ts) es = (y', ls', ts') -> dsteps c y0 ls' y' /\ stress g ls' ts'.
Proof.
  induction es as [|e es IH]; intros y ls ts y' ls' ts' Hs Hr H; cbn [sdrive foldl] in H; [injection H as <- <- <-; auto|].
  destruct (sdrive1 g c (y, ls, ts) e) as [[y1 ls1] ts1] eqn:E. destruct (sdrive1_ok _ _ _ _ _ _ _ _ _ _ Hs Hr E) as [Hs1 Hr1]. eapply IH; eassumption.
Qed.
Definition stress_run (g : stcfg) (lpage heap : N) (es : list sev) : option (list label * list tstate) :=
  y ← ex_fresh lpage heap; let '(_, ls, ts) := sdrive g (ex_cfg lpage heap) (y, [], replicate (sg_objects g) (TQueued TCreate)) es in Some (ls, ts).
Lemma stress_run_ok g lpage heap es ls ts : stress_run g lpage heap es = Some (ls, ts) -> stress_direct g (ex_cfg lpage heap) (PropertiesTuples.ex_pages 1) ls ts.
Proof.
  unfold stress_run. destruct (ex_fresh lpage heap) as [y0|] eqn:E; [|discriminate]. cbn [mbind option_bind]. destruct (sdrive _ _ _ _) as [[y ls1] ts1] eqn:Ed. intros H. injection H as -> ->.
  destruct (sdrive_ok _ _ y0 es _ _ _ _ _ _ (dsteps_nil _ _) (st_start g) Ed) as [Hs Hr]. econstructor; [apply ex_fresh_ok; exact E|exact Hs|exact Hr].
Qed.

(** Two objects of 1400 and 1500 bytes, large pages of 1024 bytes; both are created,
    written in two parts, committed, inspected, read in two pieces and deleted at
    the same time. *)
Definition ex_stress : stcfg :=
  {| sg_objects := 2; sg_lpage := 1024; sg_max := 1600; sg_key_max := 20; sg_pool := (fun i => N.of_nat i * 7 mod 251) <$> seq 0 2000;
     sg_hash := fun s n => match s with 2%nat => 1399 + 100 * n | 3%nat => 30 + 50 * n | _ => 5 + n end |}.
Lemma ex_stress_cfg : stress_cfg ex_stress 10.
Proof. constructor; vm_compute; auto; split; auto; discriminate. Qed.
Definition both (n : nat) : list sev := concat (replicate n [SGo 0; SGo 1]).
Definition stress_block (f0 f1 : N) : list sev := [SStart 0 f0; SStart 1 f1] ++ both 16 ++ [SFlush] ++ both 6 ++ [SFlush] ++ both 6.
Definition ex_stress_script : list sev :=
  stress_block 0 0 ++ stress_block 0 0 ++ stress_block 0 0 ++ stress_block 0 0 ++ stress_block 0 0 ++ stress_block 700 1100 ++ stress_block 1400 1500 ++ stress_block 0 0.
Theorem C63_example : exists ls ts, cfg_ok (ex_cfg 10 16384) /\ stress_cfg ex_stress (dc_lpage (ex_cfg 10 16384)) /\
  stress_direct ex_stress (ex_cfg 10 16384) (PropertiesTuples.ex_pages 1) ls ts /\ ts = [TOver; TOver] /\
  (* all calls were made, two by two *)
  length (visible ls) = 42%nat.
Proof.
  assert (H : (fun r => (snd r, length (visible (fst r)))) <$> stress_run ex_stress 10 16384 ex_stress_script = Some ([TOver; TOver], 42%nat)) by (vm_compute; reflexivity).
  destruct (stress_run _ _ _ _) as [[ls ts]|] eqn:E; [|discriminate H]. cbn [fmap option_fmap option_map fst snd] in H. injection H as H1 H2. exists ls, ts.
  split; [constructor; vm_compute; try reflexivity; discriminate|]. split; [exact ex_stress_cfg|]. split; [exact (stress_run_ok _ _ _ _ _ _ E)|]. auto.
Qed.
(** The exception is real: without room for the second object its worker panics. *)
Theorem C63_no_room_example : exists ls ts, cfg_ok (ex_cfg 10 3072) /\
  stress_direct ex_stress (ex_cfg 10 3072) (PropertiesTuples.ex_pages 1) ls ts /\ ts !! 1%nat = Some TFailed.
Proof.
  assert (H : (fun r => snd r !! 1%nat) <$> stress_run ex_stress 10 3072 (stress_block 0 0) = Some (Some TFailed)) by (vm_compute; reflexivity).
  destruct (stress_run _ _ _ _) as [[ls ts]|] eqn:E; [|discriminate H]. cbn [fmap option_fmap option_map fst snd] in H. injection H as H1. exists ls, ts.
  split; [constructor; vm_compute; try reflexivity; discriminate|]. split; [exact (stress_run_ok _ _ _ _ _ _ E)|]. exact H1.
Qed.

(** The kv store has no parts: through its adapter the tester can only write objects
    that are not larger than a large page.  With larger ones ([maximum_object_size]
    allows them) a worker panics at the second part. *)
Theorem C63_kv_only_small_objects g lpage k : stress_cfg g lpage ->
  ((forall tok off, at_part g k off -> after g k (TWrite tok off) 0 [VRet RWritten] = Next (TCommit tok) \/ kv_adapter_write g k (off + sg_lpage g) <> None) <-> ob_len g k <= sg_lpage g) /\
  (ob_len g k <= sg_lpage g -> exists key, ob_key g k = Some key /\ kv_adapter_write g k 0 = Some (key, ob_data g k)).
Proof.
  intros Hg. pose proof (ob_len_bound _ _ Hg k) as HB. pose proof (lpage_pos _ _ Hg) as HP. pose proof (ob_data_length _ _ Hg k) as HL. destruct (ob_key_some _ _ Hg k) as (key & E). split; [split|].
  - intros H. destruct (N.le_gt_cases (ob_len g k) (sg_lpage g)) as [|Hgt]; [assumption|]. exfalso. destruct (H 0 0) as [H1|H1]; [split; [lia|exists 0; lia]|..].
    + cbn [after] in H1. destruct (N.ltb_spec (0 + sg_lpage g) (ob_len g k)); [discriminate H1|lia].
    + apply H1. unfold kv_adapter_write. rewrite E. cbn [mbind option_bind]. destruct (pool_get _ _ _); [|reflexivity]. cbn [mbind option_bind]. destruct (N.eqb_spec (0 + sg_lpage g) 0); [lia|reflexivity].
  - intros H tok off [Ha1 [j ->]]. left. cbn [after]. destruct (N.ltb_spec (j * sg_lpage g + sg_lpage g) (ob_len g k)); [lia|reflexivity].
  - intros H. exists key. split; [exact E|]. unfold kv_adapter_write. rewrite E. cbn [mbind option_bind]. pose proof (chunk_len_ok g k 0 ltac:(lia)) as Hcl.
    rewrite (pool_data _ _ Hg) by lia. cbn [mbind option_bind]. rewrite Hcl. cbn [N.eqb]. do 2 f_equal. unfold slice. rewrite N.min_r by lia.
    rewrite N.sub_0_r. change (N.to_nat 0) with 0%nat. rewrite drop_0. apply take_ge. lia.
Qed.
Theorem C63_kv_only_small_objects_example : stress_cfg ex_stress 10 /\ sg_lpage ex_stress < ob_len ex_stress 0 /\ kv_adapter_write ex_stress 0 (sg_lpage ex_stress) = None.
Proof. split; [exact ex_stress_cfg|]. split; vm_compute; reflexivity. Qed.
