(** C65: the benchmark runs through on every store that keeps the contract, and what it
    does not notice. *)
From Coq Require Import ZifyBool ZifyNat ZifyN.
From stdpp Require Import base numbers option gmap functions sorting list.
From Verif Require Import Util Bytes StoreModel StoreSpec StoreProofs StoreS3 BenchModel BenchSpec BenchProofs.
Open Scope N_scope.
Ltac Zify.zify_post_hook ::= idtac.

Lemma answers_weaken {St} (A : adapter St) s0 chunk (ok : kstate -> sop -> Prop) (good good' : kstate -> sop -> sans -> Prop) :
  (forall st op ans, allowed chunk st op -> ok st op -> good st op ans -> good' st op ans) -> answers A s0 chunk ok good -> answers A s0 chunk ok good'.
Proof.
  intros Hw HA h s F op Hr Hf Hal Hok. destruct (HA h s F op Hr Hf Hal Hok) as [H1 H2]. split; [exact H1|]. intros out Ho. destruct (H2 out Ho) as (ans & s' & -> & Hg). eauto 6.
Qed.
Lemma right_loose chunk st op ans : allowed chunk st op -> right st op ans -> right_but_length st op ans.
Proof.
  destruct op as [| | | |key start fin|], st; cbn [allowed right right_but_length]; auto. intros Hal ->. eexists. split; [|reflexivity]. lia.
Qed.

Lemma answers_only_if {St} (A : adapter St) s0 chunk (ok : kstate -> sop -> Prop) (good : kstate -> sop -> sans -> Prop) : answers A s0 chunk ok good -> answers_if A s0 chunk ok good.
Proof. intros HA h s F op ans s' Hr Hf Hal Hok Ha. destruct (HA h s F op Hr Hf Hal Hok) as [_ Hout]. destruct (Hout _ Ha) as (a2 & s2 & E & Hg). injection E as <- <-. exact Hg. Qed.

(** ** What a run is *)
(** For any store whose answers are right but for the length of what is read: no call
    fails, no comparison fails, and until it has ended there is a next step. *)
Lemma bench_general {St} (A : adapter St) s0 (ok : kstate -> sop -> Prop) g : bench_ok g -> answers A s0 (bc_chunk g) ok right_but_length -> takes g ok ->
  forall n b, breach g A s0 n b ->
    ~ bfails g A b /\ (n <= run_length g)%nat /\ ((n < run_length g)%nat -> exists b', bstep g A b b') /\
    (n = run_length g -> b_phase b = PDone /\ Forall (fun l => l = []) (b_todo b) /\
       forall i, (i < bc_count g)%nat ->
         (exists tok rnd, picked g rnd /\ filter (fun op => op_key op = bkey i) (b_hist b).*1 = life g i tok rnd) /\
         exists F, runs A s0 (b_hist b) (b_store b) /\ follows (bc_chunk g) ok (b_hist b) F /\ F (bkey i) = if bc_skip_deletion g then KStored (bc_pool g) else KAbsent).
Proof.
  intros Hg HA0 Ht n b Hb. pose proof (answers_only_if _ _ _ _ _ HA0) as HA. pose proof (binv_reach g Hg A s0 ok HA Ht n b Hb) as Hi. pose proof (step_count g A s0 n b Hb) as Hc. rewrite (total_length g (bo_all _ Hg)) in Hc.
  split. { intros Hf. destruct (binv_safe g Hg A s0 ok HA Ht b Hi Hf) as (i & op & rest & _ & Hn & (F & T1 & T2 & T3 & T4) & _). destruct (proj2 (HA0 _ _ F op T1 T2 T3 T4) _ Hn) as (? & ? & E & _). discriminate. }
  split; [lia|]. assert (Hlive : b_phase b = PDone /\ Forall (fun l => l = []) (b_todo b) \/ exists b', bstep g A b b').
  { destruct (binv_live g Hg A s0 ok HA Ht b Hi) as [?|[?|(i & op & rest & _ & (F & T1 & T2 & T3 & T4) & Hgo)]]; [auto|auto|]. right.
    destruct (HA0 _ _ F op T1 T2 T3 T4) as [[out Ho] Hout]. destruct (Hout _ Ho) as (ans & s' & -> & _). eapply Hgo, Ho. }
  destruct Hlive as [[Hd Hall]|Hst].
  - assert (Hn : n = run_length g). { rewrite Hd in Hc. cbn [after sum_list_with] in Hc. rewrite (sum_const length 0 _) in Hc by (eapply Forall_impl; [exact Hall|now intros l ->]). lia. }
    split; [intros; lia|]. intros _. split; [exact Hd|]. split; [exact Hall|]. intros i Hlt. destruct Hi as [_ Hlen (F & Hr & Hf & Hi)].
    destruct (lookup_lt_is_Some_2 (b_todo b) i ltac:(lia)) as [l Hl]. assert (l = []) as -> by (rewrite Forall_forall in Hall; apply Hall; eapply elem_of_list_lookup_2, Hl).
    destruct (Hi i [] Hl) as (tok & rnd & Hp & _ & Hfil & Hpr). rewrite Hd in *. rewrite app_nil_r, (script_life g Hg) in Hfil. split; [eauto|]. exists F. destruct Hpr as [_ ->]. auto.
  - split; [auto|]. intros ->. exfalso. destruct Hst as [b' Hst]. pose proof (step_count g A s0 _ b' (br_step _ _ _ _ _ _ Hb Hst)) as Hc'. rewrite (total_length g (bo_all _ Hg)) in Hc'. lia.
Qed.
(** The same, of a store that keeps the contract: the statement of C65. *)
Theorem C65_benchmark_runs_through : forall St (A : adapter St) s0 (ok : kstate -> sop -> Prop) g, bench_ok g -> keeps_contract A s0 (bc_chunk g) ok -> takes g ok ->
  forall n b, breach g A s0 n b ->
    ~ bfails g A b /\ (n <= run_length g)%nat /\ ((n < run_length g)%nat -> exists b', bstep g A b b') /\
    (n = run_length g -> b_phase b = PDone /\ Forall (fun l => l = []) (b_todo b) /\
       forall i, (i < bc_count g)%nat ->
         (exists tok rnd, picked g rnd /\ filter (fun op => op_key op = bkey i) (b_hist b).*1 = life g i tok rnd) /\
         exists F, runs A s0 (b_hist b) (b_store b) /\ follows (bc_chunk g) ok (b_hist b) F /\ F (bkey i) = if bc_skip_deletion g then KStored (bc_pool g) else KAbsent).
Proof.
  intros St A s0 ok g Hg HA Ht. apply bench_general; [exact Hg| |exact Ht]. eapply answers_weaken; [|exact HA]. intros st op ans Hal _. apply (right_loose _ _ _ _ Hal).
Qed.
(** So there is a complete run, and every beginning of one can be completed. *)
Theorem C65_benchmark_ends : forall St (A : adapter St) s0 (ok : kstate -> sop -> Prop) g, bench_ok g -> keeps_contract A s0 (bc_chunk g) ok -> takes g ok ->
  (exists b, breach g A s0 (run_length g) b) /\
  forall n b, breach g A s0 n b -> exists b', breach g A s0 (run_length g) b' /\ rtc (bstep g A) b b'.
Proof.
  intros St A s0 ok g Hg HA Ht.
  assert (Hfrom : forall k n b, (run_length g - n = k)%nat -> breach g A s0 n b -> exists b', breach g A s0 (run_length g) b' /\ rtc (bstep g A) b b').
  { induction k as [|k IH]; intros n b Hk Hb; destruct (C65_benchmark_runs_through _ A s0 ok g Hg HA Ht n b Hb) as (_ & Hle & Hgo & _).
    - assert (n = run_length g) as -> by lia. exists b. split; [exact Hb|apply rtc_refl].
    - destruct Hgo as [b1 H1]; [lia|]. destruct (IH (S n) b1 ltac:(lia)) as (b' & Hb' & Hs); [econstructor; eassumption|]. exists b'. split; [exact Hb'|]. eapply rtc_l; eassumption. }
  split; [|intros n b Hb; eapply Hfrom; [reflexivity|exact Hb]].
  destruct (Hfrom _ 0%nat (BS (first_phase g) ((fun i => calls g (first_phase g) i 0 0) <$> seq 0 (bc_count g)) ∅ s0 []) eq_refl) as (b' & Hb' & _); [|eauto].
  constructor. split; [now rewrite fmap_length, seq_length|]. intros i l Hl. rewrite list_lookup_fmap in Hl. destruct (seq 0 _ !! i) as [x|] eqn:E; [|discriminate]. apply lookup_seq in E as [-> _]. cbn in Hl. injection Hl as <-.
  exists 0, 0. split; [|split; [apply picked_0|reflexivity]]. unfold first_phase. rewrite (bo_all _ Hg). intros [?|?]; discriminate.
Qed.

(** ** The stores of C64 *)
Theorem C65_on_rocksdb_and_kv : forall limit g, bench_ok g -> bc_chunk g = whole_chunk -> 0 < bc_size g -> match limit with Some x => bc_size g <= x | None => True end ->
  keeps_contract (map_store limit) ∅ (bc_chunk g) (map_ok limit) /\ takes g (map_ok limit).
Proof. intros limit g Hg -> Hs Hl. split; [apply map_contract|]. constructor; cbn [map_ok]; auto. Qed.
(** Files: unless the object is read whole, one read must do for a range. *)
Theorem C65_on_files : forall c cap g, bench_ok g -> bc_chunk g = whole_chunk -> reads_some c -> reads_whole c cap -> 4000 <= cap -> bc_read g <= cap \/ bc_size g <= bc_read g ->
  keeps_contract (fs_store c) fs_empty (bc_chunk g) (fs_ok c) /\ takes g (fs_ok c).
Proof.
  intros c cap g Hg -> Hs Hw Hcap Hrd. split; [now apply fs_contract|]. constructor; cbn [fs_ok]; auto.
  - intros i. split; [intros E; apply (f_equal length) in E; unfold bkey in E; rewrite be_bytes_length in E; discriminate|unfold bkey; rewrite be_bytes_length; lia].
  - intros i start e Ha. pose proof (bo_pool _ Hg) as Hp. cbn [default from_option id]. rewrite Hp. destruct Ha as [[_ ->]|[Hst ->]].
    + right. exists cap. split; [exact Hw|]. lia.
    + destruct Hrd as [Hrd|Hrd]; [right; exists cap; split; [exact Hw|]; lia|left; lia].
Qed.
Lemma s3_loose c st op ans : s3_wide c st op -> s3_right st op ans -> right_but_length st op ans.
Proof. destruct op as [| | | |key start fin|], st; cbn [s3_wide s3_right right_but_length]; auto. intros Hst ->. eexists. split; [|reflexivity]. lia. Qed.
(** S3: it runs through although the ranges are a byte too long - that byte is the
    next of the pool. *)
Theorem C65_on_s3 : forall c g, bench_ok g -> 0 < sc_part c -> sc_min c <= sc_part c -> bc_chunk g = sc_part c -> 0 < bc_size g <= sc_parts c * sc_part c ->
  answers (s3_store c) s3_empty (bc_chunk g) (s3_wide c) right_but_length /\ takes g (s3_wide c).
Proof.
  intros c g Hg H1 H2 -> Hs. split; [eapply answers_weaken; [|apply (proj1 (s3_answers c H1 H2))]; intros st op ans _; apply s3_loose|]. constructor; cbn [s3_wide]; auto.
  intros i start e Ha. rewrite (bo_pool _ Hg). destruct Ha as [[Hp _]|[Hst _]]; [|apply tiles_lt in Hst; [exact Hst|apply (bo_read _ Hg)]].
  unfold picked in Hp. destruct (N.ltb_spec 4000 (bc_size g)); lia.
Qed.
Theorem C65_s3_reads_too_much_unnoticed : forall c g, bench_ok g -> 0 < sc_part c -> sc_min c <= sc_part c -> bc_chunk g = sc_part c -> 0 < bc_size g <= sc_parts c * sc_part c ->
  forall n b, breach g (s3_store c) s3_empty n b ->
    ~ bfails g (s3_store c) b /\ (n <= run_length g)%nat /\ ((n < run_length g)%nat -> exists b', bstep g (s3_store c) b b') /\
    forall i start e rest ans s', b_todo b !! i = Some (SoRead (bkey i) start (Some e) :: rest) -> e < bc_size g -> s3_store c (b_store b) (SoRead (bkey i) start (Some e)) (Some (ans, s')) ->
      exists l, ans = AnData l /\ blen l = e - start + 1.
Proof.
  intros c g Hg H1 H2 Hch Hs n b Hb. destruct (C65_on_s3 c g Hg H1 H2 Hch Hs) as [HA Ht].
  destruct (bench_general _ _ _ g Hg HA Ht n b Hb) as (G1 & G2 & G3 & _). split; [exact G1|]. split; [exact G2|]. split; [exact G3|].
  intros i start e rest ans s' El He Ho. destruct (binv_reach g Hg _ _ _ (answers_only_if _ _ _ _ _ HA) Ht n b Hb) as [_ _ (F & Hr & Hf & Hi)].
  destruct (Hi i _ El) as (tok & rnd & _ & _ & _ & Hpr). destruct (prog_call g Hg _ Ht _ _ _ _ _ _ _ Hpr) as (Hal & Hok & _). rewrite Hch in *.
  destruct (proj1 (s3_answers c H1 H2) _ _ F (SoRead (bkey i) start (Some e)) Hr Hf Hal Hok) as [_ Hout]. destruct (Hout _ Ho) as (a2 & s2 & E & Hgood). injection E as <- <-.
  cbn [op_key] in Hgood. cbn [allowed] in Hal.
  assert (HF : F (bkey i) = KStored (bc_pool g)).
  { destruct (b_phase b); cbn [prog] in Hpr; try (destruct Hpr as [[E _]|[E _]]; discriminate); try (apply Hpr).
    - destruct Hpr as (k & _ & E & _). assert (Hin : SoRead (bkey i) start (Some e) ∈ calls g PWrite i tok 0) by (rewrite <- (take_drop k (calls g PWrite i tok 0)), <- E; apply elem_of_app; right; constructor).
      cbn [calls] in Hin. apply elem_of_list_fmap in Hin as (x & Ex & _). discriminate.
    - destruct Hpr as [E _]. discriminate. }
  rewrite HF in *. cbn [s3_right default from_option id] in Hgood. eexists. split; [exact Hgood|]. cbn [allowed default from_option id] in Hal. rewrite (bo_pool _ Hg) in *.
  rewrite bytes_from_len; rewrite ?(bo_pool _ Hg); lia.
Qed.

(** ** What the benchmark does not notice *)
(** A store that returns nothing of what is read of it. *)
Definition mute {St} (A : adapter St) : adapter St := fun s op out =>
  exists out0, A s op out0 /\ out = (fun '(ans, s') => (match op with SoRead _ _ _ => AnData [] | _ => ans end, s')) <$> out0.
Lemma next_read chunk st key start fin ans ans' : next chunk st (SoRead key start fin) ans = next chunk st (SoRead key start fin) ans'.
Proof. reflexivity. Qed.
Lemma mute_runs {St} (A : adapter St) s0 chunk (ok : kstate -> sop -> Prop) h s : runs (mute A) s0 h s -> exists h0, runs A s0 h0 s /\ forall F, follows chunk ok h F -> follows chunk ok h0 F.
Proof.
  induction 1 as [|h s op ans s' _ IH (out0 & Ho & E)]; [exists []; split; [constructor|auto]|]. destruct IH as (h0 & Hr0 & Hf0). destruct out0 as [[a0 t0]|]; [|discriminate]. cbn in E. injection E as -> ->.
  exists (h0 ++ [(op, a0)]). split; [econstructor; eassumption|]. intros F Hf. inversion Hf as [E|h' F' op' ans' Hf' Hal Hok E]; [destruct h; discriminate|]. apply app_inj_tail in E as [-> E]. apply pair_equal_spec in E as [-> E]. subst ans'.
  assert (Hn : next chunk (F' (op_key op)) op (match op with SoRead _ _ _ => AnData [] | _ => a0 end) = next chunk (F' (op_key op)) op a0) by (destruct op; reflexivity).
  rewrite Hn. constructor; auto.
Qed.
Theorem C65_a_store_that_returns_nothing_passes : forall St (A : adapter St) s0 (ok : kstate -> sop -> Prop) g, bench_ok g -> keeps_contract A s0 (bc_chunk g) ok -> takes g ok ->
  (forall n b, breach g (mute A) s0 n b -> ~ bfails g (mute A) b /\ (n <= run_length g)%nat /\ ((n < run_length g)%nat -> exists b', bstep g (mute A) b b')) /\
  forall s key start fin ans s', mute A s (SoRead key start fin) (Some (ans, s')) -> ans = AnData [].
Proof.
  intros St A s0 ok g Hg HA Ht. split.
  - intros n b Hb. edestruct (fun X => bench_general (mute A) s0 ok g Hg X Ht n b Hb) as (G1 & G2 & G3 & _); [|auto].
    intros h s F op Hr Hf Hal Hok. destruct (mute_runs A s0 (bc_chunk g) ok h s Hr) as (h0 & Hr0 & Hf0). destruct (HA h0 s F op Hr0 (Hf0 F Hf) Hal Hok) as [[out Ho] Hout]. split; [eexists; exists out; eauto|].
    intros o (out0 & Ho0 & ->). destruct (Hout _ Ho0) as (ans & s' & -> & Hg2). cbn [fmap option_fmap option_map]. do 2 eexists. split; [reflexivity|].
    destruct op as [| | | |key start fin|]; try exact Hg2. cbn [op_key] in *. destruct (F key) as [| |d]; try contradiction. cbn [right_but_length allowed] in *. exists 0. split; [lia|reflexivity].
  - intros s key start fin ans s' (out0 & _ & E). destruct out0 as [[a t]|]; [|discriminate]. cbn in E. congruence.
Qed.

(** Empty objects on RocksDB or kv: the run never gets past the inspection. *)
Theorem C65_empty_objects_fail : forall limit g, bc_size g = 0 -> 0 < bc_chunk g -> bc_skip_creation g = false -> (0 < bc_count g)%nat ->
  forall n b, breach g (map_store limit) ∅ n b -> b_phase b ∈ [PCreate; PWrite; PCommit; PInspect] /\
    (b_phase b = PInspect -> bfails g (map_store limit) b /\ ~ exists b', bstep g (map_store limit) b b').
Proof.
  intros limit g Hs Hc Hsk Hn.
  set (fine := fun op => match op with SoCreate _ _ | SoCommit _ _ => True | _ => False end).
  assert (HI : forall n b, breach g (map_store limit) ∅ n b -> b_store b = ∅ /\ length (b_todo b) = bc_count g /\
    (b_phase b ∈ [PCreate; PWrite; PCommit] /\ Forall (Forall fine) (b_todo b) \/ b_phase b = PInspect /\ forall i l, b_todo b !! i = Some l -> l = [SoInspect (bkey i)])).
  { assert (Hb0 : forall p tokens todo, p ∈ [PCreate; PWrite; PCommit] -> begins g p tokens todo -> Forall (Forall fine) todo).
    { intros p tokens todo Hp [_ H]. apply Forall_lookup. intros i l Hl. destruct (H i l Hl) as (tok & rnd & _ & _ & ->).
      repeat (apply elem_of_cons in Hp as [->|Hp]); [repeat constructor| |repeat constructor|now apply elem_of_nil in Hp].
      cbn [calls]. rewrite Hs. change (stepped 0 (bc_chunk g)) with (tiles (bc_chunk g) 0). rewrite tiles_zero by exact Hc. constructor. }
    induction 1 as [todo Hb|n b b' _ IH Hst].
    - cbn. unfold first_phase in *. rewrite Hsk in *. split; [reflexivity|]. split; [apply Hb|]. left. split; [constructor|]. eapply Hb0; [|exact Hb]. constructor.
    - destruct IH as (Hm & Hl & IH). destruct Hst as [p todo tokens s h i op rest ans s' El Ha Hac|p todo tokens s h todo' Hp Hall Hb]; cbn [b_store b_todo b_phase] in *; subst s.
      + rewrite insert_length. destruct IH as [[Hp Hfi]|[_ HIns]].
        * assert (Hop : Forall fine (op :: rest)) by (rewrite Forall_forall in Hfi; apply Hfi; eapply elem_of_list_lookup_2, El). apply Forall_cons in Hop as [Hop Hre].
          split; [destruct op; try contradiction; cbn in Ha; injection Ha as -> ->; reflexivity|]. split; [exact Hl|]. left. split; [exact Hp|]. apply Forall_insert; assumption.
        * specialize (HIns i _ El). injection HIns as -> ->. unfold map_store in Ha. cbn [map_call] in Ha. rewrite lookup_empty in Ha. discriminate.
      + split; [reflexivity|]. split; [apply Hb|]. destruct IH as [[Hph Hfi]|[_ HIns]].
        * repeat (apply elem_of_cons in Hph as [->|Hph]); [left|left|right|now apply elem_of_nil in Hph].
          -- split; [repeat constructor|]. eapply Hb0; [|exact Hb]. repeat constructor.
          -- split; [repeat constructor|]. eapply Hb0; [|exact Hb]. repeat constructor.
          -- split; [reflexivity|]. intros i l Hi. destruct Hb as [_ H]. destruct (H i l Hi) as (tok & rnd & _ & _ & ->). reflexivity.
        * exfalso. destruct (lookup_lt_is_Some_2 todo 0 ltac:(lia)) as [x Hx]. pose proof (HIns _ _ Hx) as ->. rewrite Forall_forall in Hall. specialize (Hall _ (elem_of_list_lookup_2 _ _ _ Hx)). discriminate. }
  intros n b Hb. destruct (HI n b Hb) as (Hm & Hl & HI'). split.
  { destruct HI' as [[Hp _]|[-> _]]; [|repeat constructor]. repeat (apply elem_of_cons in Hp as [->|Hp]); try (repeat constructor). now apply elem_of_nil in Hp. }
  intros Hp. rewrite Hp in HI'. destruct HI' as [[Hx _]|[_ HIns]]; [repeat (apply elem_of_cons in Hx as [Hx|Hx]; [discriminate|]); now apply elem_of_nil in Hx|].
  destruct (lookup_lt_is_Some_2 (b_todo b) 0 ltac:(lia)) as [x Hx]. pose proof (HIns _ _ Hx) as ->. split.
  - exists 0%nat, (SoInspect (bkey 0)), []. split; [exact Hx|]. left. unfold map_store. cbn [map_call]. rewrite Hm, lookup_empty. reflexivity.
  - intros [b' Hst]. destruct Hst as [p todo tokens s h i op rest ans s' El Ha Hac|p todo tokens s h todo' Hpd Hall Hbg]; cbn [b_store b_todo b_phase] in *; subst.
    + specialize (HIns i _ El). injection HIns as -> ->. unfold map_store in Ha. cbn [map_call] in Ha. rewrite lookup_empty in Ha. discriminate.
    + rewrite Forall_forall in Hall. specialize (Hall _ (elem_of_list_lookup_2 _ _ _ Hx)). discriminate.
Qed.

(** ** Examples *)
Definition ex_bench : bcfg := {| bc_count := 3; bc_size := 5; bc_chunk := whole_chunk; bc_read := 2; bc_pool := [9; 8; 7; 6; 5]; bc_skip_creation := false; bc_skip_deletion := false |}.
Lemma ex_bench_ok : bench_ok ex_bench.
Proof. constructor; vm_compute; congruence || reflexivity. Qed.
Theorem C65_example : bench_ok ex_bench /\ keeps_contract (map_store (Some 1000)) ∅ (bc_chunk ex_bench) (map_ok (Some 1000)) /\ takes ex_bench (map_ok (Some 1000)) /\
  run_length ex_bench = 34%nat /\ (exists b, breach ex_bench (map_store (Some 1000)) ∅ 34 b /\ b_phase b = PDone) /\
  life ex_bench 1 0 0 = [SoCreate (bkey 1) 5; SoWrite (bkey 1) 0 0 [9; 8; 7; 6; 5]; SoCommit (bkey 1) 0; SoInspect (bkey 1); SoRead (bkey 1) 0 (Some 5);
                         SoRead (bkey 1) 0 (Some 2); SoRead (bkey 1) 2 (Some 4); SoRead (bkey 1) 4 (Some 5); SoDelete (bkey 1)].
Proof.
  pose proof ex_bench_ok as Hg. destruct (C65_on_rocksdb_and_kv (Some 1000) ex_bench Hg eq_refl) as [HA Ht]; [vm_compute; reflexivity|vm_compute; congruence|].
  split; [exact Hg|]. split; [exact HA|]. split; [exact Ht|]. split; [reflexivity|]. split; [|vm_compute; reflexivity].
  destruct (C65_benchmark_ends _ _ _ _ _ Hg HA Ht) as [[b Hb] _]. exists b. split; [exact Hb|]. apply (C65_benchmark_runs_through _ _ _ _ _ Hg HA Ht _ _ Hb). reflexivity.
Qed.
Definition ex_bench3 : bcfg := {| bc_count := 2; bc_size := 7; bc_chunk := 3; bc_read := 2; bc_pool := [9; 8; 7; 6; 5; 4; 3]; bc_skip_creation := false; bc_skip_deletion := true |}.
Definition ex_bucket : s3cfg := {| sc_part := 3; sc_min := 2; sc_parts := 10; sc_etag := fun d => N.of_nat (length d) |}.
Theorem C65_s3_example : bench_ok ex_bench3 /\ bc_chunk ex_bench3 = sc_part ex_bucket /\ 0 < bc_size ex_bench3 <= sc_parts ex_bucket * sc_part ex_bucket /\ sc_min ex_bucket <= sc_part ex_bucket.
Proof. split; [constructor; vm_compute; congruence || reflexivity|]. split; [reflexivity|]. vm_compute. repeat split; congruence. Qed.

Print Assumptions C65_benchmark_runs_through.
Print Assumptions C65_benchmark_ends.
Print Assumptions C65_s3_reads_too_much_unnoticed.
Print Assumptions C65_a_store_that_returns_nothing_passes.
Print Assumptions C65_empty_objects_fail.
