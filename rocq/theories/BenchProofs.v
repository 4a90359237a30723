(** The benchmark on a store that keeps the contract (C65): invariant. *)
From Coq Require Import ZifyBool ZifyNat ZifyN.
From stdpp Require Import base numbers option gmap functions sorting list.
From Verif Require Import Util Bytes StoreModel StoreSpec StoreProofs StoreS3 BenchModel BenchSpec.
Open Scope N_scope.
Ltac Zify.zify_post_hook ::= idtac.

Lemma bkey_inj i j : N.of_nat i < 2 ^ 64 -> N.of_nat j < 2 ^ 64 -> bkey i = bkey j -> i = j.
Proof.
  intros Hi Hj E. unfold bkey in E. apply (f_equal be_val) in E. rewrite !be_val_bytes in E; [lia| |]; (change (256 ^ N.of_nat 8) with (2 ^ 64)); assumption.
Qed.
Definition cz (k : N) : s3cfg := {| sc_part := k; sc_min := 0; sc_parts := 0; sc_etag := fun _ => 0 |}.
Lemma tiles_lookup k size j off : 0 < k -> tiles k size !! j = Some off -> off = N.of_nat j * k /\ off < size.
Proof.
  intros Hk H. unfold tiles in H. rewrite list_lookup_fmap in H. destruct (seq 0 _ !! j) as [x|] eqn:E; [|discriminate]. apply lookup_seq in E as [-> Hx]. cbn in H. injection H as <-.
  split; [reflexivity|]. apply (npt_lt (cz k) Hk); [apply N.le_0_l|exact Hx].
Qed.
Lemma tiles_lt k size off : 0 < k -> off ∈ tiles k size -> off < size.
Proof. intros Hk H. apply elem_of_list_lookup in H as [j H]. now apply tiles_lookup in H. Qed.
Lemma tiles_length k size : length (tiles k size) = npt (cz k) size.
Proof. unfold tiles. rewrite fmap_length, seq_length. reflexivity. Qed.
Lemma bytes_from_len l a n : a + n <= blen l -> blen (bytes_from l a n) = n.
Proof. intros H. unfold bytes_from, blen in *. rewrite take_length, drop_length. lia. Qed.

(** Each answer is a good one (there may be none). *)
Definition answers_if {St} (A : adapter St) (s0 : St) (chunk : N) (ok : kstate -> sop -> Prop) (good : kstate -> sop -> sans -> Prop) : Prop :=
  forall h s F op ans s', runs A s0 h s -> follows chunk ok h F -> allowed chunk (F (op_key op)) op -> ok (F (op_key op)) op -> A s op (Some (ans, s')) -> good (F (op_key op)) op ans.
(** A call that comes in its turn. *)
Definition in_turn {St} (A : adapter St) (s0 : St) (chunk : N) (ok : kstate -> sop -> Prop) (h : list (sop * sans)) (s : St) (op : sop) : Prop :=
  exists F, runs A s0 h s /\ follows chunk ok h F /\ allowed chunk (F (op_key op)) op /\ ok (F (op_key op)) op.

Section B.
Context (g : bcfg) (Hg : bench_ok g).
Notation size := (bc_size g). Notation chunk := (bc_chunk g). Notation pool := (bc_pool g).

(** ** The parts of an upload *)
Definition piece (off : N) : list N := bytes_from pool off (N.min (size - off) chunk).
Fixpoint up_to (k : nat) : gmap N (list N) := match k with O => ∅ | S k' => <[N.of_nat k' * chunk := piece (N.of_nat k' * chunk)]> (up_to k') end.
Lemma up_to_lookup k j : up_to k !! (N.of_nat j * chunk) = if (j <? k)%nat then Some (piece (N.of_nat j * chunk)) else None.
Proof using Hg.
  pose proof (bo_chunk _ Hg) as Hc. induction k as [|k IH]; [apply lookup_empty|]. cbn [up_to]. destruct (decide (j = k)) as [->|Hn].
  - rewrite lookup_insert. destruct (Nat.ltb_spec k (S k)); [reflexivity|lia].
  - rewrite lookup_insert_ne by (intros E; apply N.mul_cancel_r in E; lia). rewrite IH. destruct (Nat.ltb_spec j k), (Nat.ltb_spec j (S k)); try reflexivity; lia.
Qed.
Definition nw : nat := length (tiles chunk size).
Lemma uploaded : upload_data chunk size (up_to nw) = pool.
Proof using Hg.
  pose proof (bo_chunk _ Hg) as Hc. pose proof (bo_pool _ Hg) as Hp. unfold upload_data, tiles. fold (npt (cz chunk) size).
  assert (Hgen : forall n j, (j + n = npt (cz chunk) size)%nat ->
    ((fun k => N.of_nat k * chunk) <$> seq j n) ≫= (fun off => default [] (up_to nw !! off)) = drop (N.to_nat (N.of_nat j * chunk)) pool).
  { induction n as [|n IH]; intros j Hj.
    - cbn [seq fmap list_fmap mbind list_bind]. symmetry. apply drop_ge.
      assert (Hx : ~ (j < npt (cz chunk) size)%nat) by lia. rewrite (npt_lt (cz chunk) Hc (N.le_0_l _)) in Hx. cbn [cz sc_part] in Hx. unfold blen in Hp. lia.
    - cbn [seq]. rewrite fmap_cons, bind_cons, IH by lia. rewrite up_to_lookup. unfold nw. rewrite tiles_length. destruct (Nat.ltb_spec j (npt (cz chunk) size)) as [Hlt|]; [|lia].
      cbn [default from_option id]. unfold piece, bytes_from. apply (npt_lt (cz chunk) Hc (N.le_0_l _)) in Hlt. cbn [cz sc_part] in Hlt.
      destruct (N.le_gt_cases chunk (size - N.of_nat j * chunk)) as [Hle|Hgt].
      + rewrite N.min_r by exact Hle. rewrite <- (take_drop (N.to_nat chunk) (drop (N.to_nat (N.of_nat j * chunk)) pool)) at 2. f_equal. rewrite drop_drop. f_equal. lia.
      + rewrite N.min_l by lia. rewrite take_ge by (rewrite drop_length; unfold blen in Hp; lia). rewrite (drop_ge pool (N.to_nat (N.of_nat (S j) * chunk))) by (unfold blen in Hp; lia). apply app_nil_r. }
  specialize (Hgen (npt (cz chunk) size) 0%nat eq_refl). cbn in Hgen. exact Hgen.
Qed.

(** ** The phases *)
Definition base_phases (p : bphase) : list bphase :=
  match p with
  | PCreate => [PCreate] | PWrite => [PCreate; PWrite] | PCommit => [PCreate; PWrite; PCommit] | PInspect => [PCreate; PWrite; PCommit; PInspect]
  | PRandom => [PCreate; PWrite; PCommit; PInspect; PRandom] | PRead => [PCreate; PWrite; PCommit; PInspect; PRandom; PRead]
  | PDelete => [PCreate; PWrite; PCommit; PInspect; PRandom; PRead; PDelete]
  | PDone => if bc_skip_deletion g then [PCreate; PWrite; PCommit; PInspect; PRandom; PRead; PDone] else [PCreate; PWrite; PCommit; PInspect; PRandom; PRead; PDelete; PDone]
  end.
Definition script (p : bphase) (i : nat) (tok rnd : N) : list sop := base_phases p ≫= (fun q => calls g q i tok rnd).
(** No run with [skip_deletion] is in the phase of deletion. *)
Definition real (p : bphase) : Prop := p = PDelete -> bc_skip_deletion g = false.
Lemma script_next p i tok rnd : real p -> p <> PDone -> script (next_phase g p) i tok rnd = script p i tok rnd ++ calls g (next_phase g p) i tok rnd.
Proof.
  intros Hr Hp. unfold script. rewrite <- (app_nil_r (calls g (next_phase g p) i tok rnd)).
  change (calls g (next_phase g p) i tok rnd ++ []) with ([next_phase g p] ≫= (fun q => calls g q i tok rnd)). rewrite <- bind_app. f_equal.
  destruct p; try reflexivity; try congruence; cbn [next_phase base_phases].
  - destruct (bc_skip_deletion g) eqn:E; cbn [base_phases]; rewrite ?E; reflexivity.
  - rewrite (Hr eq_refl). reflexivity.
Qed.
Lemma real_next p : real p -> real (next_phase g p).
Proof. unfold real. destruct p; cbn [next_phase]; try discriminate. destruct (bc_skip_deletion g); [discriminate|reflexivity]. Qed.
Lemma script_life i tok rnd : script PDone i tok rnd = life g i tok rnd.
Proof using Hg.
  assert (HR : calls g PRead i tok rnd = (fun start => SoRead (bkey i) start (Some (N.min size (start + bc_read g)))) <$> tiles (bc_read g) size).
  { unfold calls. change (stepped size (bc_read g)) with (tiles (bc_read g) size). apply list_fmap_ext. intros j off Hj. apply tiles_lookup in Hj; [|apply (bo_read _ Hg)]. do 2 f_equal. lia. }
  unfold script, life. cbn [base_phases]. destruct (bc_skip_deletion g); rewrite !bind_cons; change ((∅ : list bphase) ≫= _) with (@nil sop); rewrite HR; cbn [mbind list_bind calls]; rewrite ?app_nil_r; cbn [app]; rewrite ?app_nil_r;
    change (stepped size chunk) with (tiles chunk size); rewrite <- ?app_assoc; reflexivity.
Qed.
Lemma calls_key p i tok rnd op : op ∈ calls g p i tok rnd -> op_key op = bkey i.
Proof.
  destruct p; cbn [calls]; intros H; try (apply elem_of_list_singleton in H as ->; reflexivity); try (apply elem_of_list_fmap in H as (x & -> & _); reflexivity). now apply elem_of_nil in H.
Qed.
Lemma script_key p i tok rnd op : op ∈ script p i tok rnd -> op_key op = bkey i.
Proof. intros H. apply elem_of_list_bind in H as (q & H & _). eapply calls_key, H. Qed.

(** Where the task of an object is, and what the store has for it. *)
Definition prog (p : bphase) (i : nat) (tok : N) (tokens : gmap nat N) (l : list sop) (st : kstate) : Prop :=
  match p with
  | PCreate => l = [SoCreate (bkey i) size] /\ st = KAbsent \/ l = [] /\ st = KUpload tok size ∅ /\ tokens !! i = Some tok
  | PWrite => exists k, (k <= nw)%nat /\ l = drop k (calls g PWrite i tok 0) /\ st = KUpload tok size (up_to k)
  | PCommit => l = [SoCommit (bkey i) tok] /\ st = KUpload tok size (up_to nw) \/ l = [] /\ st = KStored pool
  | PInspect | PRandom | PRead => st = KStored pool /\ Forall (fun op => op = SoInspect (bkey i) \/ exists start e, asks g start e /\ op = SoRead (bkey i) start (Some e)) l
  | PDelete => l = [SoDelete (bkey i)] /\ st = KStored pool \/ l = [] /\ st = KAbsent
  | PDone => l = [] /\ st = if bc_skip_deletion g then KStored pool else KAbsent
  end.
Lemma asks_in start e : asks g start e -> start <= e <= size.
Proof using Hg.
  intros [[Hp ->]|[Hs ->]].
  - unfold picked in Hp. destruct (N.ltb_spec 4000 size); lia.
  - apply tiles_lt in Hs; [lia|apply (bo_read _ Hg)].
Qed.

Context {St : Type} (A : adapter St) (s0 : St) (ok : kstate -> sop -> Prop).
Context (HA : answers_if A s0 chunk ok right_but_length) (Ht : takes g ok).

Record binv (b : bstate St) : Prop := {
  bi_real : real (b_phase b);
  bi_len : length (b_todo b) = bc_count g;
  bi_store : exists F, runs A s0 (b_hist b) (b_store b) /\ follows chunk ok (b_hist b) F /\
    forall i l, b_todo b !! i = Some l -> exists tok rnd, picked g rnd /\ (b_phase b <> PCreate -> b_tokens b !! i = Some tok) /\
      filter (fun op => op_key op = bkey i) (b_hist b).*1 ++ l = script (b_phase b) i tok rnd /\ prog (b_phase b) i tok (b_tokens b) l (F (bkey i));
}.
(** The next call of a task is in its turn, and leads on. *)
Lemma prog_call p i tok tokens op rest st : prog p i tok tokens (op :: rest) st ->
  allowed chunk st op /\ ok st op /\
  forall ans, right_but_length st op ans -> accepts g op ans /\
    exists tok', (p <> PCreate -> tok' = tok /\ keep_token i op ans tokens = tokens) /\ (p = PCreate -> keep_token i op ans tokens = <[i := tok']> tokens) /\
      prog p i tok' (keep_token i op ans tokens) rest (next chunk st op ans).
Proof using Hg Ht.
  pose proof (bo_chunk _ Hg) as Hc. pose proof (bo_pool _ Hg) as Hp. pose proof (bo_size _ Hg) as Hs.
  destruct p; cbn [prog].
  - intros [[E ->]|[E _]]; [|discriminate]. injection E as -> ->. split; [split; [apply be_bytes_byte|exact Hs]|]. split; [apply (tk_create _ _ Ht)|].
    intros ans [tok' ->]. split; [exact I|]. exists tok'. split; [congruence|]. cbn [keep_token]. split; [reflexivity|]. right. rewrite lookup_insert. auto.
  - intros (k & Hk & El & ->). assert (Ek : calls g PWrite i tok 0 !! k = Some op) by (rewrite <- (Nat.add_0_r k), <- lookup_drop, <- El; reflexivity).
    assert (Er : rest = drop (S k) (calls g PWrite i tok 0)) by (rewrite <- Nat.add_1_r, <- drop_drop, <- El; reflexivity).
    cbn [calls] in Ek. change (stepped size chunk) with (tiles chunk size) in Ek. rewrite list_lookup_fmap in Ek. destruct (tiles chunk size !! k) as [off|] eqn:Eo; [|discriminate]. cbn in Ek. injection Ek as <-.
    pose proof (lookup_lt_Some _ _ _ Eo) as Hlt. pose proof (tiles_lookup _ _ _ _ Hc Eo) as [-> Hof]. split; [|split].
    + cbn [allowed]. split; [reflexivity|]. split; [eapply elem_of_list_lookup_2, Eo|]. split; [rewrite up_to_lookup; destruct (Nat.ltb_spec k k); [lia|reflexivity]|].
      rewrite bytes_from_len by lia. lia.
    + apply (tk_write _ _ Ht).
    + intros ans ->. split; [exact I|]. exists tok. split; [auto|]. split; [congruence|]. exists (S k). split; [exact Hlt|]. split; [exact Er|]. reflexivity.
  - intros [[E ->]|[E _]]; [|discriminate]. injection E as -> ->. split; [|split].
    + cbn [allowed]. split; [reflexivity|]. intros off Ho. apply elem_of_list_lookup in Ho as [j Hj]. pose proof (lookup_lt_Some _ _ _ Hj) as Hlt. apply tiles_lookup in Hj as [-> _]; [|exact Hc].
      rewrite up_to_lookup. unfold nw. destruct (Nat.ltb_spec j (length (tiles chunk size))); [eauto|lia].
    + apply (tk_commit _ _ Ht).
    + intros ans ->. split; [exact I|]. exists tok. split; [auto|]. split; [congruence|]. right. split; [reflexivity|]. cbn [next]. now rewrite uploaded.
  - intros [-> HF]. apply Forall_cons in HF as [[->|(start & e & Ha & ->)] HF].
    + split; [exact I|]. split; [apply (tk_inspect _ _ Ht)|]. intros ans ->. split; [exact I|]. exists tok. split; [auto|]. split; [congruence|]. auto.
    + pose proof (asks_in _ _ Ha) as Hin. split; [cbn [allowed default from_option id]; lia|]. split; [now apply (tk_read _ _ Ht)|]. intros ans (n & Hn & ->).
      split; [cbn [accepts]; rewrite bytes_from_len by exact Hn; auto|]. exists tok. split; [auto|]. split; [congruence|]. auto.
  - intros [-> HF]. apply Forall_cons in HF as [[->|(start & e & Ha & ->)] HF].
    + split; [exact I|]. split; [apply (tk_inspect _ _ Ht)|]. intros ans ->. split; [exact I|]. exists tok. split; [auto|]. split; [congruence|]. auto.
    + pose proof (asks_in _ _ Ha) as Hin. split; [cbn [allowed default from_option id]; lia|]. split; [now apply (tk_read _ _ Ht)|]. intros ans (n & Hn & ->).
      split; [cbn [accepts]; rewrite bytes_from_len by exact Hn; auto|]. exists tok. split; [auto|]. split; [congruence|]. auto.
  - intros [-> HF]. apply Forall_cons in HF as [[->|(start & e & Ha & ->)] HF].
    + split; [exact I|]. split; [apply (tk_inspect _ _ Ht)|]. intros ans ->. split; [exact I|]. exists tok. split; [auto|]. split; [congruence|]. auto.
    + pose proof (asks_in _ _ Ha) as Hin. split; [cbn [allowed default from_option id]; lia|]. split; [now apply (tk_read _ _ Ht)|]. intros ans (n & Hn & ->).
      split; [cbn [accepts]; rewrite bytes_from_len by exact Hn; auto|]. exists tok. split; [auto|]. split; [congruence|]. auto.
  - intros [[E ->]|[E _]]; [|discriminate]. injection E as -> ->. split; [exact I|]. split; [apply (tk_delete _ _ Ht)|]. intros ans ->. split; [exact I|]. exists tok. split; [auto|]. split; [congruence|]. auto.
  - intros [E _]. discriminate.
Qed.
(** A task that is over is ready for the next phase. *)
Lemma prog_next p i tok tok' rnd tokens st : real p -> p <> PDone -> prog p i tok tokens [] st -> picked g rnd ->
  (next_phase g p = PWrite \/ next_phase g p = PCommit -> tok' = tok) -> prog (next_phase g p) i tok tokens (calls g (next_phase g p) i tok' rnd) st.
Proof using Hg.
  intros Hre Hp Hpr Hrnd Htok. destruct p; cbn [prog next_phase] in *; try congruence.
  - destruct Hpr as [[E _]|(_ & -> & _)]; [discriminate|]. rewrite Htok by auto. exists 0%nat. split; [lia|]. split; reflexivity.
  - destruct Hpr as (k & Hk & E & ->). rewrite Htok by auto. left. split; [reflexivity|]. assert (k = nw) as ->; [|reflexivity].
    assert (Hz : length (drop k (calls g PWrite i tok 0)) = 0%nat) by now rewrite <- E. rewrite drop_length in Hz. cbn [calls] in Hz. rewrite fmap_length in Hz.
    change (stepped size chunk) with (tiles chunk size) in Hz. unfold nw in *. lia.
  - destruct Hpr as [[E _]|[_ ->]]; [discriminate|]. split; [reflexivity|]. constructor; [auto|constructor].
  - destruct Hpr as [-> _]. split; [reflexivity|]. constructor; [|constructor]. right. do 2 eexists. split; [|reflexivity]. left. auto.
  - destruct Hpr as [-> _]. split; [reflexivity|]. cbn [calls]. apply Forall_fmap. apply Forall_forall. intros start Hst. change (stepped size (bc_read g)) with (tiles (bc_read g) size) in Hst. right. do 2 eexists.
    split; [|reflexivity]. right. split; [exact Hst|]. apply tiles_lt in Hst; [lia|apply (bo_read _ Hg)].
  - destruct Hpr as [-> _]. destruct (bc_skip_deletion g) eqn:E; cbn [prog calls]; [rewrite E|]; auto.
  - destruct Hpr as [[E _]|[_ ->]]; [discriminate|]. split; [reflexivity|]. rewrite (Hre eq_refl). reflexivity.
Qed.
Lemma tok_of p i tok tokens st : prog p i tok tokens [] st -> (p <> PCreate -> tokens !! i = Some tok) -> tokens !! i = Some tok.
Proof. intros H Hc. destruct (decide (p = PCreate)) as [->|Hn]; [|auto]. destruct H as [[E _]|(_ & _ & H)]; [discriminate|exact H]. Qed.

Lemma picked_0 : picked g 0.
Proof. unfold picked. destruct (N.ltb_spec 4000 size); lia. Qed.
Lemma script_calls p i tok tok' rnd rnd' (h : list sop) : real p -> p <> PDone -> h = script p i tok rnd -> (next_phase g p = PWrite \/ next_phase g p = PCommit -> tok' = tok) -> picked g rnd -> picked g rnd' ->
  exists rnd2, picked g rnd2 /\ h ++ calls g (next_phase g p) i tok' rnd' = script (next_phase g p) i tok rnd2.
Proof using Hg.
  intros Hre Hp -> Htok Hk Hk'. destruct (decide (next_phase g p = PRandom)) as [E|Hn].
  - exists rnd'. split; [exact Hk'|]. rewrite script_next by assumption. destruct p; cbn [next_phase] in E; try discriminate; [|destruct (bc_skip_deletion g); discriminate].
    unfold script. cbn [base_phases]. reflexivity.
  - exists rnd. split; [exact Hk|]. rewrite script_next by assumption. f_equal. destruct (next_phase g p) eqn:E; try reflexivity; try congruence; rewrite Htok by auto; reflexivity.
Qed.

Lemma prog_create p i tok tokens key sz rest st : prog p i tok tokens (SoCreate key sz :: rest) st -> p = PCreate.
Proof using.
  destruct p; cbn [prog]; intros H; [reflexivity|exfalso..].
  - destruct H as (k & _ & E & _). assert (Hin : SoCreate key sz ∈ calls g PWrite i tok 0) by (rewrite <- (take_drop k (calls g PWrite i tok 0)), <- E; apply elem_of_app; right; constructor).
    cbn [calls] in Hin. apply elem_of_list_fmap in Hin as (x & E2 & _). discriminate.
  - destruct H as [[E _]|[E _]]; discriminate.
  - destruct H as [_ H]. apply Forall_cons in H as [[E|(? & ? & _ & E)] _]; discriminate.
  - destruct H as [_ H]. apply Forall_cons in H as [[E|(? & ? & _ & E)] _]; discriminate.
  - destruct H as [_ H]. apply Forall_cons in H as [[E|(? & ? & _ & E)] _]; discriminate.
  - destruct H as [[E _]|[E _]]; discriminate.
  - destruct H as [E _]; discriminate.
Qed.
Lemma binv_step b b' : binv b -> bstep g A b b' -> binv b'.
Proof using Hg HA Ht.
  intros [Hre Hlen (F & Hr & Hf & Hi)] Hst. destruct Hst as [p todo tokens s h i op rest ans s' El Ha Hac|p todo tokens s h todo' Hp Hall [Hbl Hbg]]; cbn [b_phase b_todo b_tokens b_store b_hist] in *.
  - destruct (Hi i _ El) as (tok & rnd & Hrnd & Htok & Hfil & Hpr). destruct (prog_call _ _ _ _ _ _ _ Hpr) as (Hal & Hok & Hgo).
    assert (Hkey : op_key op = bkey i). { apply (script_key p i tok rnd). rewrite <- Hfil. apply elem_of_app. right. constructor. }
    rewrite <- Hkey in Hal, Hok, Hgo. pose proof (HA h s F op ans s' Hr Hf Hal Hok Ha) as Hgood.
    destruct (Hgo ans Hgood) as (_ & tok' & Ht1 & Ht2 & Hpr').
    constructor; cbn [b_phase b_todo b_tokens b_store b_hist]; [exact Hre|now rewrite insert_length|].
    exists (<[op_key op := next chunk (F (op_key op)) op ans]> F). split; [econstructor; eassumption|]. split; [now constructor|].
    intros j l Hj. destruct (decide (i = j)) as [<-|Hn].
    + rewrite list_lookup_insert in Hj by (eapply lookup_lt_Some, El). injection Hj as <-. rewrite Hkey, fn_insert_eq, <- Hkey.
      rewrite fmap_app, filter_app. cbn [fmap list_fmap fst]. rewrite filter_cons_True by congruence. rewrite filter_nil, <- app_assoc. cbn [app]. rewrite Hkey.
      destruct (decide (p = PCreate)) as [->|Hnc].
      * exists tok', rnd. rewrite Hkey in Hpr'. split; [exact Hrnd|]. split; [congruence|]. split; [exact Hfil|exact Hpr'].
      * destruct (Ht1 Hnc) as [-> Hkt]. rewrite Hkt in *. exists tok, rnd. rewrite Hkey in Hpr'. auto.
    + rewrite list_lookup_insert_ne in Hj by exact Hn. destruct (Hi j l Hj) as (tok2 & rnd2 & H1 & H2 & H3 & H4). exists tok2, rnd2. split; [exact H1|].
      assert (Hk2 : keep_token i op ans tokens !! j = tokens !! j). { unfold keep_token. destruct op; try reflexivity. destruct ans; try reflexivity. now rewrite lookup_insert_ne. }
      split; [intros Hc; rewrite Hk2; auto|].
      assert (Hne : op_key op <> bkey j).
      { rewrite Hkey. intros E. apply Hn. pose proof (bo_count _ Hg). apply lookup_lt_Some in El, Hj. apply bkey_inj; [lia|lia|exact E]. }
      split.
      * rewrite fmap_app, filter_app. cbn [fmap list_fmap fst]. rewrite filter_cons_False by congruence. rewrite filter_nil, app_nil_r. exact H3.
      * rewrite fn_insert_ne by exact Hne. destruct p; cbn [prog] in *; try exact H4. rewrite Hk2. exact H4.
  - constructor; cbn [b_phase b_todo b_tokens b_store b_hist]; [now apply real_next|exact Hbl|]. exists F. split; [exact Hr|]. split; [exact Hf|].
    intros i l Hl. destruct (Hbg i l Hl) as (tok' & rnd' & Htk & Hpk & ->).
    assert (Hold : todo !! i = Some []). { apply lookup_lt_Some in Hl. destruct (lookup_lt_is_Some_2 todo i ltac:(lia)) as [x Hx]. rewrite Forall_forall in Hall. rewrite (Hall x) in Hx by (eapply elem_of_list_lookup_2, Hx). exact Hx. }
    destruct (Hi i [] Hold) as (tok & rnd & H1 & H2 & H3 & H4). pose proof (tok_of _ _ _ _ _ H4 H2) as Hto. rewrite app_nil_r in H3.
    assert (Htt : next_phase g p = PWrite \/ next_phase g p = PCommit -> tok' = tok) by (intros Hx; specialize (Htk Hx); congruence).
    destruct (script_calls p i tok tok' rnd rnd' _ Hre Hp H3 Htt H1 Hpk) as (rnd2 & Hp2 & Hs2). exists tok, rnd2. split; [exact Hp2|]. split; [auto|]. split; [exact Hs2|].
    now apply prog_next.
Qed.
Lemma binv_reach n b : breach g A s0 n b -> binv b.
Proof using Hg HA Ht.
  induction 1 as [todo [Hl Hb]|n b b' _ IH Hs]; [|eapply binv_step; eassumption]. unfold first_phase in *. rewrite (bo_all _ Hg) in *.
  constructor; cbn [b_phase b_todo b_tokens b_store b_hist]; [discriminate|exact Hl|]. exists (fun _ => KAbsent). split; [constructor|]. split; [constructor|].
  intros i l Hi. destruct (Hb i l Hi) as (tok & rnd & _ & Hp & ->). exists tok, rnd. split; [exact Hp|]. split; [congruence|]. split; [reflexivity|]. left. auto.
Qed.
(** If it fails, a call of some task has no answer. *)
Lemma binv_safe b : binv b -> bfails g A b -> exists i op rest, b_todo b !! i = Some (op :: rest) /\ A (b_store b) op None /\ in_turn A s0 chunk ok (b_hist b) (b_store b) op /\ (forall key size, op = SoCreate key size -> b_phase b = PCreate).
Proof using Hg HA Ht.
  intros [Hre Hlen (F & Hr & Hf & Hi)] (i & op & rest & El & Hbad). destruct (Hi i _ El) as (tok & rnd & Hrnd & Htok & Hfil & Hpr). destruct (prog_call _ _ _ _ _ _ _ Hpr) as (Hal & Hok & Hgo).
  assert (Hkey : op_key op = bkey i). { apply (script_key (b_phase b) i tok rnd). rewrite <- Hfil. apply elem_of_app. right. constructor. }
  rewrite <- Hkey in Hal, Hok, Hgo. destruct Hbad as [Hn|(ans & s' & Ho & Hna)].
  - exists i, op, rest. split; [exact El|]. split; [exact Hn|]. split; [exists F; auto|]. intros key sz ->. eapply prog_create, Hpr.
  - exfalso. apply Hna, (Hgo ans). eapply HA; eassumption.
Qed.
Lemma binv_live b : binv b -> b_phase b = PDone /\ Forall (fun l => l = []) (b_todo b) \/ (exists b', bstep g A b b') \/
  exists i op rest, b_todo b !! i = Some (op :: rest) /\ in_turn A s0 chunk ok (b_hist b) (b_store b) op /\ (forall ans s', A (b_store b) op (Some (ans, s')) -> exists b', bstep g A b b').
Proof using Hg HA Ht.
  intros [Hre Hlen (F & Hr & Hf & Hi)]. destruct (decide (Forall (fun l => l = []) (b_todo b))) as [Hall|Hx].
  - destruct (decide (b_phase b = PDone)) as [Hd|Hd]; [auto|]. right; left. destruct b as [p todo tokens s h]. cbn [b_phase b_todo b_tokens b_store b_hist] in *. eexists.
    apply (bs_phase g A p todo tokens s h ((fun i => calls g (next_phase g p) i (default 0 (tokens !! i)) 0) <$> seq 0 (bc_count g)) Hd Hall). split; [now rewrite fmap_length, seq_length|].
    intros i l Hl. rewrite list_lookup_fmap in Hl. destruct (seq 0 (bc_count g) !! i) as [x|] eqn:E; [|discriminate]. apply lookup_seq in E as [-> Hlt]. cbn in Hl. injection Hl as <-.
    exists (default 0 (tokens !! i)), 0. split; [|split; [apply picked_0|reflexivity]]. intros _.
    destruct (lookup_lt_is_Some_2 todo i ltac:(lia)) as [y Hy]. rewrite Forall_forall in Hall. rewrite (Hall y) in Hy by (eapply elem_of_list_lookup_2, Hy).
    destruct (Hi i [] Hy) as (tok & rnd & _ & H2 & _ & H4). rewrite (tok_of _ _ _ _ _ H4 H2). reflexivity.
  - right; right. apply not_Forall_Exists, Exists_exists in Hx as (l & Hl & Hne); [|apply _]. destruct l as [|op rest]; [congruence|]. apply elem_of_list_lookup in Hl as [i El].
    destruct (Hi i _ El) as (tok & rnd & Hrnd & Htok & Hfil & Hpr). destruct (prog_call _ _ _ _ _ _ _ Hpr) as (Hal & Hok & Hgo).
    assert (Hkey : op_key op = bkey i). { apply (script_key (b_phase b) i tok rnd). rewrite <- Hfil. apply elem_of_app. right. constructor. }
    rewrite <- Hkey in Hal, Hok, Hgo. exists i, op, rest. split; [exact El|]. split; [exists F; auto|]. intros ans s' Ho. destruct (Hgo ans) as [Hac _]; [eapply HA; eassumption|].
    destruct b as [p todo tokens s h]. eexists. eapply bs_call; eassumption.
Qed.
End B.

(** ** How long it takes *)
Section L.
Context (g : bcfg) {St : Type} (A : adapter St) (s0 : St).
Definition ncalls (p : bphase) : nat :=
  match p with PWrite => length (stepped (bc_size g) (bc_chunk g)) | PRead => length (stepped (bc_size g) (bc_read g)) | PDone => 0 | _ => 1 end.
Lemma calls_length p i tok rnd : length (calls g p i tok rnd) = ncalls p.
Proof. destruct p; cbn [calls ncalls length]; try reflexivity; apply fmap_length. Qed.
Definition after (p : bphase) : list bphase :=
  let d := if bc_skip_deletion g then [PDone] else [PDelete; PDone] in
  match p with
  | PCreate => [PWrite; PCommit; PInspect; PRandom; PRead] ++ d | PWrite => [PCommit; PInspect; PRandom; PRead] ++ d | PCommit => [PInspect; PRandom; PRead] ++ d
  | PInspect => [PRandom; PRead] ++ d | PRandom => [PRead] ++ d | PRead => d | PDelete => [PDone] | PDone => []
  end.
Definition weight (p : bphase) : nat := S (bc_count g * ncalls p).
Lemma after_next p : p <> PDone -> after p = next_phase g p :: after (next_phase g p).
Proof. destruct p; cbn [after next_phase app]; try reflexivity; try congruence. intros _. destruct (bc_skip_deletion g); reflexivity. Qed.
Lemma sum_const {X} (f : X -> nat) k l : Forall (fun x => f x = k) l -> sum_list_with f l = (length l * k)%nat.
Proof. induction 1 as [|x l Hx _ IH]; [reflexivity|]. cbn [sum_list_with length]. rewrite Hx, IH. lia. Qed.
Lemma begins_sum p tokens todo : begins g p tokens todo -> sum_list_with length todo = (bc_count g * ncalls p)%nat.
Proof.
  intros [Hl H]. rewrite <- Hl. apply sum_const. apply Forall_lookup. intros i l Hi. destruct (H i l Hi) as (tok & rnd & _ & _ & ->). apply calls_length.
Qed.
Lemma sum_insert (l : list (list sop)) i x y : l !! i = Some (x :: y) -> sum_list_with length l = S (sum_list_with length (<[i := y]> l)).
Proof.
  revert i. induction l as [|a l IH]; intros i H; [discriminate|]. destruct i as [|i]; cbn in H.
  - injection H as ->. cbn [sum_list_with insert list_insert length]. lia.
  - cbn [sum_list_with insert list_insert]. rewrite (IH i H). unfold insert. lia.
Qed.
Lemma step_count n b : breach g A s0 n b -> (n + sum_list_with length (b_todo b) + sum_list_with weight (after (b_phase b)) = bc_count g * ncalls (first_phase g) + sum_list_with weight (after (first_phase g)))%nat.
Proof.
  induction 1 as [todo Hb|n b b' _ IH Hs]; [cbn [b_todo b_phase]; rewrite (begins_sum _ _ _ Hb); reflexivity|].
  rewrite <- IH. clear IH. destruct Hs as [p todo tokens s h i op rest ans s' El Ha Hac|p todo tokens s h todo' Hp Hall Hb]; cbn [b_todo b_phase].
  - rewrite (sum_insert todo i _ _ El). lia.
  - rewrite (after_next p Hp). cbn [sum_list_with]. rewrite (begins_sum _ _ _ Hb). rewrite (sum_const length 0 todo) by (eapply Forall_impl; [exact Hall|now intros l ->]). unfold weight. lia.
Qed.
End L.
Lemma total_length g : bc_skip_creation g = false -> (bc_count g * ncalls g (first_phase g) + sum_list_with (weight g) (after g (first_phase g)))%nat = run_length g.
Proof.
  intros H. unfold first_phase. rewrite H. unfold run_length, after, weight.
  destruct (bc_skip_deletion g); cbn [app sum_list_with ncalls]; (change (stepped (bc_size g) (bc_chunk g)) with (tiles (bc_chunk g) (bc_size g))); (change (stepped (bc_size g) (bc_read g)) with (tiles (bc_read g) (bc_size g)));
  generalize (length (tiles (bc_chunk g) (bc_size g))), (length (tiles (bc_read g) (bc_size g))); intros a b; [replace (5 + a + b - 1)%nat with (4 + a + b)%nat by lia|rewrite Nat.sub_0_r]; lia.
Qed.
