(** The stress tester on the direct store. *)
From Coq Require Import ZifyBool ZifyNat ZifyN.
From stdpp Require Import base numbers option gmap sets functions list.
From Verif Require Import Util Bytes PageIOModel PageIOSpec DirectModel DirectSpec DirectBase DirectSeqSpec DirectSys DirectHist StressModel StressSpec.
Open Scope N_scope.
Ltac Zify.zify_post_hook ::= idtac.

(** ** The configuration *)
Section Cfg.
  Context (g : stcfg) (lpage : N) (Hg : stress_cfg g lpage).
  Lemma ob_len_bound k : 0 < ob_len g k < sg_max g.
  Proof using Hg. destruct (sc_max _ _ Hg) as [H _]. unfold ob_len. pose proof (N.mod_lt (sg_hash g 2 (N.of_nat k)) (sg_max g - 1) ltac:(lia)). lia. Qed.
  Lemma ob_data_fits k : ob_offset g k + ob_len g k <= pool_size g.
  Proof using Hg.
    pose proof (ob_len_bound k) as H1. destruct (sc_max _ _ Hg) as [_ H]. unfold ob_offset.
    pose proof (N.mod_lt (sg_hash g 3 (N.of_nat k)) (pool_size g - ob_len g k) ltac:(lia)). lia.
  Qed.
  Lemma ob_key_some k : exists key, ob_key g k = Some key.
  Proof using Hg.
    unfold ob_key, get_then_prefix, pool_get. destruct (sc_key _ _ Hg) as [H1 H2].
    assert (0 < ob_key_len g k < sg_key_max g) as H3 by (unfold ob_key_len; pose proof (N.mod_lt (sg_hash g 0 (N.of_nat k)) (sg_key_max g - 1) ltac:(lia)); lia).
    assert (ob_key_offset g k + ob_key_len g k <= pool_size g) as H4.
    { unfold ob_key_offset. pose proof (N.mod_lt (sg_hash g 1 (N.of_nat k)) (pool_size g - ob_key_len g k) ltac:(lia)). lia. }
    apply N.leb_le in H4. rewrite H4. cbn [mbind option_bind]. eauto.
  Qed.
  Lemma ob_keys_differ k k' key : (k < sg_objects g)%nat -> (k' < sg_objects g)%nat -> ob_key g k = Some key -> ob_key g k' = Some key -> k = k'.
  Proof using Hg.
    intros L1 L2 H1 H2. unfold ob_key, get_then_prefix in *.
    destruct (pool_get g (ob_key_offset g k) _); [|discriminate]. destruct (pool_get g (ob_key_offset g k') _); [|discriminate]. cbn [mbind option_bind] in *.
    apply (inj Some) in H1 as <-. apply (inj Some) in H2. apply app_inj_1 in H2 as [H2 _]; [|rewrite !le_bytes_length; reflexivity].
    apply (f_equal le_val) in H2. pose proof (sc_count _ _ Hg) as Hc. rewrite !le_val_bytes in H2; [lia|change (256 ^ N.of_nat 8) with (2 ^ 64)..]; lia.
  Qed.
End Cfg.

Lemma slice_length data a b : a <= b -> b <= N.of_nat (length data) -> length (slice data a b) = N.to_nat (b - a).
Proof. intros H1 H2. unfold slice. rewrite take_length, drop_length. lia. Qed.
Lemma slice_lookup data a b i : a + N.of_nat i < b -> slice data a b !! i = data !! (N.to_nat a + i)%nat.
Proof. intros H. unfold slice. rewrite lookup_take by lia. rewrite lookup_drop. reflexivity. Qed.
Lemma slice_app data a b c : a <= b -> b <= c -> slice data a b ++ slice data b c = slice data a c.
Proof.
  intros H1 H2. unfold slice. replace (N.to_nat (c - a)) with (N.to_nat (b - a) + N.to_nat (c - b))%nat by lia.
  rewrite <- take_take_drop, drop_drop. do 3 f_equal. lia.
Qed.
Section Data.
  Context (g : stcfg) (lpage : N) (Hg : stress_cfg g lpage).
  Lemma ob_data_length k : N.of_nat (length (ob_data g k)) = ob_len g k.
  Proof using Hg. pose proof (ob_data_fits g lpage Hg k) as H. unfold ob_data, pool_size in *. rewrite take_length, drop_length. lia. Qed.
  Lemma pool_data k a n : a + n <= ob_len g k -> pool_get g (ob_offset g k + a) n = Some (slice (ob_data g k) a (a + n)).
  Proof using Hg.
    intros H. pose proof (ob_data_fits g lpage Hg k) as H1. unfold pool_get. destruct (N.leb_spec (ob_offset g k + a + n) (pool_size g)); [|lia]. f_equal.
    unfold slice, ob_data. rewrite skipn_firstn_comm, take_take, drop_drop. f_equal; [lia|]. f_equal. lia.
  Qed.
End Data.

(** ** Parts *)
Definition idle (u : upload) : Prop := forall o, pt_writers (up_parts u o) = 0%nat.
(** The parts before [off] have been written. *)
Definition filled (g : stcfg) (k : nat) (u : upload) (off : N) : Prop :=
  forall j, j * sg_lpage g < off -> pt_data (up_parts u (j * sg_lpage g)) = Some (slice (ob_data g k) (j * sg_lpage g) (N.min (j * sg_lpage g + sg_lpage g) (ob_len g k))).
Record upload_ok (g : stcfg) (k : nat) (key : list N) (u : upload) (off : N) : Prop := {
  uk_key : up_key u = key;
  uk_size : up_size u = ob_len g k;
  uk_filled : filled g k u off;
}.
Record object_ok (g : stcfg) (k : nat) (id : option N) (co : cobj) : Prop := {
  ok_id : id = Some (co_id co);
  ok_size : co_size co = ob_len g k;
  ok_bytes : forall i b, ob_data g k !! i = Some b -> co_bytes co (N.of_nat i) = b;
}.
Definition at_part (g : stcfg) (k : nat) (off : N) : Prop := off < ob_len g k /\ exists j, off = j * sg_lpage g.

(** What a task in the queue needs of the store. *)
Definition ready (g : stcfg) (k : nat) (key : list N) (S : sstate) (t : task) : Prop :=
  match t with
  | TCreate => ss_com S !! key = None
  | TWrite tok off => at_part g k off /\ tok ∈ ss_ids S /\ ss_com S !! key = None /\ exists u, is_open S tok u /\ upload_ok g k key u off /\ idle u
  | TCommit tok => tok ∈ ss_ids S /\ ss_com S !! key = None /\ exists u, is_open S tok u /\ upload_ok g k key u (ob_len g k)
  | TInspect id => exists co, ss_com S !! key = Some co /\ object_ok g k id co
  | TRead id off => off < ob_len g k /\ exists co, ss_com S !! key = Some co /\ object_ok g k id co
  | TDelete id => exists co, ss_com S !! key = Some co /\ object_ok g k id co
  end.
(** A call that has begun, and what was seen of it. *)
Inductive linked (g : stcfg) (k : nat) (key : list N) (S : sstate) (t : task) (fin : N) : list vis -> sproc -> Prop :=
| lk_call op : ready g k key S t -> picks g k t fin -> task_call g k t fin = Some op -> linked g k key S t fin [] (SCall op)
| lk_writing tok off len st u :
    t = TWrite tok off -> at_part g k off -> tok ∈ ss_ids S -> ss_com S !! key = None -> is_open S tok u -> upload_ok g k key u off ->
    st = [Data (slice (ob_data g k) off (N.min (off + sg_lpage g) (ob_len g k)))] -> len = N.of_nat (length (stream_bytes st)) ->
    pt_writers (up_parts u off) = 1%nat -> pt_clean (up_parts u off) = true -> (forall o, o <> off -> pt_writers (up_parts u o) = 0%nat) ->
    linked g k key S t fin [] (SWriting tok off len st)
| lk_wrote tok off st u :
    t = TWrite tok off -> at_part g k off -> tok ∈ ss_ids S -> ss_com S !! key = None -> is_open S tok u -> upload_ok g k key u (off + sg_lpage g) -> idle u ->
    Data [] ∉ st -> linked g k key S t fin [] (SWrote st)
| lk_committing tok u :
    t = TCommit tok -> tok ∈ ss_ids S -> ss_com S !! key = None -> ss_up S !! tok = Some u -> upload_ok g k key u (ob_len g k) ->
    linked g k key S t fin [] (SCommitting tok false)
| lk_published tok id co :
    t = TCommit tok -> tok ∈ ss_ids S -> ss_com S !! key = Some co -> object_ok g k (Some id) co -> linked g k key S t fin [] (SPublished tok id None)
| lk_reading id off oid pos x y z seen chunks co :
    t = TRead id off -> off < fin -> fin <= ob_len g k -> off <= pos <= fin ->
    ss_com S !! key = Some co -> object_ok g k id co -> id = Some oid ->
    seen = VRet (RReading x y z fin) :: map VChunk chunks -> concat chunks = slice (ob_data g k) off pos -> Forall (fun l => l <> []) chunks ->
    linked g k key S t fin seen (SReading key oid pos fin 16384)
| lk_deleted id oid :
    t = TDelete id -> ss_com S !! key = None -> oid ∈ ss_ids S -> (forall key' co, ss_com S !! key' = Some co -> co_id co <> oid) ->
    linked g k key S t fin [] (SDeleted oid).

Definition task_tok (t : task) : option N := match t with TWrite tok _ | TCommit tok => Some tok | _ => None end.
(** What a step of a call for upload [tok] and key [key] leaves as it is. *)
Record keeps (S S' : sstate) (tok : option N) (key : list N) : Prop := {
  kp_up : forall t, t ∈ ss_ids S -> tok <> Some t -> ss_up S' !! t = ss_up S !! t;
  kp_com : forall k, k <> key -> ss_com S' !! k = ss_com S !! k;
  kp_ids : ss_ids S ⊆ ss_ids S';
  kp_new : forall k co, ss_com S' !! k = Some co -> ss_com S !! k = Some co \/ co_id co ∉ ss_ids S;
}.
Lemma keeps_refl S tok key : keeps S S tok key.
Proof. constructor; auto. Qed.

Lemma ready_kept g k key S S' tok key' t : keeps S S' tok key' -> key <> key' -> task_tok t = None \/ task_tok t <> tok -> ready g k key S t -> ready g k key S' t.
Proof.
  intros [K1 K2 K3 K4] Hk Ht H. destruct t; cbn [ready task_tok] in *; rewrite ?(K2 _ Hk).
  - exact H.
  - destruct H as (H0 & H1 & H2 & u & [H3 H3'] & H4). split; [exact H0|]. split; [apply K3, H1|]. split; [exact H2|]. exists u. split; [|exact H4]. split; [|exact H3'].
    rewrite K1; [exact H3|exact H1|]. destruct Ht as [Ht|Ht]; [discriminate Ht|congruence].
  - destruct H as (H1 & H2 & u & [H3 H3'] & H4). split; [apply K3, H1|]. split; [exact H2|]. exists u. split; [|exact H4]. split; [|exact H3'].
    rewrite K1; [exact H3|exact H1|]. destruct Ht as [Ht|Ht]; [discriminate Ht|congruence].
  - exact H.
  - exact H.
  - exact H.
Qed.
Lemma linked_kept g k key S S' tok key' t fin seen p : keeps S S' tok key' -> key <> key' -> task_tok t = None \/ task_tok t <> tok ->
  linked g k key S t fin seen p -> linked g k key S' t fin seen p.
Proof.
  intros K Hk Ht H. pose proof K as [K1 K2 K3 K4]. destruct H.
  - eapply lk_call; [eapply ready_kept; eassumption|eassumption|eassumption].
  - subst t. destruct H3 as [H3 H3']. eapply lk_writing; eauto; [rewrite K2 by exact Hk; assumption|]. split; [|exact H3'].
    rewrite K1; [exact H3|assumption|]. cbn [task_tok] in Ht. destruct Ht as [Ht|Ht]; [discriminate Ht|congruence].
  - subst t. destruct H3 as [H3 H3']. eapply lk_wrote; eauto; [rewrite K2 by exact Hk; assumption|]. split; [|exact H3'].
    rewrite K1; [exact H3|assumption|]. cbn [task_tok] in Ht. destruct Ht as [Ht|Ht]; [discriminate Ht|congruence].
  - subst t. eapply lk_committing; eauto; [rewrite K2 by exact Hk; assumption|].
    rewrite K1; [assumption|assumption|]. cbn [task_tok] in Ht. destruct Ht as [Ht|Ht]; [discriminate Ht|congruence].
  - subst t. eapply lk_published; eauto. rewrite K2 by exact Hk. assumption.
  - eapply lk_reading; eauto. rewrite K2 by exact Hk. assumption.
  - eapply lk_deleted; eauto; [rewrite K2 by exact Hk; assumption|]. intros key2 co Hco. apply K4 in Hco as [Hco|Hco]; [eauto|]. intros E. rewrite E in Hco. contradiction.
Qed.

(** ** Facts about the whole store *)
Record com_ok (S : sstate) : Prop := {
  cm_ids : forall key co, ss_com S !! key = Some co -> co_id co ∈ ss_ids S;
  cm_differ : forall key key' co co', ss_com S !! key = Some co -> ss_com S !! key' = Some co' -> co_id co = co_id co' -> key = key';
}.
Lemma com_same S S' : ss_com S' = ss_com S -> ss_ids S ⊆ ss_ids S' -> com_ok S -> com_ok S'.
Proof. intros E1 E2 [H1 H2]. constructor; rewrite E1; [intros key co H; apply E2, (H1 _ _ H)|exact H2]. Qed.
Lemma com_step lpage S all p S' p' v : sstep lpage S all p S' p' v -> com_ok S -> com_ok S'.
Proof.
  intros H HC. destruct H; try exact HC; try (refine (com_same S _ _ _ HC); [reflexivity|cbn [ss_ids add_id set_up set_scom on_part]; set_solver]).
  - destruct HC as [H3 H4]. constructor; cbn [ss_com ss_ids add_id set_scom set_up].
    + intros key co Hk. apply lookup_insert_Some in Hk as [[<- <-]|[_ Hk]]; cbn [co_id]; [set_solver|]. apply H3 in Hk. set_solver.
    + intros key key' co co' Hk Hk' E. apply lookup_insert_Some in Hk as [[<- <-]|[Hn Hk]]; apply lookup_insert_Some in Hk' as [[<- <-]|[Hn' Hk']]; cbn [co_id] in *.
      * reflexivity.
      * apply H3 in Hk'. rewrite <- E in Hk'. contradiction.
      * apply H3 in Hk. rewrite E in Hk. contradiction.
      * eapply H4; eassumption.
  - destruct HC as [H3 H4]. constructor; cbn [ss_com ss_ids set_scom].
    + intros key' co' Hk. apply lookup_delete_Some in Hk as [_ Hk]. eauto.
    + intros k1 k2 co1 co2 Hk1 Hk2 E. apply lookup_delete_Some in Hk1 as [_ Hk1]. apply lookup_delete_Some in Hk2 as [_ Hk2]. eauto.
Qed.
Definition pub_ok (S : sstate) (all : list sproc) : Prop :=
  forall tok id x, SPublished tok id x ∈ all -> exists key co, ss_com S !! key = Some co /\ co_id co = id.

(** ** One step of the call of a task *)
Section Own.
  Context (g : stcfg) (lpage : N) (Hg : stress_cfg g lpage).
  Lemma lpage_pos : 0 < sg_lpage g.
  Proof using Hg. rewrite (sc_lpage _ _ Hg). apply N.neq_0_lt_0, N.pow_nonzero. discriminate. Qed.
  Lemma check_chunks_ok k fin chunks off : off <= fin -> fin <= ob_len g k -> concat chunks = slice (ob_data g k) off fin -> check_chunks g k off fin chunks = Some fin.
  Proof using Hg.
    pose proof (ob_data_length _ _ Hg k) as HL. intros H1 H2. revert off H1. induction chunks as [|chunk chunks IH]; intros off H1 H3.
    - cbn [concat] in H3. apply (f_equal length) in H3. rewrite slice_length in H3 by lia. cbn [length] in H3. cbn [check_chunks]. f_equal. lia.
    - cbn [concat] in H3. pose proof (f_equal length H3) as H4. rewrite slice_length, app_length in H4 by lia. set (len := N.of_nat (length chunk)) in *.
      rewrite <- (slice_app _ off (off + len) fin) in H3 by lia. apply app_inj_1 in H3 as [H3 H5]; [|rewrite slice_length; lia].
      cbn [check_chunks]. fold len. rewrite (pool_data _ _ Hg) by lia. cbn [mbind option_bind]. rewrite decide_True by exact H3.
      destruct (N.leb_spec (off + len) fin); [|lia]. apply IH; [lia|exact H5].
  Qed.
  Lemma stream_of_chunks chunks : stream_of (map VChunk chunks ++ [VEnd RDone]) = Some chunks.
  Proof using. induction chunks as [|c chunks IH]; [reflexivity|]. cbn [map app stream_of]. rewrite IH. reflexivity. Qed.
  Lemma chunk_len_ok k off : off < ob_len g k -> off + chunk_len g k off = N.min (off + sg_lpage g) (ob_len g k).
  Proof using. intros H. unfold chunk_len. destruct (N.leb_spec (off + sg_lpage g) (ob_len g k)); lia. Qed.

  Lemma upload_start k key u off q : upload_ok g k key u off -> (forall j, j * sg_lpage g < off -> j * sg_lpage g <> q) -> forall p, upload_ok g k key (set_part u q p) off.
  Proof using.
    intros [H1 H2 H3] Hq p. constructor; [exact H1|exact H2|]. intros j Hj. cbn [set_part set_parts up_parts].
    rewrite fn_lookup_insert_ne; [apply H3, Hj|]. intros E. now apply (Hq j Hj).
  Qed.
  Lemma upload_finish k key u off p : at_part g k off -> upload_ok g k key u off ->
    pt_data p = Some (slice (ob_data g k) off (N.min (off + sg_lpage g) (ob_len g k))) -> upload_ok g k key (set_part u off p) (off + sg_lpage g).
  Proof using Hg.
    intros [_ [j0 ->]] [H1 H2 H3] Hp. pose proof lpage_pos as HP. constructor; [exact H1|exact H2|]. intros j Hj. cbn [set_part set_parts up_parts].
    destruct (decide (j = j0)) as [->|Hn]; [rewrite fn_lookup_insert; exact Hp|]. rewrite fn_lookup_insert_ne.
    - apply H3. apply N.mul_lt_mono_pos_r; [exact HP|]. assert (j < j0 + 1); [|lia]. apply (N.mul_lt_mono_pos_r (sg_lpage g)); [exact HP|lia].
    - intros E. apply Hn. apply N.mul_cancel_r in E; [congruence|lia].
  Qed.
  Lemma upload_bytes k key u bytes i b : upload_ok g k key u (ob_len g k) -> extends u bytes -> ob_data g k !! i = Some b -> bytes (N.of_nat i) = b.
  Proof using Hg.
    intros [_ _ H3] He Hi. pose proof lpage_pos as HP. pose proof (ob_data_length _ _ Hg k) as HL. pose proof (lookup_lt_Some _ _ _ Hi) as Hlt.
    pose proof (N.div_mod (N.of_nat i) (sg_lpage g) ltac:(lia)) as Hd. pose proof (N.mod_lt (N.of_nat i) (sg_lpage g) ltac:(lia)) as Hm.
    set (j := N.of_nat i / sg_lpage g) in *. set (r := N.of_nat i mod sg_lpage g) in *. rewrite (N.mul_comm (sg_lpage g) j) in Hd.
    specialize (H3 j ltac:(lia)). specialize (He _ _ (N.to_nat r) b H3). rewrite <- (He : _).
    - f_equal. lia.
    - rewrite slice_lookup; [|lia]. rewrite <- Hi. f_equal. lia.
  Qed.
End Own.
