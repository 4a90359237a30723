(** Properties C49 and C50: a direct store made of several partitions. *)
From Coq Require Import ZifyBool ZifyNat ZifyN.
From stdpp Require Import base numbers option gmap sets functions list.
From Verif Require Import Util PageIOModel PageIOSpec BuddyModel TuplesModel DirectModel DirectBase DirectSteps DirectInv DirectSpec DirectSeqSpec DirectRel DirectSys DirectSeq DirectDrive.
From Verif Require Import ClusterModel ClusterSpec ClusterSim ClusterInv.
Open Scope N_scope.
Ltac Zify.zify_post_hook ::= idtac.

(** ** Listing *)
Lemma list_keys h (l : list (list N * nat)) :
  (forall key r, (key, r) ∈ l -> exists ob, h_objs h !! r = Some ob /\ m_key (b_meta ob) = key) ->
  li_key <$> omap (fun r => ob ← h_objs h !! r;
                 Some {| li_key := m_key (b_meta ob); li_created := m_created (b_meta ob);
                         li_size := m_size (b_meta ob); li_id := b_id ob |}) l.*2 = l.*1.
Proof.
  induction l as [|[key r] l IH]; intros H; [reflexivity|].
  destruct (H key r) as (ob & E & Ek); [constructor|]. cbn [fmap list_fmap omap list_omap snd fst]. rewrite E. cbn [mbind option_bind].
  cbn [fmap list_fmap li_key]. f_equal; [exact Ek|]. apply IH. intros k r' Hin. apply H. now constructor.
Qed.
Lemma list_part_spec c y z lk zz : Good c y z lk zz ->
  NoDup (li_key <$> list_partition (y_sh y)) /\
  forall x, x ∈ list_partition (y_sh y) <-> exists key co, ss_com (z_state z) !! key = Some co /\ x = listed_of (key, co).
Proof.
  intros [(qs & sp & _ & _ & HS & _ & _ & HR)]. split.
  - unfold list_partition. rewrite list_keys.
    + apply NoDup_fst_map_to_list.
    + intros key r Hin. apply elem_of_map_to_list in Hin. destruct (s_com _ _ HS _ _ Hin) as (ob & E & Ek & _). eauto.
  - intros x. unfold list_partition. rewrite elem_of_list_omap. split.
    + intros (r & Hin & E). apply elem_of_list_fmap in Hin as ([key r'] & -> & Hin). cbn [snd] in E. apply elem_of_map_to_list in Hin.
      destruct (s_com _ _ HS _ _ Hin) as (ob & Eo & Ek & _). rewrite Eo in E. cbn in E. injection E as <-.
      pose proof (rl_com _ _ _ _ HR key) as Hc. rewrite Hin in Hc. destruct (ss_com (z_state z) !! key) as [co|] eqn:Ec; [|contradiction Hc].
      destruct Hc as (ob' & Eo' & H1 & H2 & H3 & _). assert (ob' = ob) as -> by congruence. exists key, co. split; [exact Ec|].
      unfold listed_of. cbn [fst snd]. congruence.
    + intros (key & co & Ec & ->). pose proof (rl_com _ _ _ _ HR key) as Hc. rewrite Ec in Hc.
      destruct (h_com (y_sh y) !! key) as [r|] eqn:Er; [|contradiction Hc]. destruct Hc as (ob & Eo & H1 & H2 & H3 & _).
      destruct (s_com _ _ HS _ _ Er) as (ob' & Eo' & Ek & _). assert (ob' = ob) as -> by congruence.
      exists r. split; [apply elem_of_list_fmap; exists (key, r); split; [reflexivity|now apply elem_of_map_to_list]|].
      rewrite Eo. cbn. unfold listed_of. cbn [fst snd]. congruence.
Qed.
Lemma nodup_flat {A B K} (f : A -> list B) (g : B -> K) (l : list A) :
  (forall i x, l !! i = Some x -> NoDup (g <$> f x)) ->
  (forall i j x y b b', l !! i = Some x -> l !! j = Some y -> b ∈ f x -> b' ∈ f y -> g b = g b' -> i = j) ->
  NoDup (g <$> (l ≫= f)).
Proof.
  induction l as [|a l IH]; intros H1 H2; [constructor|]. cbn [mbind list_bind]. rewrite fmap_app. apply NoDup_app. split; [|split].
  - exact (H1 0%nat a eq_refl).
  - intros k Hk Hk'. apply elem_of_list_fmap in Hk as (b & -> & Hb), Hk' as (b' & E & Hb').
    apply elem_of_list_bind in Hb' as (x & Hb' & Hx). apply elem_of_list_lookup in Hx as [j Hj].
    discriminate (H2 0%nat (S j) a x b b' eq_refl Hj Hb Hb' E).
  - apply IH; [intros i; apply (H1 (S i))|]. intros i j x y b b' Hi Hj Hb Hb' E. injection (H2 (S i) (S j) x y b b' Hi Hj Hb Hb' E). auto.
Qed.
Lemma list_spec cc k zs z : CInv cc k zs z -> list_objects k ≡ₚ listed_of <$> map_to_list (ss_com (z_state z)).
Proof.
  intros [[Hl1 Hl2] Hg _ HM _]. pose proof (mz_st _ _ _ _ _ HM) as MS0.
  assert (Hpart : forall p y, k_parts k !! p = Some y -> exists zp, zs !! p = Some zp /\ (z_state <$> zs) !! p = Some (z_state zp) /\
    NoDup (li_key <$> list_partition (y_sh y)) /\
    forall x, x ∈ list_partition (y_sh y) <-> exists key co, ss_com (z_state zp) !! key = Some co /\ x = listed_of (key, co)).
  { intros p y Hy. pose proof (lookup_lt_Some _ _ _ Hy) as Hlt.
    destruct (lookup_lt_is_Some_2 zs p) as [zp Hz]; [lia|]. destruct (lookup_lt_is_Some_2 (cc_parts cc) p) as [c Hc]; [lia|].
    destruct (Hg _ _ _ _ Hc Hy Hz) as (lk & zz & HG). exists zp. split; [exact Hz|].
    split; [now rewrite list_lookup_fmap, Hz|]. eapply list_part_spec, HG. }
  assert (Hnd : NoDup (li_key <$> list_objects k)).
  { unfold list_objects. apply nodup_flat.
    - intros i y Hy. destruct (Hpart _ _ Hy) as (zp & _ & _ & H & _). exact H.
    - intros i j y y' b b' Hi Hj Hb Hb' E. destruct (Hpart _ _ Hi) as (zp & _ & Hs & _ & H). destruct (Hpart _ _ Hj) as (zq & _ & Hs' & _ & H').
      apply H in Hb as (key & co & Ec & ->). apply H' in Hb' as (key' & co' & Ec' & ->). cbn in E. subst key'.
      pose proof (ms_comk _ _ _ _ MS0 _ _ _ _ Hs Ec) as R1. pose proof (ms_comk _ _ _ _ MS0 _ _ _ _ Hs' Ec') as R2. congruence. }
  apply NoDup_Permutation.
  - eapply NoDup_fmap_1, Hnd.
  - apply (NoDup_fmap_1 li_key). rewrite <- list_fmap_compose.
    replace ((li_key ∘ listed_of) <$> map_to_list (ss_com (z_state z))) with ((map_to_list (ss_com (z_state z))).*1)
      by (apply list_fmap_ext; intros; reflexivity). apply NoDup_fst_map_to_list.
  - intros x. unfold list_objects. rewrite elem_of_list_bind, elem_of_list_fmap. split.
    + intros (y & Hx & Hy). apply elem_of_list_lookup in Hy as [p Hy]. destruct (Hpart _ _ Hy) as (zp & _ & Hs & _ & H).
      apply H in Hx as (key & co & Ec & ->). exists (key, co). split; [reflexivity|]. apply elem_of_map_to_list.
      apply (ms_com _ _ _ _ MS0). eauto.
    + intros ([key co] & -> & Hin). apply elem_of_map_to_list in Hin. apply (ms_com _ _ _ _ MS0) in Hin as (p & Sp & Hs & Ec).
      pose proof (lookup_lt_Some _ _ _ Hs) as Hlt. rewrite fmap_length in Hlt.
      destruct (lookup_lt_is_Some_2 (k_parts k) p) as [y Hy]; [lia|]. destruct (Hpart _ _ Hy) as (zp & _ & Hs' & _ & H).
      exists y. split; [|eapply elem_of_list_lookup_2, Hy]. apply H. exists key, co. split; [congruence|reflexivity].
Qed.

(** ** The properties *)
(** Calls made concurrently on a store of any number of partitions, in every
    interleaving: what can be seen is a history of the same specification as for a
    single partition (C21). *)
Theorem C49_partitions_behave_like_one_store : forall cc lpage k0 ls k,
  cluster_ok cc lpage -> fresh_cluster cc k0 -> csteps cc k0 ls k -> valid_calls lpage ls ->
  exists ls' z', spec_steps lpage {| z_state := ss_empty; z_procs := [] |} ls' z' /\ visible ls' = visible ls.
Proof.
  intros cc lpage k0 ls k Hok Hf Hs Hv. destruct (csteps_inv _ _ _ _ _ Hok Hf Hv Hs) as (ls' & zs & z & H1 & H2 & _). eauto.
Qed.
Print Assumptions C49_partitions_behave_like_one_store.
(** Calls made one after another: one map from keys to the last committed object
    and one set of open uploads, whatever the hash function. *)
Theorem C49_calls_one_after_another : forall cc lpage k0 ls k,
  cluster_ok cc lpage -> fresh_cluster cc k0 -> csteps cc k0 ls k -> valid_calls lpage ls ->
  one_after_another (visible ls) -> all_finished (visible ls) ->
  exists n Q, seq_run lpage n (visible ls) Q.
Proof.
  intros cc lpage k0 ls k Hok Hf Hs Hv Ho Ha. destruct (csteps_inv _ _ _ _ _ Hok Hf Hv Hs) as (ls' & zs & z & H1 & H2 & _).
  rewrite <- H2 in *. destruct (seq_refines _ _ _ H1 Ho Ha) as (n & Q & H & _). eauto.
Qed.
Print Assumptions C49_calls_one_after_another.
(** Every call finds its partition. *)
Theorem C49_calls_are_routed : forall cc lpage key k op,
  cluster_ok cc lpage -> length (k_parts k) = length (cc_parts cc) -> op_key op = Some key ->
  exists p y, goes_to cc k op p /\ k_parts k !! p = Some y /\
    forall k' p', goes_to cc k' op p' -> p' = p.
Proof.
  intros cc lpage key k op Hok Hl Hk. set (n := length (cc_parts cc)) in *.
  assert (Hn : (0 < n)%nat) by (pose proof (ko_some _ _ Hok); unfold n; destruct (cc_parts cc); [congruence|cbn; lia]).
  assert (Hlt : (partition_of cc key < n)%nat).
  { unfold partition_of. fold n. pose proof (N.mod_lt (cc_hash cc key) (N.of_nat n) ltac:(lia)) as H. revert H.
    generalize (cc_hash cc key mod N.of_nat n). intros x H. lia. }
  destruct (lookup_lt_is_Some_2 (k_parts k) (partition_of cc key)) as [y Hy]; [lia|].
  exists (partition_of cc key), y. unfold goes_to. rewrite Hk. auto.
Qed.
Print Assumptions C49_calls_are_routed.

(** Listing the objects, at any point of any concurrent history, shows every
    object committed then, once, and nothing else. *)
Theorem C50_listing_shows_each_object_once : forall cc lpage k0 ls k,
  cluster_ok cc lpage -> fresh_cluster cc k0 -> csteps cc k0 ls k -> valid_calls lpage ls ->
  exists ls' z', spec_steps lpage {| z_state := ss_empty; z_procs := [] |} ls' z' /\ visible ls' = visible ls /\
    list_objects k ≡ₚ listed_of <$> map_to_list (ss_com (z_state z')).
Proof.
  intros cc lpage k0 ls k Hok Hf Hs Hv. destruct (csteps_inv _ _ _ _ _ Hok Hf Hv Hs) as (ls' & zs & z & H1 & H2 & HI).
  exists ls', z. split; [exact H1|]. split; [exact H2|]. eapply list_spec, HI.
Qed.
Print Assumptions C50_listing_shows_each_object_once.
Theorem C50_listing_one_after_another : forall cc lpage k0 ls k,
  cluster_ok cc lpage -> fresh_cluster cc k0 -> csteps cc k0 ls k -> valid_calls lpage ls ->
  one_after_another (visible ls) -> all_finished (visible ls) ->
  exists n Q, seq_run lpage n (visible ls) Q /\ list_objects k ≡ₚ listed_of <$> map_to_list (q_com Q).
Proof.
  intros cc lpage k0 ls k Hok Hf Hs Hv Ho Ha. destruct (csteps_inv _ _ _ _ _ Hok Hf Hv Hs) as (ls' & zs & z & H1 & H2 & HI).
  rewrite <- H2 in *. destruct (seq_refines _ _ _ H1 Ho Ha) as (n & Q & H & HS). exists n, Q. split; [exact H|].
  rewrite <- (sm_com _ _ HS). eapply list_spec, HI.
Qed.
Print Assumptions C50_listing_one_after_another.

(** ** A run with two partitions *)
Inductive cev := KCall (p : nat) (op : dop) | KStep (p i : nat) (id : N) | KFlush (p : nat).
Fixpoint find_call (K : list (nat * nat)) (x : nat * nat) : option nat :=
  match K with [] => None | a :: K => if bool_decide (a = x) then Some 0%nat else S <$> find_call K x end.
Lemma find_call_ok K x j : find_call K x = Some j -> K !! j = Some x.
Proof.
  revert j. induction K as [|a K IH]; intros j H; [discriminate|]. cbn [find_call] in H. case_bool_decide as E.
  - injection H as <-. now subst.
  - destruct (find_call K x) as [j'|]; [|discriminate]. injection H as <-. cbn. auto.
Qed.
Definition goes_b (cc : ccfg) (k : csys) (op : dop) (p : nat) : bool :=
  match op_key op, op_token op with
  | Some key, _ => (p =? partition_of cc key)%nat
  | _, Some tok => forallb (fun qy : nat * dsys => implb (bool_decide (tok ∈ h_used (y_sh (snd qy)))) (fst qy =? p)%nat) (imap pair (k_parts k))
  | _, _ => false
  end.
Lemma goes_b_ok cc k op p : goes_b cc k op p = true -> goes_to cc k op p.
Proof.
  unfold goes_b, goes_to. destruct (op_key op); [intros H; now apply Nat.eqb_eq|]. destruct (op_token op) as [tok|]; [|discriminate].
  rewrite forallb_forall. intros H q y Hq Hin. assert (E : imap pair (k_parts k) !! q = Some (q, y)) by (rewrite list_lookup_imap, Hq; reflexivity).
  apply elem_of_list_lookup_2, elem_of_list_In, H in E. cbn in E. rewrite bool_decide_eq_true_2 in E by exact Hin. now apply Nat.eqb_eq.
Qed.
Definition id_fresh (k : csys) (id : N) : bool :=
  bool_decide (id ∉ k_seen k) && forallb (fun y => bool_decide (id ∉ h_used (y_sh y))) (k_parts k).
Lemma used_after c o h p h' p' v : pstepR c o h p h' p' v -> h_used h' ⊆ {[or_id o]} ∪ h_used h.
Proof. destruct 1; cbn; set_solver. Qed.
Definition cdrive1 (cc : ccfg) (x : csys * list label) (e : cev) : option (csys * list label) :=
  let '(k, ls) := x in
  match e with
  | KCall p op =>
      y ← k_parts k !! p; c ← cc_parts cc !! p;
      if goes_b cc k op p then
        Some ({| k_parts := <[p := {| y_sh := y_sh y; y_procs := y_procs y ++ [PStart op] |}]> (k_parts k);
                 k_calls := k_calls k ++ [(p, length (y_procs y))]; k_seen := seen_after k op |},
              ls ++ [LCall (length (k_calls k)) op])
      else None
  | KStep p i id =>
      y ← k_parts k !! p; c ← cc_parts cc !! p; q ← y_procs y !! i; j ← find_call (k_calls k) (p, i);
      if id_fresh k id && (id <? 2 ^ 128) then
        '(h', q', v) ← pstep c (or_of id) (y_sh y) q;
        Some ({| k_parts := <[p := {| y_sh := h'; y_procs := <[i := q']> (y_procs y) |}]> (k_parts k); k_calls := k_calls k; k_seen := k_seen k |},
              ls ++ [lab j v])
      else None
  | KFlush p =>
      y ← k_parts k !! p; c ← cc_parts cc !! p;
      t ← PropertiesTuples.one_flush (h_tup (y_sh y));
      Some ({| k_parts := <[p := {| y_sh := set_tup (y_sh y) t; y_procs := y_procs y |}]> (k_parts k); k_calls := k_calls k; k_seen := k_seen k |},
            ls ++ [LTau; LTau; LTau])
  end.
Fixpoint cdrive (cc : ccfg) (x : csys * list label) (es : list cev) : option (csys * list label) :=
  match es with [] => Some x | e :: es => x ← cdrive1 cc x e; cdrive cc x es end.
Lemma cflush_step cc k p y c t t' : k_parts k !! p = Some y -> cc_parts cc !! p = Some c -> h_tup (y_sh y) = t -> tstep t None t' ->
  cstep cc k LTau {| k_parts := <[p := {| y_sh := set_tup (y_sh y) t'; y_procs := y_procs y |}]> (k_parts k); k_calls := k_calls k; k_seen := k_seen k |}.
Proof.
  intros Hy Hc <- Ht. apply (cstep_part cc k p y c LTau); [exact Hy|exact Hc|now apply dstep_flush| |reflexivity].
  intros id H1 H2. contradiction.
Qed.
Lemma cdrive1_steps cc k0 x e x' : cdrive1 cc x e = Some x' -> csteps cc k0 (snd x) (fst x) -> csteps cc k0 (snd x') (fst x').
Proof.
  destruct x as [k ls]. cbn [fst snd]. intros H Hs. destruct e as [p op|p i id|p]; cbn [cdrive1] in H.
  - destruct (k_parts k !! p) as [y|] eqn:Ey; [|discriminate]. cbn [mbind option_bind] in H.
    destruct (cc_parts cc !! p) as [c|] eqn:Ec; [|discriminate]. cbn [mbind option_bind] in H.
    destruct (goes_b cc k op p) eqn:Eg; [|discriminate]. injection H as <-. cbn [fst snd]. eapply csteps_snoc; [exact Hs|].
    eapply cstep_call; [now apply goes_b_ok|exact Ey|exact Ec|apply dstep_call].
  - destruct (k_parts k !! p) as [y|] eqn:Ey; [|discriminate]. cbn [mbind option_bind] in H.
    destruct (cc_parts cc !! p) as [c|] eqn:Ec; [|discriminate]. cbn [mbind option_bind] in H.
    destruct (y_procs y !! i) as [q|] eqn:Eq; [|discriminate]. cbn [mbind option_bind] in H.
    destruct (find_call _ _) as [j|] eqn:Ej; [|discriminate]. cbn [mbind option_bind] in H. apply find_call_ok in Ej.
    destruct (id_fresh k id && (id <? 2 ^ 128)) eqn:Eb; [|discriminate]. apply andb_true_iff in Eb as [E1 E2].
    apply andb_true_iff in E1 as [E1 E3]. apply bool_decide_eq_true in E1. apply N.ltb_lt in E2. rewrite forallb_forall in E3.
    assert (Hfr : forall q yq, k_parts k !! q = Some yq -> id ∉ h_used (y_sh yq)).
    { intros q' yq Hq. apply elem_of_list_lookup_2, elem_of_list_In, E3 in Hq. now apply bool_decide_eq_true in Hq. }
    destruct (pstep c (or_of id) (y_sh y) q) as [[[h' q'] v]|] eqn:Es; [|discriminate]. cbn [mbind option_bind] in H.
    injection H as <-. cbn [fst snd]. eapply csteps_snoc; [exact Hs|].
    eapply (cstep_part cc k p y c (lab i v)); [exact Ey|exact Ec| | |].
    + exact (dstep_proc c y i q (or_of id) h' q' v Eq (Hfr _ _ Ey) E2 eq_refl Es).
    + cbn [y_sh]. intros id' H1 H2. apply pstep_R, used_after in Es. apply Es, elem_of_union in H1 as [H1|H1]; [|contradiction].
      apply elem_of_singleton in H1 as ->. cbn. auto.
    + destruct v; cbn; eauto.
  - destruct (k_parts k !! p) as [y|] eqn:Ey; [|discriminate]. cbn [mbind option_bind] in H.
    destruct (cc_parts cc !! p) as [c|] eqn:Ec; [|discriminate]. cbn [mbind option_bind] in H.
    destruct (PropertiesTuples.one_flush (h_tup (y_sh y))) as [t|] eqn:Ef; [|discriminate]. cbn [mbind option_bind] in H.
    injection H as <-. cbn [fst snd]. destruct (one_flush_steps _ _ Ef) as (t1 & t2 & H1 & H2 & H3).
    pose proof (lookup_lt_Some _ _ _ Ey) as Hlt.
    change [LTau; LTau; LTau] with ([LTau] ++ [LTau] ++ [LTau]). rewrite !app_assoc.
    pose proof (cflush_step cc k p y c _ _ Ey Ec eq_refl H1) as S1.
    assert (S23 : forall t1 t2, tstep t1 None t2 -> cstep cc
      {| k_parts := <[p := {| y_sh := set_tup (y_sh y) t1; y_procs := y_procs y |}]> (k_parts k); k_calls := k_calls k; k_seen := k_seen k |} LTau
      {| k_parts := <[p := {| y_sh := set_tup (y_sh y) t2; y_procs := y_procs y |}]> (k_parts k); k_calls := k_calls k; k_seen := k_seen k |}).
    { clear -Hlt Ec. intros t1 t2 Ht. set (k1 := {| k_parts := _ |}).
      pose proof (cflush_step cc k1 p {| y_sh := set_tup (y_sh y) t1; y_procs := y_procs y |} c t1 t2) as S. cbn [k1 k_parts k_calls k_seen y_sh y_procs] in S.
      rewrite list_insert_insert in S. apply S; [now apply list_lookup_insert|exact Ec|reflexivity|exact Ht]. }
    pose proof (S23 _ _ H2) as S2. pose proof (S23 _ _ H3) as S3.
    eapply csteps_snoc; [eapply csteps_snoc; [eapply csteps_snoc; [exact Hs|exact S1]|exact S2]|exact S3].
Qed.
Lemma cdrive_steps cc k0 es : forall x x', cdrive cc x es = Some x' -> csteps cc k0 (snd x) (fst x) -> csteps cc k0 (snd x') (fst x').
Proof.
  induction es as [|e es IH]; intros x x' H Hs; cbn [cdrive] in H.
  - injection H as <-. exact Hs.
  - destruct (cdrive1 cc x e) as [x1|] eqn:E; [|discriminate]. cbn [mbind option_bind] in H.
    eapply IH; [exact H|]. eapply cdrive1_steps; eassumption.
Qed.

(** Two partitions; the hash of a key is its first byte. *)
Definition ex_cc : ccfg := {| cc_parts := [ex_cfg 10 8192; ex_cfg 10 8192]; cc_hash := fun key => default 0 (head key) |}.
Definition ex_ck : option csys := y ← ex_fresh 10 8192; Some {| k_parts := [y; y]; k_calls := []; k_seen := ∅ |}.
Lemma ex_ck_ok k : ex_ck = Some k -> fresh_cluster ex_cc k.
Proof.
  unfold ex_ck. destruct (ex_fresh 10 8192) as [y|] eqn:E; [|discriminate]. cbn [mbind option_bind]. intros H. injection H as <-.
  apply ex_fresh_ok in E. constructor; try reflexivity. intros [|[|p]] c y' H1 H2; cbn in H1, H2; try discriminate; injection H1 as <-; injection H2 as <-; eauto.
Qed.
Definition kcreate (p i : nat) (key : list N) (size tok free : N) : list cev :=
  [KCall p (OCreate key size); KStep p i tok; KStep p i tok; KStep p i free; KStep p i free; KFlush p; KStep p i free].
Definition kcommit (p i : nat) (tok free free' : N) : list cev :=
  [KCall p (OCommit tok false); KStep p i free; KStep p i free; KStep p i free; KStep p i free; KStep p i free'; KFlush p; KStep p i free'; KStep p i free'].
Definition c49_run : list cev :=
  kcreate 1 0 [97] 5 1 2 ++ kcreate 0 0 [98] 7 2 3 ++ kcommit 1 1 1 3 4 ++ kcommit 0 1 2 4 5.
Definition c49_labels : list label :=
  [LCall 0 (OCreate [97] 5); LVis 0 (VRet (RCreated 1)); LCall 1 (OCreate [98] 7); LVis 1 (VRet (RCreated 2));
   LCall 2 (OCommit 1 false); LVis 2 (VRet (RCommitted (Some 3))); LCall 3 (OCommit 2 false); LVis 3 (VRet (RCommitted (Some 4)))].
Definition c49_facts : option (list label * list (list N * N * N)) :=
  k ← ex_ck; '(k', ls) ← cdrive ex_cc (k, []) c49_run;
  Some (visible ls, (fun x => (li_key x, li_size x, li_id x)) <$> list_objects k').
Theorem C49_example : exists k0 k ls, cluster_ok ex_cc 10 /\ fresh_cluster ex_cc k0 /\ csteps ex_cc k0 ls k /\
  visible ls = c49_labels /\ valid_calls 10 ls /\ one_after_another (visible ls) /\ all_finished (visible ls) /\
  (fun x => (li_key x, li_size x, li_id x)) <$> list_objects k = [([98], 7, 4); ([97], 5, 3)].
Proof.
  assert (H : c49_facts = Some (c49_labels, [([98], 7, 4); ([97], 5, 3)])) by (vm_compute; reflexivity).
  unfold c49_facts in H. destruct ex_ck as [k0|] eqn:E0; [|discriminate]. cbn [mbind option_bind] in H.
  destruct (cdrive ex_cc (k0, []) c49_run) as [[k ls]|] eqn:E1; [|discriminate]. cbn [mbind option_bind] in H. injection H as H1 H2.
  exists k0, k, ls. split.
  { constructor; [discriminate|]. intros [|[|p]] c Hc; cbn in Hc; try discriminate; injection Hc as <-; (split; [constructor; cbn; lia|reflexivity]). }
  split; [now apply ex_ck_ok|]. split; [exact (cdrive_steps ex_cc k0 c49_run (k0, []) (k, ls) E1 (csteps_nil _ _))|].
  split; [exact H1|]. split; [apply valid_calls_ok; rewrite H1; reflexivity|]. rewrite H1.
  split; [apply oaa_ok; reflexivity|]. split; [apply all_fin_b_ok; reflexivity|exact H2].
Qed.
Print Assumptions C49_example.
