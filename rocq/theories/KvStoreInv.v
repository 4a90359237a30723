(** The invariant of the store of libblobd-kv, and what it says about reads. *)
From Coq Require Import ZifyBool ZifyNat ZifyN.
From stdpp Require Import base numbers list_numbers option gmap sets fin_maps list.
From Verif Require Import Util Bytes PageIOModel PageIOProofs PageIOWrite BuddyModel KvAllocModel KvAllocSpec KvAllocProofs KvAllocInv
  KvCodecModel KvCodecSpec KvCodecProofs KvReadModel PropertiesKvRead KvLogModel KvLogSpec KvLogProofs KvLogSys KvLogInv KvStoreModel KvStoreSpec.
Open Scope N_scope.
Ltac Zify.zify_post_hook ::= idtac.

(** ** Histories. *)
Section latest.
Context {K V : Type} `{EqDecision K}.
Implicit Types ops : list (K * option V).
Lemma latest_snoc ops k v k' : latest (ops ++ [(k, v)]) k' = if bool_decide (k = k') then v else latest ops k'.
Proof. unfold latest. rewrite foldl_app. reflexivity. Qed.
Lemma latest_take_S ops n k v k' : ops !! n = Some (k, v) ->
  latest (take (S n) ops) k' = if bool_decide (k = k') then v else latest (take n ops) k'.
Proof. intros H. rewrite (take_S_r _ _ _ H). apply latest_snoc. Qed.
(** No operation on [k] between [a] and [b]. *)
Lemma latest_untouched ops k a b : (a <= b)%nat -> (forall n v, (a <= n < b)%nat -> ops !! n <> Some (k, v)) ->
  latest (take b ops) k = latest (take a ops) k.
Proof.
  intros Hab. induction Hab as [|b Hab IH]; intros H; [reflexivity|].
  rewrite <- IH by (intros n v Hn; apply H; lia). destruct (ops !! b) as [[k' v]|] eqn:E.
  - rewrite (latest_take_S _ _ _ _ _ E). case_bool_decide as Hk; [|reflexivity]. subst k'. exfalso. apply (H b v ltac:(lia) E).
  - rewrite !take_ge by (apply lookup_ge_None in E; lia). reflexivity.
Qed.
Lemma latest_last ops k v n b : ops !! n = Some (k, v) -> (n < b)%nat -> (forall m w, (n < m < b)%nat -> ops !! m <> Some (k, w)) ->
  latest (take b ops) k = v.
Proof.
  intros E Hb H. rewrite (latest_untouched ops k (S n) b) by (try lia; intros m w Hm; apply H; lia).
  rewrite (latest_take_S _ _ _ _ _ E). rewrite bool_decide_true by reflexivity. reflexivity.
Qed.
End latest.

(** The overlay map that a piece of the log leaves behind. *)
Definition mapfold (l : list ltask) : kmap := foldl overlay_insert ∅ l.
Lemma mapfold_snoc l t : mapfold (l ++ [t]) = overlay_insert (mapfold l) t.
Proof. unfold mapfold. rewrite foldl_app. reflexivity. Qed.
Lemma mapfold_Some l k e : mapfold l !! k = Some e <-> exists n t, l !! n = Some t /\ task_key t = k /\ task_entry t = e /\
  forall m t', (n < m)%nat -> l !! m = Some t' -> task_key t' <> k.
Proof.
  induction l as [|t l IH] using rev_ind; [split; [intros H; discriminate H|intros (n & t & H & _); discriminate H]|].
  rewrite mapfold_snoc. unfold overlay_insert. destruct (decide (task_key t = k)) as [<-|Hne].
  - rewrite (lookup_insert (M:=gmap okey)). split.
    + intros [= <-]. exists (length l), t. rewrite list_lookup_middle by reflexivity. repeat split; try reflexivity.
      intros m t' Hm Hl. apply lookup_lt_Some in Hl. rewrite app_length in Hl. cbn in Hl. lia.
    + intros (n & t0 & Hn & Hk & He & Hl). destruct (decide (n = length l)) as [->|Hx].
      * rewrite list_lookup_middle in Hn by reflexivity. congruence.
      * exfalso. pose proof (lookup_lt_Some _ _ _ Hn) as Hlt. rewrite app_length in Hlt. cbn in Hlt.
        apply (Hl (length l) t); [lia|apply list_lookup_middle; reflexivity|reflexivity].
  - rewrite (lookup_insert_ne (M:=gmap okey)) by exact Hne. rewrite IH. split; intros (n & t0 & Hn & Hk & He & Hl).
    + exists n, t0. rewrite lookup_app_l by (eapply lookup_lt_Some; exact Hn). repeat split; try assumption.
      intros m t' Hm Ht'. apply lookup_app_Some in Ht' as [Ht'|[Hge Ht']]; [eapply Hl; eassumption|].
      apply list_lookup_singleton_Some in Ht' as [_ <-]. exact Hne.
    + exists n, t0. apply lookup_app_Some in Hn as [Hn|[Hge Hn]].
      * repeat split; try assumption. intros m t' Hm Ht'. apply (Hl m t' Hm). rewrite lookup_app_l by (eapply lookup_lt_Some; exact Ht'). exact Ht'.
      * apply list_lookup_singleton_Some in Hn as [_ <-]. contradiction.
Qed.
Lemma mapfold_None l k : mapfold l !! k = None <-> forall n t, l !! n = Some t -> task_key t <> k.
Proof.
  induction l as [|t l IH] using rev_ind; [split; [intros _ n t H; discriminate H|reflexivity]|].
  rewrite mapfold_snoc. unfold overlay_insert. rewrite (lookup_insert_None (M:=gmap okey)), IH. split.
  - intros [H1 H2] n t' Hn. apply lookup_app_Some in Hn as [Hn|[_ Hn]]; [eapply H1; exact Hn|].
    apply list_lookup_singleton_Some in Hn as [_ <-]. exact H2.
  - intros H. split; [intros n t' Hn; apply (H n); rewrite lookup_app_l by (eapply lookup_lt_Some; exact Hn); exact Hn|].
    apply (H (length l)). apply list_lookup_middle. reflexivity.
Qed.

(** An operation of the log and the API operation behind it. *)
Definition tv (c : kconf) (t : ltask) (o : list N * option (list N)) : Prop :=
  task_key t = kc_key c (fst o) /\ good_key (fst o) /\
  match t, snd o with
  | TDelete _, None => True
  | TUpsert _ (DInline i), Some v => i = v /\ N.of_nat (length v) <= 2 ^ 24 /\ Forall is_byte v
  | TUpsert _ (DHeap s o), Some v => s = N.of_nat (length v)
  | _, _ => False
  end.
(** The same with the keys of the log. *)
Definition okeyed (c : kconf) (ops : list (list N * option (list N))) : list (okey * option (list N)) :=
  (fun o => (kc_key c (fst o), snd o)) <$> ops.
Lemma okeyed_take c n ops : okeyed c (take n ops) = take n (okeyed c ops).
Proof. apply fmap_take. Qed.
Lemma latest_okeyed c ops raw : no_collision c ops raw -> latest (okeyed c ops) (kc_key c raw) = latest ops raw.
Proof.
  induction ops as [|[k v] ops IH] using rev_ind; intros H; [reflexivity|]. unfold okeyed. rewrite fmap_app. cbn [fmap list_fmap fst snd].
  rewrite !latest_snoc. fold (okeyed c ops). rewrite IH.
  - destruct (decide (k = raw)) as [->|Hne]; [rewrite !bool_decide_true by reflexivity; reflexivity|].
    rewrite !bool_decide_false; [reflexivity|exact Hne|]. intros E. apply Hne, H; [|exact E]. rewrite fmap_app. apply elem_of_app; right; left.
  - intros k' Hk' E. apply H; [|exact E]. rewrite fmap_app. apply elem_of_app; left; exact Hk'.
Qed.

(** ** Index pages. *)
Definition decode (page : list N) : list (okey * odata) := default [] (bundle_read page).
Record page_ok (c : kconf) (idx : N) (page : list N) : Prop := {
  po_read : exists l, bundle_read page = Some l;
  po_nodup : NoDup (fst <$> decode page);
  po_key : forall k d, (k, d) ∈ decode page -> valid_key k /\ nonempty_key k /\ kc_index c k = Some idx;
  po_data : forall k d, (k, d) ∈ decode page -> valid_data d
}.
Lemma page_find_elem l k d : page_find l k = Some d -> (k, d) ∈ l.
Proof.
  induction l as [|[k' d'] l IH]; [discriminate|]. cbn [page_find]. case_bool_decide as Hk; [subst; intros [= ->]; left|]. intros H. right. apply IH, H.
Qed.
Lemma page_find_nodup l k d : NoDup (fst <$> l) -> page_find l k = Some d <-> (k, d) ∈ l.
Proof.
  intros Hn. split; [apply page_find_elem|]. induction l as [|[k' d'] l IH]; intros H; [inversion H|].
  rewrite fmap_cons in Hn. apply NoDup_cons in Hn as [Hn1 Hn2]. cbn [page_find]. apply elem_of_cons in H as [H|H].
  - injection H as -> ->. rewrite bool_decide_true by reflexivity. reflexivity.
  - rewrite bool_decide_false; [apply IH; assumption|]. cbn. intros ->. apply Hn1. cbn. apply elem_of_list_fmap. exists (k, d). auto.
Qed.

(** What the page of [k] holds for [k]: on the device, and counting pages already
    updated in memory. *)
Definition ready_of (y : kstate) : list (N * list N) := match ks_commit y with Some (CPages _ _ r) => r | _ => [] end.
Definition epage (c : kconf) (y : kstate) (idx : N) : list N :=
  default (page_at c (ks_dev y) idx) ((list_to_map (ready_of y) : gmap N (list N)) !! idx).
Definition dpg (c : kconf) (y : kstate) (k : okey) : option odata :=
  idx ← kc_index c k; page_find (decode (page_at c (ks_dev y) idx)) k.
Definition eff (c : kconf) (y : kstate) (k : okey) : option odata :=
  idx ← kc_index c k; page_find (decode (epage c y idx)) k.

Lemma epage_nil c y idx : ready_of y = [] -> epage c y idx = page_at c (ks_dev y) idx.
Proof. unfold epage. intros ->. reflexivity. Qed.
Lemma eff_nil c y k : ready_of y = [] -> eff c y k = dpg c y k.
Proof. intros H. unfold eff, dpg. destruct (kc_index c k) as [idx|]; [|reflexivity]. cbn [mbind option_bind]. rewrite epage_nil by exact H. reflexivity. Qed.

(** The entry the running commit still has to put into the page of [k]. *)
Definition elook (ents : list (okey * option odata)) (k : okey) : option (option odata) := (list_to_map ents : kmap) !! k.
Definition pcom (c : kconf) (y : kstate) (k : okey) : option (option odata) :=
  match ks_commit y with
  | Some CStart => m ← ks_com y; m !! k
  | Some (CHeap _ ents) => elook ents k
  | Some (CPages ents todo _) => idx ← kc_index c k; if bool_decide (idx ∈ todo) then elook ents k else None
  | _ => None
  end.
(** An entry and what the commit stores for it. *)
Definition mv (e e' : option odata) : Prop :=
  match e with
  | Some (DInline i) => if tuple_inline_threshold <? N.of_nat (length i) then exists off, e' = Some (DHeap (N.of_nat (length i)) off) else e' = e
  | _ => e' = e
  end.
Definition ents_ok (m : kmap) (ents : list (okey * option odata)) : Prop :=
  NoDup (fst <$> ents) /\ forall k, (m !! k = None <-> elook ents k = None) /\ forall e e', m !! k = Some e -> elook ents k = Some e' -> mv e e'.
(** Values still to be written to the heap. *)
Definition hw_of (y : kstate) : list (N * list N) := match ks_commit y with Some (CHeap hw _) => hw | _ => [] end.

(** ** Ownership of heap space. *)
Definition ext_of (d : option odata) : option extent := match d with Some (DHeap s o) => Some (o, s) | _ => None end.
Inductive owner := OKey (k : okey) | OCom (k : okey) | OLog (n : nat) | OWr (i : nat).
Definition ow (c : kconf) (y : kstate) (t : owner) : option extent :=
  match t with
  | OKey k => ext_of (eff c y k)
  | OCom k => pcom c y k ≫= ext_of
  | OLog n => if (l_ncommit (ks_log y) <=? n)%nat then t ← l_hist (ks_log y) !! n; ext_of (task_entry t) else None
  | OWr i => w ← ks_writes y !! i; Some (kw_off w, N.of_nat (length (kw_val w)))
  end.
(** [NL]: nothing has been lost so far, so that every live extent has an owner. *)
Definition owned {NL : Prop} (o : owner -> option extent) (live : list extent) : Prop :=
  (forall t e, o t = Some e -> e ∈ live) /\ (forall t t' e, o t = Some e -> o t' = Some e -> t = t') /\
  (NL -> forall e, e ∈ live -> exists t, o t = Some e).
Lemma own_inj {NL : Prop} o live : owned (NL:=NL) o live -> forall t t' e, o t = Some e -> o t' = Some e -> t = t'.
Proof. intros H. apply H. Qed.
Lemma own_cov {NL : Prop} o live : owned (NL:=NL) o live -> NL -> forall e, e ∈ live -> exists t, o t = Some e.
Proof. intros H. apply H. Qed.
(** Extents an index page may come to hold for [k] without further allocation. *)
Definition pth (c : kconf) (y : kstate) (k : okey) (e : extent) : Prop :=
  ext_of (dpg c y k) = Some e \/ ext_of (eff c y k) = Some e \/ pcom c y k ≫= ext_of = Some e.

Notation KIc c := (KI (kc_base c) (kc_heap c) (kc_spage c) (kc_lpage c)).
Notation placed c := (well_placed_extent (kc_base c) (kc_heap c) (kc_spage c) (kc_lpage c)).

(** ** The invariant. *)
Definition hist (y : kstate) : list ltask := l_hist (ks_log y).
Definition upto (c : kconf) (y : kstate) (n : nat) : list (okey * option (list N)) := take n (okeyed c (ks_vals y)).

Definition stage_ok (c : kconf) (y : kstate) : Prop :=
  let log := ks_log y in
  match ks_commit y with
  | None => ks_com y = None /\ l_commit log = None
  | Some CHeaded => l_commit log = None /\ exists m h0, ks_com y = Some m /\ (h0 <= l_ncommit log)%nat /\
      m = mapfold (slice (hist y) h0 (l_ncommit log)) /\ forall k e, m !! k = Some e -> mv e (eff c y k)
  | Some st => (exists t, l_commit log = Some t) /\ exists m, ks_com y = Some m /\
      m = mapfold (slice (hist y) (l_nhead log) (l_ncommit log)) /\
      match st with
      | CHeap hw ents => ents_ok m ents /\
          forall off buf, (off, buf) ∈ hw -> exists k i junk, m !! k = Some (Some (DInline i)) /\ buf = i ++ junk /\
            elook ents k = Some (Some (DHeap (N.of_nat (length i)) off)) /\ N.of_nat (length buf) = ceil_pow2 (N.of_nat (length i)) (kc_spage c)
      | CPages ents todo ready => ents_ok m ents /\ NoDup (fst <$> ready) /\ Forall (fun i => i < kc_pages c) todo /\
          (forall k e idx, elook ents k = Some e -> kc_index c k = Some idx -> idx ∉ todo -> eff c y k = e) /\
          (forall idx page, (idx, page) ∈ ready -> idx < kc_pages c /\ idx ∉ todo /\ page_ok c idx page /\ N.of_nat (length page) = kc_psize c /\
             forall k, m !! k = None -> page_find (decode page) k = page_find (decode (page_at c (ks_dev y) idx)) k)
      | _ => True
      end
  end.

(** The entry that will be, or has been, stored for a key of the running commit. *)
Definition cur (c : kconf) (y : kstate) (k : okey) : option odata :=
  match pcom c y k with Some e => e | None => eff c y k end.

(** No operation on [k] between [n] and [b]. *)
Definition last_op (y : kstate) (n b : nat) (k : okey) : Prop := forall j t, (n < j < b)%nat -> hist y !! j = Some t -> task_key t <> k.

Record BI (c : kconf) (y : kstate) : Prop := {
  b_log : exists q, linv (kc_log c) (ks_log y) q;
  b_tv : Forall2 (tv c) (hist y) (ks_vals y);
  b_apply : (l_ncommit (ks_log y) <= applied y)%nat;
  b_unc : ks_unc y = mapfold (slice (hist y) (l_ncommit (ks_log y)) (applied y));
  b_stage : stage_ok c y;
  b_pages : forall idx, idx < kc_pages c -> page_ok c idx (page_at c (ks_dev y) idx);
  (* values: of operations not yet taken by a commit, and of other keys *)
  b_vlog : forall n k s o raw v, (l_ncommit (ks_log y) <= n)%nat -> hist y !! n = Some (TUpsert k (DHeap s o)) ->
    last_op y n (applied y) k -> ks_vals y !! n = Some (raw, Some v) -> denotes (ks_dev y) (DHeap s o) v;
  b_vpage : forall k, ks_unc y !! k = None -> (forall m, ks_com y = Some m -> m !! k = None) ->
    shows (ks_dev y) (eff c y k) (latest (upto c y (applied y)) k)
}.
(** What reads need: also the values of the running commit. *)
Definition vcom_read (c : kconf) (y : kstate) : Prop :=
  forall m k s o, ks_com y = Some m -> m !! k = Some (Some (DHeap s o)) ->
    exists v, latest (upto c y (l_ncommit (ks_log y))) k = Some v /\ denotes (ks_dev y) (DHeap s o) v.
Definition RI (c : kconf) (y : kstate) : Prop := BI c y /\ vcom_read c y.

Definition kw_ok (c : kconf) (d : device) (w : kwrite) : Prop :=
  good_key (kw_key w) /\ Forall is_byte (kw_val w) /\ 0 < N.of_nat (length (kw_val w)) <= 2 ^ 24 /\
  (exists junk, kw_buf w = kw_val w ++ junk) /\ N.of_nat (length (kw_buf w)) = ceil_pow2 (N.of_nat (length (kw_val w))) (kc_spage c) /\
  (kw_done w = true -> denotes d (DHeap (N.of_nat (length (kw_val w))) (kw_off w)) (kw_val w)).
Record SI {NL : Prop} (c : kconf) (y : kstate) : Prop := {
  s_b : BI c y;
  s_vcom : forall m k e s o, ks_com y = Some m -> m !! k = Some e -> cur c y k = Some (DHeap s o) ->
    (forall buf, (o, buf) ∉ hw_of y) ->
    exists v, latest (upto c y (l_ncommit (ks_log y))) k = Some v /\ denotes (ks_dev y) (DHeap s o) v;
  s_own : exists live total, KIc c (ks_alloc y) live total /\ owned (NL:=NL) (ow c y) live;
  s_placed : forall k e, pth c y k e -> placed c e;
  s_disj : forall k k' e e', k <> k' -> pth c y k e -> pth c y k' e' -> extents_disjoint (kc_spage c) e e';
  s_writes : Forall (kw_ok c (ks_dev y)) (ks_writes y)
}.

(** ** Consequences. *)
Lemma good_spage c : good_kconf c -> 1 <= kc_spage c <= kc_lpage c /\ kc_lpage c <= 63 /\ 9 <= kc_spage c.
Proof. intros [(_ & _ & _ & _ & H) [H1 H2] _ _ _ _]. unfold kc_spage in *. lia. Qed.
Lemma good_pages c : good_kconf c -> 0 < kc_pages c /\ kc_pages c * kc_psize c = kc_base c.
Proof.
  intros H. pose proof (good_spage c H) as (Hs & _ & _). destruct H as [_ _ [Hb Hm] _ _ _]. unfold kc_pages, kc_psize in *.
  assert (kc_base c mod 2 ^ kc_spage c = 0) as Hm'.
  { apply (BuddyInv.mod_pow2_le _ (kc_spage c) (kc_lpage c)); [lia|exact Hm]. }
  pose proof (N.div_mod (kc_base c) (2 ^ kc_spage c) (pow2_nz _)) as E. rewrite Hm', N.add_0_r in E.
  split; [|rewrite N.mul_comm; symmetry; exact E].
  destruct (N.eq_dec (kc_base c / 2 ^ kc_spage c) 0) as [E0|]; [rewrite E0, N.mul_0_r in E; lia|lia].
Qed.
Lemma index_some c raw : good_kconf c -> exists idx, kc_index c (kc_key c raw) = Some idx /\ idx < kc_pages c.
Proof.
  intros H. pose proof (good_pages c H) as [Hp _]. destruct H as [_ _ _ _ _ Hb]. destruct (Hb raw) as [Hl _].
  unfold kc_index, kc_key. assert (key_hash (kc_blake c) (key_from_raw (kc_blake c) raw) = kc_blake c raw) as ->.
  { unfold key_from_raw. destruct (_ <=? _); reflexivity. }
  unfold bundle_index, buf_read. rewrite Hl. destruct (N.eqb_spec (kc_pages c) 0) as [E|Hne]; [lia|].
  eexists. split; [reflexivity|]. apply N.mod_lt. exact Hne.
Qed.
Lemma index_bound c k idx : good_kconf c -> kc_index c k = Some idx -> idx < kc_pages c.
Proof.
  intros H. pose proof (good_pages c H) as [Hp _]. unfold kc_index, bundle_index. destruct (buf_read _ _ _); [|discriminate]. cbn [mbind option_bind].
  destruct (N.eqb_spec (kc_pages c) 0) as [E|Hne]; [discriminate|]. intros [= <-]. apply N.mod_lt. exact Hne.
Qed.

Section hist.
Context (c : kconf) (y : kstate).
Hypothesis Htv : Forall2 (tv c) (hist y) (ks_vals y).
Lemma hist_vals n t : hist y !! n = Some t -> exists raw v, ks_vals y !! n = Some (raw, v) /\ tv c t (raw, v) /\
  okeyed c (ks_vals y) !! n = Some (task_key t, v).
Proof using Htv.
  intros E. destruct (Forall2_lookup_l _ _ _ _ _ Htv E) as ([raw v] & Ev & H). exists raw, v. split; [exact Ev|]. split; [exact H|].
  unfold okeyed. rewrite list_lookup_fmap, Ev. cbn. destruct H as [-> _]. reflexivity.
Qed.
Lemma vals_hist n k v : okeyed c (ks_vals y) !! n = Some (k, v) -> exists t, hist y !! n = Some t /\ task_key t = k.
Proof using Htv.
  intros E. unfold okeyed in E. rewrite list_lookup_fmap in E. destruct (ks_vals y !! n) as [[raw w]|] eqn:Ev; [|discriminate E]. cbn in E. injection E as <- <-.
  destruct (Forall2_lookup_r _ _ _ _ _ Htv Ev) as (t & Et & H). exists t. split; [exact Et|]. apply H.
Qed.
(** A key found in the overlay of a piece of the log: its last operation. *)
Lemma mapfold_latest a b k e : (a <= b <= length (hist y))%nat -> mapfold (slice (hist y) a b) !! k = Some e ->
  exists n t raw v, (a <= n < b)%nat /\ hist y !! n = Some t /\ task_key t = k /\ task_entry t = e /\ ks_vals y !! n = Some (raw, v) /\ tv c t (raw, v) /\
    latest (upto c y b) k = v /\ last_op y n b k.
Proof using Htv.
  intros Hab H. apply mapfold_Some in H as (n & t & Hn & Hk & He & Hl). pose proof (lookup_lt_Some _ _ _ Hn) as Hlt. rewrite slice_length in Hlt by lia.
  assert (hist y !! (a + n)%nat = Some t) as Ht. { rewrite <- (slice_lookup _ a b) by lia. replace (a + n - a)%nat with n by lia. exact Hn. }
  assert (last_op y (a + n) b k) as Hlast.
  { intros j t' Hj Et' Hk'. eapply (Hl (j - a)%nat t'); [lia| |exact Hk']. rewrite slice_lookup by lia. exact Et'. }
  destruct (hist_vals _ _ Ht) as (raw & v & Ev & Htt & Eo). exists (a + n)%nat, t, raw, v. split; [lia|]. split; [exact Ht|]. split; [exact Hk|]. split; [exact He|]. split; [exact Ev|].
  split; [exact Htt|]. split; [|exact Hlast]. unfold upto. eapply latest_last; [rewrite <- Hk; exact Eo|lia|]. intros m w Hm Em. apply vals_hist in Em as (t' & Et' & Hk').
  eapply (Hlast m t'); [lia|exact Et'|exact Hk'].
Qed.
Lemma mapfold_untouched a b k : (a <= b <= length (hist y))%nat -> mapfold (slice (hist y) a b) !! k = None ->
  latest (upto c y b) k = latest (upto c y a) k.
Proof using Htv.
  intros Hab H. unfold upto. apply latest_untouched; [lia|]. intros n v Hn E. apply vals_hist in E as (t & Et & Hk).
  rewrite mapfold_None in H. apply (H (n - a)%nat t); [|exact Hk]. rewrite slice_lookup by lia. exact Et.
Qed.
End hist.

Lemma applied_le c y : BI c y -> (applied y <= length (hist y))%nat.
Proof. intros [[q H] _ _ _ _ _ _ _]. pose proof (i_ord _ _ _ H). unfold applied, hist. lia. Qed.
Lemma tv_shows c t raw v d : tv c t (raw, v) -> (forall k s o w, t = TUpsert k (DHeap s o) -> v = Some w -> denotes d (DHeap s o) w) -> shows d (task_entry t) v.
Proof.
  intros (_ & _ & H) Hh. destruct t as [k [i|s o]|k]; destruct v as [v|]; cbn [snd task_entry shows] in *; try contradiction; try exact I.
  - cbn. apply H.
  - eapply Hh; reflexivity.
Qed.

(** The map of the running commit. *)
Lemma com_map c y m : BI c y -> ks_com y = Some m -> exists h0, (h0 <= l_ncommit (ks_log y))%nat /\ m = mapfold (slice (hist y) h0 (l_ncommit (ks_log y))).
Proof.
  intros H Hm. pose proof (b_stage _ _ H) as Hs. unfold stage_ok in Hs. destruct (b_log _ _ H) as [q Hq]. pose proof (i_ord _ _ _ Hq) as (Ho & _ & _).
  destruct (ks_commit y) as [[|hw ents|ents todo ready|]|].
  1-3: destruct Hs as (_ & m' & E & -> & _); rewrite Hm in E; injection E as ->; exists (l_nhead (ks_log y)); split; [exact Ho|reflexivity].
  - destruct Hs as (_ & m' & h0 & E & Hh & -> & _). rewrite Hm in E. injection E as ->. exists h0. auto.
  - destruct Hs as [E _]. congruence.
Qed.

(** Reads, with nothing happening meanwhile. *)
Theorem read_tuple_latest c y raw : good_kconf c -> RI c y -> good_key raw ->
  exists t, kv_read_tuple c y y y raw = Some t /\ shows (ks_dev y) t (latest (upto c y (applied y)) (kc_key c raw)).
Proof.
  intros Hc [H Hvc] Hk. pose proof (applied_le c y H) as Hap. pose proof (b_apply _ _ H) as Hnc. pose proof (b_tv _ _ H) as Htv.
  unfold kv_read_tuple, kv_clone, kv_get, kv_map. cbn [fst snd]. rewrite Nat.eqb_refl. cbn [mbind option_bind]. set (k := kc_key c raw).
  destruct (ks_unc y !! k) as [e|] eqn:Eu.
  { exists e. split; [reflexivity|]. rewrite (b_unc _ _ H) in Eu.
    destruct (mapfold_latest c y Htv _ _ _ _ ltac:(split; [exact Hnc|exact Hap]) Eu) as (n & t & raw' & v & Hn & Et & Ek & Ee & Ev & Ht & El & Hlast).
    rewrite El, <- Ee. eapply tv_shows; [exact Ht|]. intros k' s o w -> ->. cbn in Ek. eapply (b_vlog _ _ H n); [lia|exact Et|subst k'; exact Hlast|exact Ev]. }
  pose proof Eu as Eu'. rewrite (b_unc _ _ H) in Eu'. pose proof (mapfold_untouched c y Htv _ _ _ ltac:(split; [exact Hnc|exact Hap]) Eu') as Elat.
  destruct (ks_com y) as [m|] eqn:Em; cbn [mbind option_bind].
  - destruct (m !! k) as [e|] eqn:Ec.
    + exists e. split; [reflexivity|]. rewrite Elat. destruct (com_map c y m H Em) as (h0 & Hh0 & Emm). subst m.
      destruct (mapfold_latest c y Htv _ _ _ _ ltac:(split; [exact Hh0|lia]) Ec) as (n & t & raw' & v & Hn & Et & Ek & Ee & Ev & Ht & El & Hlast).
      rewrite El, <- Ee. eapply tv_shows; [exact Ht|]. intros k' s o w -> ->. cbn in Ee. subst e.
      destruct (Hvc _ k s o Em Ec) as (v' & Ev' & Hd). rewrite El in Ev'. injection Ev' as ->. exact Hd.
    + destruct (index_some c raw Hc) as (idx & Ei & Hi). unfold kv_page. fold k in Ei |- *. rewrite Ei. cbn [mbind option_bind].
      destruct (po_read _ _ _ (b_pages _ _ H idx Hi)) as [l El]. rewrite El. cbn [mbind option_bind]. eexists. split; [reflexivity|].
      pose proof (b_vpage _ _ H k Eu) as Hv. rewrite Em in Hv. specialize (Hv ltac:(intros m' [= <-]; exact Ec)).
      assert (eff c y k = page_find l k) as Heff; [|rewrite Heff in Hv; exact Hv].
      unfold eff. rewrite Ei. cbn [mbind option_bind]. unfold epage.
      destruct ((list_to_map (ready_of y) : gmap N (list N)) !! idx) as [pg|] eqn:Er; cbn [from_option id].
      * apply elem_of_list_to_map_2 in Er. unfold ready_of in Er. pose proof (b_stage _ _ H) as Hs. unfold stage_ok in Hs.
        destruct (ks_commit y) as [[|hw ents|ents todo ready|]|]; try (inversion Er; fail).
        destruct Hs as (_ & m' & Em' & -> & _ & _ & _ & _ & Hr). rewrite Em in Em'. injection Em' as ->.
        destruct (Hr idx pg Er) as (_ & _ & _ & _ & Hf). rewrite (Hf k Ec). unfold decode. rewrite El. reflexivity.
      * unfold decode. rewrite El. reflexivity.
  - destruct (index_some c raw Hc) as (idx & Ei & Hi). unfold kv_page. fold k in Ei |- *. rewrite Ei. cbn [mbind option_bind].
    destruct (po_read _ _ _ (b_pages _ _ H idx Hi)) as [l El]. rewrite El. cbn [mbind option_bind]. eexists. split; [reflexivity|].
    pose proof (b_vpage _ _ H k Eu) as Hv. rewrite Em in Hv. specialize (Hv ltac:(intros m' Hx; discriminate Hx)).
    assert (eff c y k = page_find l k) as Heff; [|rewrite Heff in Hv; exact Hv].
    rewrite eff_nil.
    + unfold dpg. rewrite Ei. cbn [mbind option_bind]. unfold decode. rewrite El. reflexivity.
    + unfold ready_of. pose proof (b_stage _ _ H) as Hs. unfold stage_ok in Hs.
      destruct (ks_commit y) as [[|hw ents|ents todo ready|]|]; try reflexivity. destruct Hs as (_ & m' & Em' & _). congruence.
Qed.
