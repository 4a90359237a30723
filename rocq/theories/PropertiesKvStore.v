(** C34, C35, C36: the object store of libblobd-kv. *)
From Coq Require Import ZifyBool ZifyNat ZifyN.
From stdpp Require Import base numbers list_numbers option gmap sets fin_maps list.
From Verif Require Import Util Bytes PageIOModel PageIOProofs PageIOWrite BuddyModel KvAllocModel KvAllocSpec KvAllocProofs KvAllocInv
  KvCodecModel KvCodecSpec KvCodecProofs KvReadModel PropertiesKvRead KvLogModel KvLogSpec KvLogProofs KvLogSys KvLogInv KvStoreModel KvStoreSpec KvStoreInv KvStoreFrame KvStoreSteps KvStoreCommit KvStoreGroup KvStorePages KvStoreIndex KvStoreOpen KvStoreLin.
Open Scope N_scope.
Ltac Zify.zify_post_hook ::= idtac.

(** The outcome a read of a range must have if the key's value is [v] ([None]:
    it has none). *)
Definition right_answer (v : option (list N)) (start : N) (req_end : option N) (r : option (kv_err + (list N * N * N))) : Prop :=
  match v with
  | None => r = Some (inl KvNotFound)
  | Some v =>
      let size := N.of_nat (length v) in
      let fin := match req_end with Some e => e | None => size end in
      (start <= fin <= size -> exists out, r = Some (inr (out, fin, size)) /\ byte_range v start fin out) /\
      (~ (start <= fin <= size) -> r = Some (inl KvRange))
  end.

Lemma shows_answer spage d t v start req_end : shows d t v -> right_answer v start req_end (kv_read_range spage d t start req_end).
Proof.
  destruct t as [t|], v as [v|]; cbn [shows]; try contradiction; [|reflexivity]. intros Hd. apply (C38_range_read_returns_slice spage d t v start req_end Hd).
Qed.
Lemma acked_applied c y n : BI c y -> n ∈ l_acked (ks_log y) -> (n < applied y)%nat.
Proof. intros HB Hn. destruct (b_log _ _ HB) as [q Hq]. exact (proj1 (Forall_forall _ _) (i_acked _ _ _ Hq) n Hn). Qed.
Lemma upto_latest c y n raw : no_collision c (take n (ks_vals y)) raw -> latest (upto c y n) (kc_key c raw) = latest (take n (ks_vals y)) raw.
Proof. intros H. unfold upto. rewrite <- okeyed_take. apply latest_okeyed, H. Qed.

(** C34.  In every reachable state (any interleaving of writes, deletes, log
    flushes, acknowledgements, commit steps; crashes as in [kreach]) in which no
    index page overflowed, a read returns what the operations applied so far
    mean; every acknowledged operation is among them.  [ks_vals y] are the API
    operations in the order the log received them. *)
Theorem C34_read_returns_latest_partial c d logd y0 y raw start req_end :
  good_kconf c -> kv_format c d logd = Some y0 -> kreach c y0 y -> ks_lost y = [] -> good_key raw ->
  no_collision c (take (applied y) (ks_vals y)) raw ->
  right_answer (latest (take (applied y) (ks_vals y)) raw) start req_end (kv_read c y raw start req_end) /\
  forall n, n ∈ l_acked (ks_log y) -> (n < applied y)%nat.
Proof.
  intros Hc H0 Hr Hl Hk Hn. pose proof (kreach_si c d logd y0 y Hc H0 Hr Hl) as H. split; [|intros n; apply (acked_applied c y n (s_b _ _ H))].
  destruct (read_tuple_latest c y raw Hc (si_ri c y Hc H) Hk) as (t & E & Hs). unfold kv_read, kv_read_at. rewrite E. cbn [mbind option_bind].
  rewrite upto_latest in Hs by exact Hn. apply shows_answer, Hs.
Qed.

(** The same for a read whose four accesses (overlay, its maps, index page,
    bytes) happen at four moments with anything but a crash in between, if no
    operation on the key is applied meanwhile. *)
Theorem C34_concurrent_read_of_quiet_key_partial c d logd y0 y1 y2 y3 y4 raw start req_end :
  good_kconf c -> kv_format c d logd = Some y0 -> kreach c y0 y1 -> kpath c y1 y2 -> kpath c y2 y3 -> kpath c y3 y4 -> ks_lost y4 = [] ->
  good_key raw -> no_collision c (ks_vals y4) raw ->
  (forall n k v, (applied y1 <= n < applied y4)%nat -> ks_vals y4 !! n = Some (k, v) -> k <> raw) ->
  right_answer (latest (take (applied y1) (ks_vals y1)) raw) start req_end (kv_read_at c y1 y2 y3 y4 raw start req_end).
Proof.
  intros Hc H0 Hr Hp12 Hp23 Hp34 Hl Hk Hn Hq. assert (kpath c y1 y4) as Hp14 by (eapply kpath_trans; [exact Hp12|]; eapply kpath_trans; eassumption).
  pose proof (kreach_si c d logd y0 y1 Hc H0 Hr (path_lost _ _ _ Hp14 Hl)) as H.
  destruct (read_quiet c y1 y2 y3 y4 raw Hc H Hk Hp12 Hp23 Hp34 Hl) as (t & E & Hs).
  - intros n v Hin Eo. unfold okeyed in Eo. rewrite list_lookup_fmap in Eo. destruct (ks_vals y4 !! n) as [[k v']|] eqn:Ev; [|discriminate Eo]. cbn in Eo. injection Eo as Ek ->.
    apply (Hq n k v Hin Ev). apply Hn; [|exact Ek]. apply elem_of_list_fmap. exists (k, v). split; [reflexivity|]. eapply elem_of_list_lookup_2; exact Ev.
  - unfold kv_read_at. rewrite E. cbn [mbind option_bind]. rewrite upto_latest in Hs; [apply shows_answer, Hs|].
    intros k Hin. apply Hn. destruct (path_vals c y1 y4 Hc H Hp14 Hl) as [os ->]. apply elem_of_list_fmap in Hin as (p & -> & Hp). apply elem_of_list_fmap. exists p. split; [reflexivity|].
    apply elem_of_app. left. rewrite <- (take_drop (applied y1) (ks_vals y1)). apply elem_of_app. left. exact Hp.
Qed.

(** Without that condition: what is found denoted, at some moment of the read,
    the value after the operations applied at an earlier moment of the read; so
    a read that does not go to the heap is linearizable. *)
Theorem C34_concurrent_lookup_linearizable_partial c d logd y0 y1 y2 y3 raw :
  good_kconf c -> kv_format c d logd = Some y0 -> kreach c y0 y1 -> kpath c y1 y2 -> kpath c y2 y3 -> ks_lost y3 = [] ->
  good_key raw -> no_collision c (ks_vals y3) raw ->
  exists t ya yb, kv_read_tuple c y1 y2 y3 raw = Some t /\ kpath c y1 ya /\ kpath c ya yb /\ kpath c yb y3 /\
    let v := latest (take (applied ya) (ks_vals ya)) raw in
    shows (ks_dev yb) t v /\
    ((forall s o, t <> Some (DHeap s o)) -> forall y4 start req_end, right_answer v start req_end (kv_read_at c y1 y2 y3 y4 raw start req_end)).
Proof.
  intros Hc H0 Hr Hp12 Hp23 Hl Hk Hn. assert (kpath c y1 y3) as Hp13 by (eapply kpath_trans; eassumption).
  pose proof (kreach_si c d logd y0 y1 Hc H0 Hr (path_lost _ _ _ Hp13 Hl)) as H.
  destruct (read_tuple_lin c y1 Hc H raw y2 y3 Hk Hp12 Hp23 Hl) as (t & ya & yb & E & (Hb1 & Hb2 & Hb3) & Hs). exists t, ya, yb. split; [exact E|]. split; [exact Hb1|]. split; [exact Hb2|]. split; [exact Hb3|].
  assert (kpath c ya y3) as Hpa3 by (eapply kpath_trans; eassumption). pose proof (path_si c y1 ya Hc H Hb1 (path_lost _ _ _ Hpa3 Hl)) as Ha.
  rewrite upto_latest in Hs.
  - split; [exact Hs|]. intros Hnh y4 start req_end. unfold kv_read_at. rewrite E. cbn [mbind option_bind]. apply shows_answer. eapply shows_dev; [exact Hnh|exact Hs].
  - intros k Hin. apply Hn. destruct (path_vals c ya y3 Hc Ha Hpa3 Hl) as [os ->]. apply elem_of_list_fmap in Hin as (p & -> & Hp). apply elem_of_list_fmap. exists p. split; [reflexivity|].
    apply elem_of_app. left. rewrite <- (take_drop (applied ya) (ks_vals ya)). apply elem_of_app. left. exact Hp.
Qed.

(** When an index page overflows: exactly if its entries need more bytes than it
    has. *)
Theorem C34_index_update_fails_iff_page_full c d logd y0 y idx order junk y' :
  good_kconf c -> kv_format c d logd = Some y0 -> kreach c y0 y -> ks_lost y = [] ->
  kstep c y (KPageUpdate idx order junk) = Some y' ->
  (ks_lost y' <> [] <-> kc_psize c < N.of_nat (pairs_size order)).
Proof.
  intros Hc H0 Hr Hl E. pose proof (kreach_si c d logd y0 y Hc H0 Hr Hl) as H. cbn [kstep] in E.
  destruct (ks_commit y) as [[| |ents todo ready|]|] eqn:Ec; try discriminate E. case_bool_decide as Hin; [|discriminate E]. cbn [negb] in E.
  destruct (page_task c (ks_dev y) (ks_alloc y) idx ents order junk) as [[a r]|] eqn:Ep; [|discriminate E]. cbn [mbind option_bind] in E.
  rewrite <- (page_task_panics c y Hc H ents todo ready idx order junk a r Ec Hin Ep). destruct r as [page|]; injection E as <-; cbn [ks_go ks_lost]; rewrite Hl; split; try discriminate; try tauto.
Qed.

(** C35.  Power loss in any reachable state: opening succeeds, the operations
    before the persisted tail are all there, every acknowledged one is among
    them, and every key reads as they say. *)
Theorem C35_crash_keeps_acknowledged_partial c d logd y0 y :
  good_kconf c -> kv_format c d logd = Some y0 -> kreach c y0 y -> ks_lost y = [] -> l_maxflush (ks_log y) <= lc_bufsize (kc_log c) ->
  exists y' n, kstep c y KCrash = Some y' /\ ks_vals y' = take n (ks_vals y) /\ (applied y <= n)%nat /\ applied y' = n /\
    (forall j, j ∈ l_acked (ks_log y) -> (j < n)%nat) /\
    forall raw start req_end, good_key raw -> no_collision c (take n (ks_vals y)) raw ->
      right_answer (latest (take n (ks_vals y)) raw) start req_end (kv_read c y' raw start req_end).
Proof.
  intros Hc H0 Hr Hl Hm. pose proof (kreach_si c d logd y0 y Hc H0 Hr Hl) as H. destruct (crash_spec c y Hc H Hm) as (y' & E & HR & Ea & Ev & _ & _ & _).
  exists y', (l_ntail (ks_log y)). split; [exact E|]. split; [exact Ev|]. split; [unfold applied; lia|]. split; [exact Ea|]. split.
  - intros j Hj. pose proof (acked_applied c y j (s_b _ _ H) Hj). unfold applied in *. lia.
  - intros raw start req_end Hk Hn. destruct (read_tuple_latest c y' raw Hc HR Hk) as (t & Et & Hs). unfold kv_read, kv_read_at. rewrite Et. cbn [mbind option_bind].
    rewrite Ea, upto_latest, Ev, take_take, Nat.min_id in Hs; [apply shows_answer, Hs|]. rewrite Ev, take_take, Nat.min_id. exact Hn.
Qed.
(** Dying again before anything else has happened changes nothing. *)
Theorem C35_crash_while_opening c y y1 : kstep c y KCrash = Some y1 -> kstep c y1 KCrash = Some y1.
Proof.
  intros E. cbn [kstep] in *. destruct (log_load _ _ _) as [[[h t] ops]|] eqn:El; [|discriminate E]. cbn [mbind option_bind] in E.
  cbn [lstep] in E. unfold log_open in E. rewrite El in E. cbn [mbind option_bind] in E. unfold kv_open in E |- *.
  destruct (kv_alloc_new _ _ _ _) as [a| |] eqn:Ea; try discriminate E. destruct (index_entries c (ks_dev y)) as [l|] eqn:Ei; [|discriminate E]. cbn [mbind option_bind] in E.
  destruct (mark_entries a l) as [a'|] eqn:Em; [|discriminate E]. cbn [mbind option_bind] in E. injection E as <-. cbn [ks_log l_page l_dev ks_dev ks_vals ks_lost l_ntail l_hist l_acked l_nhead l_maxflush].
  rewrite El. cbn [mbind option_bind lstep]. unfold log_open. cbn [l_page l_dev l_acked l_hist l_nhead l_ntail l_maxflush]. rewrite El. cbn [mbind option_bind]. rewrite Ei. cbn [mbind option_bind]. rewrite Em. cbn [mbind option_bind].
  rewrite !take_take, !Nat.min_id. reflexivity.
Qed.

(** C36.  In every reachable state the heap bytes of a readable value, of a value
    being written and of a value being moved to the heap are pairwise disjoint. *)
Definition readable (c : kconf) (y : kstate) (k : okey) (e : extent) : Prop :=
  exists raw, good_key raw /\ kc_key c raw = k /\ kv_read_tuple c y y y raw = Some (Some (DHeap (snd e) (fst e))).

Lemma com_cur c y m k s o : good_kconf c -> SI (NL:=False) c y -> ks_com y = Some m -> m !! k = Some (Some (DHeap s o)) -> cur c y k = Some (DHeap s o).
Proof.
  intros Hc H Em Ek. pose proof (b_stage _ _ (s_b _ _ H)) as Hst. unfold stage_ok in Hst. unfold cur, pcom. destruct (ks_commit y) as [[|hw ents|ents todo ready|]|].
  - rewrite Em. cbn [mbind option_bind]. rewrite Ek. reflexivity.
  - destruct Hst as (_ & m' & Em' & _ & Hok & _). rewrite Em in Em'. injection Em' as <-. destruct (elook ents k) as [e'|] eqn:El; [|apply Hok in El; congruence].
    exact (proj2 (proj2 Hok k) _ _ Ek El).
  - destruct Hst as (_ & m' & Em' & _ & Hok & _ & _ & Hall & _). rewrite Em in Em'. injection Em' as <-. destruct (elook ents k) as [e'|] eqn:El; [|apply Hok in El; congruence].
    pose proof (proj2 (proj2 Hok k) _ _ Ek El) as Hmv. cbn in Hmv. subst e'. destruct (com_index c y Hc H m k _ Em Ek) as (idx & Ei & _). rewrite Ei. cbn [mbind option_bind].
    case_bool_decide as Hin; [reflexivity|]. apply (Hall k _ idx El Ei Hin).
  - destruct Hst as (_ & m' & h0 & Em' & _ & _ & Hall). rewrite Em in Em'. injection Em' as <-. exact (Hall k _ Ek).
  - destruct Hst as [E _]. congruence.
Qed.
Lemma readable_owner c y k e : good_kconf c -> SI (NL:=False) c y -> readable c y k e -> exists t, ow c y t = Some e /\
  match t with OLog n => exists t0, hist y !! n = Some t0 /\ task_key t0 = k | OCom k' => k' = k /\ exists m, ks_com y = Some m /\ m !! k = Some (Some (DHeap (snd e) (fst e))) | OKey k' => k' = k | OWr _ => False end.
Proof.
  intros Hc H (raw & _ & Ek & E). rewrite klook_read in E by (exact Hc || apply H). rewrite Ek in E. injection E as E. destruct e as [o s]. cbn [fst snd] in *. unfold klook, incom in E.
  destruct (ks_unc y !! k) as [e|] eqn:Eu.
  - subst e. rewrite (b_unc _ _ (s_b _ _ H)) in Eu. pose proof (lens c y H) as [_ Hn].
    destruct (mapfold_latest c y (b_tv _ _ (s_b _ _ H)) _ _ _ _ ltac:(exact Hn) Eu) as (n & t & raw' & v & Hr & Et & Etk & Ee & _). exists (OLog n). split; [|eauto].
    cbn [ow]. destruct (Nat.leb_spec (l_ncommit (ks_log y)) n) as [_|Hx]; [|lia]. unfold hist in Et. rewrite Et. cbn [mbind option_bind]. rewrite Ee. reflexivity.
  - destruct (ks_com y) as [m|] eqn:Em; cbn [mbind option_bind] in E.
    + destruct (m !! k) as [e|] eqn:Emk.
      * subst e. destruct (cur_owner c y k s o (com_cur c y m k s o Hc H Em Emk)) as (t & Et & [->|[-> _]]); [exists (OCom k)|exists (OKey k)]; (split; [exact Et|]); [split; [reflexivity|]; exists m; auto|reflexivity].
      * exists (OKey k). split; [|reflexivity]. cbn [ow]. rewrite (eff_dpg c y k (s_b _ _ H)) by (intros m' Em'; rewrite Em in Em'; injection Em' as <-; exact Emk). rewrite E. reflexivity.
    + exists (OKey k). split; [|reflexivity]. cbn [ow]. rewrite (eff_dpg c y k (s_b _ _ H)) by congruence. rewrite E. reflexivity.
Qed.

Theorem C36_values_own_their_space_partial c d logd y0 y :
  good_kconf c -> kv_format c d logd = Some y0 -> kreach c y0 y -> ks_lost y = [] ->
  let wext w := (kw_off w, N.of_nat (length (kw_val w))) in
  (forall k k' e e', k <> k' -> readable c y k e -> readable c y k' e' -> extents_disjoint (kc_spage c) e e') /\
  (forall k e w, readable c y k e -> w ∈ ks_writes y -> extents_disjoint (kc_spage c) e (wext w)) /\
  (forall i j w w', i <> j -> ks_writes y !! i = Some w -> ks_writes y !! j = Some w' -> extents_disjoint (kc_spage c) (wext w) (wext w')) /\
  (forall k e hw ents off buf, readable c y k e -> ks_commit y = Some (CHeap hw ents) -> (off, buf) ∈ hw ->
     forall x, extent_bytes (kc_spage c) e x -> ~ (off <= x < off + N.of_nat (length buf))) /\
  (forall k e x, readable c y k e -> extent_bytes (kc_spage c) e x -> kc_base c <= x < kc_base c + kc_heap c).
Proof.
  intros Hc H0 Hr Hl wext. pose proof (kreach_si c d logd y0 y Hc H0 Hr Hl) as H. destruct (s_own _ _ H) as (live & total & HK & Ho).
  assert (forall t t' e e', ow c y t = Some e -> ow c y t' = Some e' -> t <> t' -> extents_disjoint (kc_spage c) e e') as Hd.
  { intros t t' e e' E E' Hne. eapply (live_disj c Hc); [exact HK|eapply Ho; exact E|eapply Ho; exact E'|]. intros <-. apply Hne. eapply Ho; eassumption. }
  split; [|split; [|split; [|split]]].
  - intros k k' e e' Hne He He'. destruct (readable_owner c y k e Hc H He) as (t & Et & Ht). destruct (readable_owner c y k' e' Hc H He') as (t' & Et' & Ht').
    eapply Hd; [exact Et|exact Et'|]. intros <-. destruct t as [kk|kk|n|i]; [congruence|destruct Ht, Ht'; congruence| |contradiction].
    destruct Ht as (t0 & E1 & E2), Ht' as (t1 & E3 & E4). congruence.
  - intros k e w He Hw. destruct (readable_owner c y k e Hc H He) as (t & Et & Ht). apply elem_of_list_lookup in Hw as [i Hi]. eapply Hd; [exact Et|apply (wr_owner c y i w Hi)|]. intros ->. exact Ht.
  - intros i j w w' Hne Hi Hj. eapply Hd; [apply (wr_owner c y i w Hi)|apply (wr_owner c y j w' Hj)|congruence].
  - intros k e hw ents off buf He Ec Hin x Hx. destruct (readable_owner c y k e Hc H He) as (t & Et & Ht). pose proof (b_stage _ _ (s_b _ _ H)) as Hst. unfold stage_ok in Hst. rewrite Ec in Hst.
    destruct Hst as (_ & m & Em & _ & _ & Hhw). destruct (Hhw off buf Hin) as (k0 & i & junk & Em0 & _ & El0 & Hlen).
    assert (ow c y (OCom k0) = Some (off, N.of_nat (length i))) as E0 by (cbn [ow]; unfold pcom; rewrite Ec, El0; reflexivity).
    assert (t <> OCom k0) as Hne.
    { intros ->. destruct Ht as [-> (m' & Em' & Ek')]. rewrite Em in Em'. injection Em' as <-. congruence. }
    intros Hx'. apply (Hd _ _ _ _ Et E0 Hne x). split; [exact Hx|]. rewrite ext_bytes_ceil. rewrite <- Hlen. exact Hx'.
  - intros k e x He Hx. destruct (readable_owner c y k e Hc H He) as (t & Et & _). eapply (live_placed c Hc); [exact HK|eapply Ho; exact Et|exact Hx].
Qed.

(** ** Concrete runs.  Pages of 512 bytes, an index of eight pages of which a
    constant hash uses one, a heap of sixteen. *)
Definition kx_conf : kconf :=
  {| kc_log := {| lc_len := 16384; lc_spage := 9; lc_bufsize := 16384 |}; kc_base := 4096; kc_heap := 8192; kc_lpage := 12;
     kc_thr := 100; kc_commit := 1; kc_blake := fun _ => replicate 32 0 |}.
Definition kx_junk : list N := replicate 512 7.
(** One batch reaches the log and [n] operations are acknowledged. *)
Definition kx_flush (n : nat) : list kevent :=
  [KLog (EFlush kx_junk kx_junk); KLog (EFinish 0); KLog (EHand 0); KLog (EComplete kx_junk)] ++ replicate n KApply.
Definition kx_put (raw val : list N) : list kevent := KWriteInline raw val :: kx_flush 1.
Definition kx_heap (raw val : list N) : list kevent := [KWriteHeap raw val kx_junk; KWriteDone 0; KWriteSend 0] ++ kx_flush 1.
Definition kx_del (raw : list N) : list kevent := KDelete raw :: kx_flush 1.
(** A commit of the given overlay entries leading to the given page. *)
Definition kx_take (order : list (okey * option odata)) (junks : list (list N)) : list kevent :=
  [KCommitStart; KGroup order junks] ++ replicate (length junks) (KMoveDone 0) ++ [KPages].
Definition kx_page (page : list (okey * odata)) : list kevent := [KPageUpdate 0 page kx_junk; KPageWrite 0].
Definition kx_end : list kevent := [KHead kx_junk; KCommitDone].
Definition kx_a : list N := replicate 200 10.
Definition kx_b : list N := replicate 200 11.
Definition kx_run (es : list kevent) : option kstate := y0 ← kv_format kx_conf (fun _ => 0) (fun _ => 0); krun kx_conf y0 es.

Lemma kx_good : good_kconf kx_conf.
Proof.
  constructor; cbn; try (repeat split; try reflexivity; try lia; discriminate).
  intros _. split; [reflexivity|]. repeat constructor; unfold is_byte; lia.
Qed.
Lemma kx_elim es (P : kstate -> bool) : match kx_run es with Some y => P y | None => false end = true -> exists y0 y, kv_format kx_conf (fun _ => 0) (fun _ => 0) = Some y0 /\ krun kx_conf y0 es = Some y /\ P y = true.
Proof.
  unfold kx_run. destruct (kv_format _ _ _) as [y0|]; [|discriminate]. cbn [mbind option_bind]. destruct (krun kx_conf y0 es) as [y|] eqn:E; [|discriminate]. intros H. exists y0, y. auto.
Qed.
Ltac kx_valid := repeat constructor; cbn [valid_kevent valid_levent]; try reflexivity; try discriminate; try (split; [split; [discriminate|repeat constructor; unfold is_byte; lia]|repeat constructor; unfold is_byte; lia]); try (split; [discriminate|repeat constructor; unfold is_byte; lia]); try exact I.
(** Runs give reachable states. *)
Lemma krun_reach c y0 es y : Forall (fun e => valid_kevent c e /\ e <> KCrash) es -> forall z, kreach c z y0 -> krun c y0 es = Some y -> kreach c z y.
Proof.
  unfold krun. intros H. revert y0. induction H as [|e es [Hv Hn] _ IH]; intros y0 z Hz E; [cbn in E; injection E as <-; exact Hz|].
  cbn [foldl mbind option_bind] in E. destruct (kstep c y0 e) as [y1|] eqn:E1.
  - apply (IH y1 z); [|exact E]. eapply kr_step; [exact Hz|exact Hv|exact E1|contradiction].
  - exfalso. clear -E. induction es as [|e' es IH]; cbn in E; [discriminate E|]. apply IH, E.
Qed.
Lemma krun_path c y0 es y : Forall (fun e => valid_kevent c e /\ e <> KCrash) es -> forall z, kpath c z y0 -> krun c y0 es = Some y -> kpath c z y.
Proof.
  unfold krun. intros H. revert y0. induction H as [|e es [Hv Hn] _ IH]; intros y0 z Hz E; [cbn in E; injection E as <-; exact Hz|].
  cbn [foldl mbind option_bind] in E. destruct (kstep c y0 e) as [y1|] eqn:E1.
  - apply (IH y1 z); [|exact E]. eapply kp_step; [exact Hz|exact Hv|exact Hn|exact E1].
  - exfalso. clear -E. induction es as [|e' es IH]; cbn in E; [discriminate E|]. apply IH, E.
Qed.

#[global] Instance kv_err_eq_dec : EqDecision kv_err.
Proof. solve_decision. Defined.
(** Runs in which crashes may happen at any moment. *)
Definition kvalid (es : list kevent) : Prop := Forall (valid_kevent kx_conf) es.
Ltac kx_split H := repeat match type of H with _ && _ = true => let H' := fresh in apply andb_prop in H as [H H']; kx_split H' end.
Ltac kx_facts := repeat match goal with G : bool_decide _ = true |- _ => apply bool_decide_eq_true in G | G : (_ =? _)%nat = true |- _ => apply Nat.eqb_eq in G | G : (_ <=? _) = true |- _ => apply N.leb_le in G end.

(** A state that meets the hypotheses of C34 to C36: one value on the heap from
    the start, one moved there from the log, a small one, an overwritten and a
    deleted one, in the middle of the second commit with a further write half
    done. *)
Definition kx_events : list kevent :=
  kx_heap [1] kx_a ++ kx_put [2] (replicate 20 22) ++ kx_put [3] [33; 33] ++
  kx_take [(KLit [1], Some (DHeap 200 4096)); (KLit [2], Some (DInline (replicate 20 22))); (KLit [3], Some (DInline [33; 33]))] [kx_junk] ++
  kx_page [(KLit [1], DHeap 200 4096); (KLit [2], DHeap 20 4608); (KLit [3], DInline [33; 33])] ++ kx_end ++
  kx_put [3] [34] ++ kx_del [1] ++
  kx_take [(KLit [3], Some (DInline [34])); (KLit [1], None)] [] ++
  [KPageUpdate 0 [(KLit [2], DHeap 20 4608); (KLit [3], DInline [34])] kx_junk; KWriteHeap [4] kx_b kx_junk; KWriteTorn 0 (fun a => a)].
Theorem C34_C36_example : good_kconf kx_conf /\ exists y0 y, kv_format kx_conf (fun _ => 0) (fun _ => 0) = Some y0 /\ kreach kx_conf y0 y /\ ks_lost y = [] /\
  l_maxflush (ks_log y) <= lc_bufsize (kc_log kx_conf) /\ l_acked (ks_log y) = [0; 1; 2; 3; 4]%nat /\ applied y = 5%nat /\
  kv_read kx_conf y [1] 0 None = Some (inl KvNotFound) /\ kv_read kx_conf y [2] 5 (Some 8) = Some (inr ([22; 22; 22], 8, 20)) /\
  kv_read kx_conf y [3] 0 None = Some (inr ([34], 1, 1)) /\ (kw_off <$> ks_writes y) = [4096].
Proof.
  split; [exact kx_good|].
  destruct (kx_elim kx_events (fun y => bool_decide (ks_lost y = []) && (l_maxflush (ks_log y) <=? 16384) && bool_decide (l_acked (ks_log y) = [0; 1; 2; 3; 4]%nat) && (applied y =? 5)%nat &&
    bool_decide (kv_read kx_conf y [1] 0 None = Some (inl KvNotFound)) && bool_decide (kv_read kx_conf y [2] 5 (Some 8) = Some (inr ([22; 22; 22], 8, 20))) &&
    bool_decide (kv_read kx_conf y [3] 0 None = Some (inr ([34], 1, 1))) && bool_decide ((kw_off <$> ks_writes y) = [4096]))) as (y0 & y & E0 & E & H); [vm_compute; reflexivity|].
  exists y0, y. split; [exact E0|]. split; [eapply krun_reach; [|apply kr_init|exact E]; kx_valid|].
  kx_split H. kx_facts. auto 12.
Qed.

(** ** Where the code breaks the properties: concrete runs of valid steps. *)
Definition kx_longkey (i : nat) : list N := N.of_nat i :: replicate 29 1.
Definition kx_keys : list nat := seq 0 15.
Definition kx_full : list kevent :=
  concat ((fun i => kx_put (kx_longkey i) (replicate 7 5)) <$> kx_keys) ++
  kx_take ((fun i => (KLit (kx_longkey i), Some (DInline (replicate 7 5)))) <$> kx_keys) [] ++
  [KPageUpdate 0 ((fun i => (KLit (kx_longkey i), DInline (replicate 7 5))) <$> kx_keys) kx_junk] ++ kx_end.
(** An index page that overflows loses acknowledged writes: its update's panic is
    ignored (log_buffer.rs:502) and the log head moves past them.  Fifteen keys,
    each written once and acknowledged, none found once the commit is over. *)
Theorem C34_full_index_page_loses_writes_refuted :
  exists y0 y, kvalid kx_full /\ kv_format kx_conf (fun _ => 0) (fun _ => 0) = Some y0 /\ krun kx_conf y0 kx_full = Some y /\
    ks_vals y = ((fun i => (kx_longkey i, Some (replicate 7 5))) <$> kx_keys) /\ l_acked (ks_log y) = seq 0 15 /\
    Forall (fun i => kv_read kx_conf y (kx_longkey i) 0 None = Some (inl KvNotFound)) kx_keys.
Proof.
  destruct (kx_elim kx_full (fun y => bool_decide (ks_vals y = ((fun i => (kx_longkey i, Some (replicate 7 5))) <$> kx_keys)) && bool_decide (l_acked (ks_log y) = seq 0 15) &&
    bool_decide (Forall (fun i => kv_read kx_conf y (kx_longkey i) 0 None = Some (inl KvNotFound)) kx_keys))) as (y0 & y & E0 & E & H); [vm_compute; reflexivity|].
  exists y0, y. kx_split H. kx_facts. split; [unfold kvalid, kx_full, kx_keys; kx_valid|]. auto 10.
Qed.

Definition kx_empty : list kevent :=
  kx_put [1] [5] ++ kx_take [(KLit [1], Some (DInline [5]))] [] ++ kx_page [(KLit [1], DInline [5])] ++ kx_end ++
  kx_put [] [6] ++ kx_take [(KLit [], Some (DInline [6]))] [] ++ kx_page [(KLit [], DInline [6]); (KLit [1], DInline [5])] ++ kx_end.
(** The empty key (which [good_key] excludes; no check in write_object.rs) is
    written as the end mark of its index page: it and every entry after it are
    gone. *)
Theorem C34_empty_key_hides_others_refuted :
  exists y0 y, kv_format kx_conf (fun _ => 0) (fun _ => 0) = Some y0 /\ krun kx_conf y0 kx_empty = Some y /\
    ks_vals y = [([1], Some [5]); ([], Some [6])] /\ l_acked (ks_log y) = [0; 1]%nat /\ ks_lost y = [] /\
    kv_read kx_conf y [1] 0 None = Some (inl KvNotFound) /\ kv_read kx_conf y [] 0 None = Some (inl KvNotFound).
Proof.
  destruct (kx_elim kx_empty (fun y => bool_decide (ks_vals y = [([1], Some [5]); ([], Some [6])]) && bool_decide (l_acked (ks_log y) = [0; 1]%nat) && bool_decide (ks_lost y = []) &&
    bool_decide (kv_read kx_conf y [1] 0 None = Some (inl KvNotFound)) && bool_decide (kv_read kx_conf y [] 0 None = Some (inl KvNotFound)))) as (y0 & y & E0 & E & H); [vm_compute; reflexivity|].
  exists y0, y. kx_split H. kx_facts. auto 12.
Qed.

Definition kx_before : list kevent := kx_heap [1] kx_a ++ kx_take [(KLit [1], Some (DHeap 200 4096))] [] ++ kx_page [(KLit [1], DHeap 200 4096)] ++ kx_end.
Definition kx_during : list kevent := kx_del [1] ++ kx_take [(KLit [1], None)] [] ++ kx_page [] ++ kx_end ++ [KWriteHeap [2] kx_b kx_junk; KWriteDone 0].
(** A read that has found its entry while the value is deleted and its space used
    for another key's write (not even acknowledged) returns that key's bytes. *)
Theorem C34_read_of_released_space_refuted :
  exists y0 y1 y4, kv_format kx_conf (fun _ => 0) (fun _ => 0) = Some y0 /\ kreach kx_conf y0 y1 /\ kpath kx_conf y1 y4 /\ ks_lost y4 = [] /\
    ks_vals y4 = [([1], Some kx_a); ([1], None)] /\ (kw_key <$> ks_writes y4) = [[2]] /\
    kv_read_at kx_conf y1 y1 y1 y4 [1] 0 (Some 3) = Some (inr ([11; 11; 11], 3, 200)).
Proof.
  assert (match kx_run kx_before with Some y1 => match krun kx_conf y1 kx_during with Some y4 => bool_decide (ks_lost y4 = []) && bool_decide (ks_vals y4 = [([1], Some kx_a); ([1], None)]) && bool_decide ((kw_key <$> ks_writes y4) = [[2]]) &&
    bool_decide (kv_read_at kx_conf y1 y1 y1 y4 [1] 0 (Some 3) = Some (inr ([11; 11; 11], 3, 200))) | None => false end | None => false end = true) as H by (vm_compute; reflexivity).
  apply kx_elim in H as (y0 & y1 & E0 & E1 & H). destruct (krun kx_conf y1 kx_during) as [y4|] eqn:E4; [|discriminate H]. exists y0, y1, y4. kx_split H. kx_facts.
  split; [exact E0|]. split; [eapply krun_reach; [|apply kr_init|exact E1]; kx_valid|]. split; [eapply krun_path; [|apply kp_refl|exact E4]; kx_valid|]. auto 10.
Qed.

Definition kx_reopen : list kevent := kx_heap [1] kx_a ++ [KCrash] ++ kx_heap [2] kx_b.
(** Opening does not mark the heap space of values the log refers to
    (log_buffer.rs:233-254): the next large value is written over them. *)
Theorem C36_reopening_forgets_values_in_log_refuted :
  exists y0 y, kvalid kx_reopen /\ kv_format kx_conf (fun _ => 0) (fun _ => 0) = Some y0 /\ krun kx_conf y0 kx_reopen = Some y /\
    ks_vals y = [([1], Some kx_a); ([2], Some kx_b)] /\ l_acked (ks_log y) = [0; 1]%nat /\ ks_lost y = [] /\
    kv_read kx_conf y [1] 0 None = Some (inr (kx_b, 200, 200)) /\
    readable kx_conf y (KLit [1]) (4096, 200) /\ readable kx_conf y (KLit [2]) (4096, 200).
Proof.
  destruct (kx_elim kx_reopen (fun y => bool_decide (ks_vals y = [([1], Some kx_a); ([2], Some kx_b)]) && bool_decide (l_acked (ks_log y) = [0; 1]%nat) && bool_decide (ks_lost y = []) &&
    bool_decide (kv_read kx_conf y [1] 0 None = Some (inr (kx_b, 200, 200))) && bool_decide (kv_read_tuple kx_conf y y y [1] = Some (Some (DHeap 200 4096))) &&
    bool_decide (kv_read_tuple kx_conf y y y [2] = Some (Some (DHeap 200 4096))))) as (y0 & y & E0 & E & H); [vm_compute; reflexivity|].
  exists y0, y. kx_split H. kx_facts. split; [unfold kvalid, kx_reopen; kx_valid|].
  assert (forall b, b < 256 -> kv_read_tuple kx_conf y y y [b] = Some (Some (DHeap 200 4096)) -> readable kx_conf y (KLit [b]) (4096, 200)) as Hr.
  { intros b Hb Eb. exists [b]. split; [split; [discriminate|repeat constructor; exact Hb]|]. split; [reflexivity|exact Eb]. }
  assert (readable kx_conf y (KLit [1]) (4096, 200)) by (apply Hr; [lia|assumption]). assert (readable kx_conf y (KLit [2]) (4096, 200)) by (apply Hr; [lia|assumption]). auto 12.
Qed.

Definition kx_commit1 : list kevent := kx_take [(KLit [1], Some (DHeap 200 4096))] [] ++ kx_page [(KLit [1], DHeap 200 4096)].
Definition kx_replay : list kevent := kx_heap [1] kx_a ++ kx_commit1 ++ [KCrash] ++ kx_commit1 ++ kx_end ++ kx_heap [2] kx_b.
Definition kx_twice : list kevent :=
  kx_replay ++ kx_take [(KLit [2], Some (DHeap 200 4096))] [] ++ kx_page [(KLit [1], DHeap 200 4096); (KLit [2], DHeap 200 4096)] ++ kx_end.
(** A crash after the index page is written and before the log head: the commit
    is repeated after opening and releases the space the entry itself still uses
    (log_buffer.rs:464-471). *)
Theorem C35_repeated_commit_frees_live_value_refuted :
  exists y0 y, kvalid kx_replay /\ kv_format kx_conf (fun _ => 0) (fun _ => 0) = Some y0 /\ krun kx_conf y0 kx_replay = Some y /\
    ks_vals y = [([1], Some kx_a); ([2], Some kx_b)] /\ l_acked (ks_log y) = [0; 1]%nat /\ ks_lost y = [] /\
    kv_read kx_conf y [1] 0 (Some 3) = Some (inr ([11; 11; 11], 3, 200)).
Proof.
  destruct (kx_elim kx_replay (fun y => bool_decide (ks_vals y = [([1], Some kx_a); ([2], Some kx_b)]) && bool_decide (l_acked (ks_log y) = [0; 1]%nat) && bool_decide (ks_lost y = []) &&
    bool_decide (kv_read kx_conf y [1] 0 (Some 3) = Some (inr ([11; 11; 11], 3, 200))))) as (y0 & y & E0 & E & H); [vm_compute; reflexivity|].
  exists y0, y. kx_split H. kx_facts. split; [unfold kvalid, kx_replay, kx_commit1; kx_valid|]. auto 12.
Qed.
(** ... and once the second value is committed too, the store cannot be opened. *)
Theorem C35_store_cannot_be_opened_refuted :
  exists y0 y, kvalid kx_twice /\ kv_format kx_conf (fun _ => 0) (fun _ => 0) = Some y0 /\ krun kx_conf y0 kx_twice = Some y /\
    l_acked (ks_log y) = [0; 1]%nat /\ ks_lost y = [] /\ kstep kx_conf y KCrash = None.
Proof.
  destruct (kx_elim kx_twice (fun y => bool_decide (l_acked (ks_log y) = [0; 1]%nat) && bool_decide (ks_lost y = []) && match kstep kx_conf y KCrash with None => true | Some _ => false end)) as (y0 & y & E0 & E & H); [vm_compute; reflexivity|].
  exists y0, y. kx_split H. kx_facts. split; [unfold kvalid, kx_twice, kx_replay, kx_commit1; kx_valid|]. destruct (kstep kx_conf y KCrash); [discriminate|]. auto 12.
Qed.

Definition kx_leak : list kevent :=
  concat (replicate 16 (kx_heap [1] kx_a)) ++ kx_take [(KLit [1], Some (DHeap 200 11776))] [] ++ kx_page [(KLit [1], DHeap 200 11776)] ++ kx_end.
(** C47.  A large value overwritten before it is committed never gives its space
    back: sixteen writes of one key fill a heap of sixteen pages, and after the
    commit, with one page in use, the next large write still finds no space. *)
Theorem C47_overwritten_value_never_freed_refuted :
  exists y0 y, kvalid kx_leak /\ kv_format kx_conf (fun _ => 0) (fun _ => 0) = Some y0 /\ krun kx_conf y0 kx_leak = Some y /\
    l_acked (ks_log y) = seq 0 16 /\ ks_lost y = [] /\ ks_unc y = ∅ /\ ks_com y = None /\ ks_writes y = [] /\
    index_entries kx_conf (ks_dev y) = Some [(KLit [1], DHeap 200 11776)] /\ kv_allocate (ks_alloc y) 200 = OutOfSpace.
Proof.
  destruct (kx_elim kx_leak (fun y => bool_decide (l_acked (ks_log y) = seq 0 16) && bool_decide (ks_lost y = []) && bool_decide (ks_unc y = ∅) && bool_decide (ks_com y = None) && (match ks_writes y with [] => true | _ => false end) &&
    bool_decide (index_entries kx_conf (ks_dev y) = Some [(KLit [1], DHeap 200 11776)]) && match kv_allocate (ks_alloc y) 200 with OutOfSpace => true | _ => false end)) as (y0 & y & E0 & E & H); [vm_compute; reflexivity|].
  exists y0, y. kx_split H. kx_facts. split; [unfold kvalid, kx_leak; kx_valid|]. destruct (ks_writes y); [|discriminate]. destruct (kv_allocate (ks_alloc y) 200); try discriminate. auto 14.
Qed.

Print Assumptions C34_read_returns_latest_partial.
Print Assumptions C34_concurrent_read_of_quiet_key_partial.
Print Assumptions C34_concurrent_lookup_linearizable_partial.
Print Assumptions C34_index_update_fails_iff_page_full.
Print Assumptions C35_crash_keeps_acknowledged_partial.
Print Assumptions C35_crash_while_opening.
Print Assumptions C36_values_own_their_space_partial.
Print Assumptions C34_C36_example.
Print Assumptions C34_full_index_page_loses_writes_refuted.
Print Assumptions C34_empty_key_hides_others_refuted.
Print Assumptions C34_read_of_released_space_refuted.
Print Assumptions C36_reopening_forgets_values_in_log_refuted.
Print Assumptions C35_repeated_commit_frees_live_value_refuted.
Print Assumptions C35_store_cannot_be_opened_refuted.
Print Assumptions C47_overwritten_value_never_freed_refuted.
