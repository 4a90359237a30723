(** Property C51: partitions that lie on the same device. *)
From Coq Require Import ZifyBool ZifyNat ZifyN.
From stdpp Require Import base numbers option gmap sets functions list.
From Verif Require Import Util PageIOModel PageIOSpec PageIOProofs BuddyModel BuddySpec BuddyInv TuplesModel DirectModel DirectBase DirectSteps DirectInv DirectTup DirectAlloc DirectDev DirectSpec DirectSeqSpec DirectRel DirectSim DirectSys DirectSeq DirectRec DirectDrive.
From Verif Require Import ClusterModel ClusterSpec ClusterSim ClusterInv PropertiesCluster ShareModel.
Open Scope N_scope.
Ltac Zify.zify_post_hook ::= idtac.

(** ** Specification *)
(** The heap of every partition lies in its place, and places do not overlap. *)
Record placed (cc : ccfg) (pls : list place) : Prop := {
  pp_len : length pls = length (cc_parts cc);
  pp_fits : forall p c pl, cc_parts cc !! p = Some c -> pls !! p = Some pl -> dc_base c + dc_heap c <= pl_len pl;
  pp_apart : forall p q pl ql, pls !! p = Some pl -> pls !! q = Some ql -> p <> q -> pl_dev pl = pl_dev ql ->
    pl_off pl + pl_len pl <= pl_off ql \/ pl_off ql + pl_len ql <= pl_off pl;
}.
(** Freshly formatted; the files have any contents. *)
Record fresh_shared (cc : ccfg) (pls : list place) (g : gsys) : Prop := {
  gf_fresh : fresh_cluster cc (g_k g);
  gf_sees : forall p pl y, pls !! p = Some pl -> k_parts (g_k g) !! p = Some y -> sees pl (g_phys g) (h_dev (y_sh y));
}.

(** ** Bytes outside the heap do not matter *)
Definition same_heap (c : dcfg) (d d' : device) : Prop := forall x, in_heap (dc_base c) (dc_heap c) x -> d' x = d x.
Lemma held_heap c h ps lk pg x : AInv c h ps lk -> pg ∈ held c h ps -> in_page pg x -> in_heap (dc_base c) (dc_heap c) x.
Proof.
  intros [[f HI] _ _] Hp Hx. eapply live_well_placed in HI as (_ & _ & H); [|apply elem_of_app; left; exact Hp]. apply H, Hx.
Qed.
Lemma owned_bytes c h ps lk d' r ob i : AInv c h ps lk -> same_heap c (h_dev h) d' -> r ∈ owners h ps -> h_objs h !! r = Some ob ->
  byte_at d' (dpages c (b_meta ob)) i = byte_at (h_dev h) (dpages c (b_meta ob)) i.
Proof.
  intros HA Hd Hr E. unfold byte_at. destruct (locate _ i) as [x|] eqn:El; [|reflexivity]. cbn [from_option]. apply Hd.
  apply locate_Some in El as (k & a & p & Hk & Hi & ->). eapply (held_heap _ _ _ _ (a, p)); [exact HA| |].
  - apply elem_of_app. left. apply elem_of_list_bind. exists r. split; [|exact Hr]. eapply opages_in; [exact E|]. eapply elem_of_list_lookup_2, Hk.
  - unfold in_page. cbn [fst snd]. clear -Hi. lia.
Qed.
Lemma rel_heap c h S qs lk d' : SInv h qs.*1 -> AInv c h qs.*1 lk -> same_heap c (h_dev h) d' -> Rel c h S qs -> Rel c (set_dev h d') S qs.
Proof.
  intros HS HA Hd [R1 R2 R3 R4 R5 R6 R7].
  assert (Hup : forall tok r ob i, uref h qs.*1 tok r -> h_objs h !! r = Some ob ->
    byte_at d' (dpages c (b_meta ob)) i = byte_at (h_dev h) (dpages c (b_meta ob)) i).
  { intros tok r ob i Hu E. destruct (uref_obj _ _ _ _ HS Hu) as (_ & _ & _ & Hown). eapply owned_bytes; eassumption. }
  assert (Hle : objs_le h (set_dev h d')) by (apply objs_le_refl; reflexivity).
  constructor; auto.
  - intros tok r Hr. destruct (R2 tok r Hr) as (u & Hu & ob & E & A1 & A2 & A3 & A4 & A5). exists u. split; [exact Hu|].
    exists ob. split; [exact E|]. repeat (split; [assumption|]). intros off. destruct (A5 off) as (B1 & B2 & B3).
    split; [exact B1|]. split; [exact B2|]. intros l Hl. destruct (B3 l Hl) as (C1 & C2 & C3). split; [exact C1|]. split; [exact C2|].
    intros i b Hib. rewrite <- (C3 i b Hib). eapply Hup; eassumption.
  - intros key. specialize (R4 key). cbn [h_com set_dev]. destruct (h_com h !! key) as [r|] eqn:Ek, (ss_com S !! key) as [co|]; cbn [com_rel] in *; auto.
    destruct R4 as (ob & E & A1 & A2 & A3 & A4). exists ob. split; [exact E|]. repeat (split; [assumption|]).
    intros i Hi. rewrite <- A4 by exact Hi. eapply owned_bytes; [exact HA|exact Hd| |exact E].
    unfold owners. rewrite !elem_of_app. right. left. apply elem_of_vals. eauto.
  - intros q t Hq. eapply pc_rel_mono; [exact Hle| |apply R6; exact Hq]. intros r off w tok len2 st Hwo -> Hcl. split; [exact Hcl|].
    intros ob E Hid i Hi. destruct Hcl as (u & Hu & Hcu).
    destruct (R1 tok u Hu) as [r' Hr']. destruct (R2 tok r' Hr') as (u' & Hu' & ob' & E' & Hid' & _).
    assert (r' = r) as -> by (eapply id_unique; [exact HS|exact E'|exact E|congruence]). eapply Hup; eassumption.
Qed.
Lemma good_heap c y z lk zz d' : Good c y z lk zz -> same_heap c (h_dev (y_sh y)) d' ->
  Good c {| y_sh := set_dev (y_sh y) d'; y_procs := y_procs y |} z lk zz.
Proof.
  intros [(qs & sp & Hp1 & Hp2 & HS & HT & HA & HR)] Hd. constructor. exists qs, sp. cbn [y_sh y_procs].
  split; [exact Hp1|]. split; [exact Hp2|]. split; [destruct HS; constructor; assumption|]. split; [destruct HT; constructor; assumption|]. split; [now apply A_dev|].
  rewrite Hp1 in HS, HA. eapply rel_heap; eassumption.
Qed.
(** A step changes bytes of the heap only. *)
Lemma good_writes c y z lk zz l y' x : cfg_ok c -> Good c y z lk zz -> dstep c y l y' ->
  h_dev (y_sh y') x <> h_dev (y_sh y) x -> in_heap (dc_base c) (dc_heap c) x.
Proof.
  intros Hc [(qs & sp & Hp1 & Hp2 & HS & HT & HA & HR)] St Hx.
  assert (Hfly : forall i p addr len, y_procs y !! i = Some p -> in_flight c p = Some (addr, len) -> addr <= x < addr + len -> in_heap (dc_base c) (dc_heap c) x).
  { intros i p addr len Hi Hif Hax. pose proof (elem_of_list_lookup_2 _ _ _ Hi) as Hin.
    assert (Hfl : flight_ok c (y_sh y) p).
    { rewrite Hp1 in Hin. apply elem_of_list_fmap in Hin as ([p' s] & -> & Hin). eapply rel_flight, (rl_pcs _ _ _ _ HR), Hin. }
    destruct (flight_page c (y_sh y) (y_procs y) lk p addr len Hc HS HA Hin Hfl Hif) as (pg & Hpg & Hwhere).
    eapply (held_heap _ _ _ _ pg); [exact HA| |apply Hpg, Hax]. unfold held. apply elem_of_app. destruct Hwhere as [H|(r & ob & off & w & buf & st & _ & E & Ho & H)].
    - right. apply elem_of_list_bind. eauto.
    - left. apply elem_of_list_bind. exists r. split; [|exact Ho]. eapply opages_in; eassumption. }
  destruct St as [y op|y i p o h' p' v Hi Ho1 Ho2 Ho3 Hs|y i p addr len v Hi Hif|y t' Ht]; cbn [y_sh] in Hx; try congruence.
  - pose proof Hi as Hi'. rewrite Hp1, list_lookup_fmap in Hi'. destruct (qs !! i) as [[p0 s]|] eqn:Eq; [|discriminate]. injection Hi' as ->.
    pose proof (delete_Permutation qs i _ Eq) as Hpm.
    assert (Hpm1 : y_procs y ≡ₚ p :: (delete i qs).*1) by (rewrite Hp1; exact (fmap_Permutation fst _ _ Hpm)).
    pose proof (AInv_perm _ _ _ _ _ Hpm1 HA) as HA'. pose proof (Rel_perm _ _ _ _ _ Hpm HR) as HR'.
    apply pstep_R in Hs. destruct (step_dev _ _ _ _ _ _ _ _ _ _ _ HA' HR' Hs) as [Hd|(addr & len & Hif & Hd)]; [congruence|].
    eapply Hfly; [exact Hi|exact Hif|]. now apply Hd.
  - cbn [set_dev h_dev] in Hx. destruct (addr <=? x) eqn:E1, (x <? addr + len) eqn:E2; cbn in Hx; try congruence.
    apply N.leb_le in E1. apply N.ltb_lt in E2. eapply Hfly; [exact Hi|exact Hif|auto].
  - now contradiction Hx.
Qed.

(** ** The store *)
Record GInv (cc : ccfg) (pls : list place) (g : gsys) (zs : list ssys) (z : ssys) : Prop := {
  gi_c : CInv cc (g_k g) zs z;
  gi_sees : forall p pl y, pls !! p = Some pl -> k_parts (g_k g) !! p = Some y -> sees pl (g_phys g) (h_dev (y_sh y));
}.
Lemma stores_other pl ql phys d a : (pl_dev pl = pl_dev ql -> pl_off pl + pl_len pl <= pl_off ql \/ pl_off ql + pl_len ql <= pl_off pl) ->
  a < pl_len ql -> stores pl phys d (pl_dev ql) (pl_off ql + a) = phys (pl_dev ql) (pl_off ql + a).
Proof.
  intros Hap Ha. unfold stores. destruct (Nat.eqb_spec (pl_dev ql) (pl_dev pl)) as [E|E]; [|reflexivity].
  specialize (Hap (eq_sym E)). destruct (N.leb_spec (pl_off pl) (pl_off ql + a)); [|reflexivity].
  destruct (N.ltb_spec (pl_off ql + a) (pl_off pl + pl_len pl)); [|reflexivity]. exfalso. clear -Hap Ha H H0. lia.
Qed.
Lemma stores_own pl phys d : sees pl (stores pl phys d) d.
Proof.
  intros a Ha. unfold stores. rewrite Nat.eqb_refl.
  destruct (N.leb_spec (pl_off pl) (pl_off pl + a)); [|exfalso; clear -H; lia].
  destruct (N.ltb_spec (pl_off pl + a) (pl_off pl + pl_len pl)); [|exfalso; clear -H0 Ha; lia]. cbn. f_equal. clear. lia.
Qed.
Lemma sees_heap cc pls p c pl phys d d' : placed cc pls -> cc_parts cc !! p = Some c -> pls !! p = Some pl ->
  sees pl phys d -> sees pl phys d' -> same_heap c d d'.
Proof.
  intros Hpl Hc Hp H1 H2 x Hx. pose proof (pp_fits _ _ Hpl _ _ _ Hc Hp) as Hf. unfold in_heap in Hx.
  assert (x < pl_len pl) by (clear -Hx Hf; lia). now rewrite H1, H2.
Qed.
Lemma CInv_dev cc k zs z p y c d : CInv cc k zs z -> k_parts k !! p = Some y -> cc_parts cc !! p = Some c ->
  same_heap c (h_dev (y_sh y)) d ->
  CInv cc {| k_parts := <[p := {| y_sh := set_dev (y_sh y) d; y_procs := y_procs y |}]> (k_parts k); k_calls := k_calls k; k_seen := k_seen k |} zs z.
Proof.
  intros [Hl Hg He HM Hsn] Hy Hc Hd. pose proof (lookup_lt_Some _ _ _ Hy) as Hlt.
  assert (Hown : forall q id, owns {| k_parts := <[p := {| y_sh := set_dev (y_sh y) d; y_procs := y_procs y |}]> (k_parts k); k_calls := k_calls k; k_seen := k_seen k |} q id <-> owns k q id).
  { intros q id. unfold owns. cbn [k_parts]. destruct (decide (q = p)) as [->|Hne].
    - rewrite list_lookup_insert by exact Hlt. split.
      + intros (x & E & Hin). injection E as <-. exists y. auto.
      + intros (x & E & Hin). assert (x = y) as -> by congruence. eexists. split; [reflexivity|exact Hin].
    - rewrite list_lookup_insert_ne by congruence. reflexivity. }
  constructor; cbn [k_parts k_calls k_seen].
  - now rewrite insert_length.
  - intros q c' yq zq Hc' Hyq Hzq. destruct (decide (q = p)) as [->|Hne].
    + rewrite list_lookup_insert in Hyq by exact Hlt. injection Hyq as <-. assert (c' = c) as -> by congruence.
      destruct (Hg _ _ _ _ Hc Hy Hzq) as (lk & zz & HG). exists lk, zz. now apply good_heap.
    + rewrite list_lookup_insert_ne in Hyq by congruence. eauto.
  - intros q q' id. rewrite !Hown. apply He.
  - eapply MZ_own; [exact HM|intros q id; now rewrite Hown|intros q zq s tok q' _ _ _; now rewrite Hown].
  - exact Hsn.
Qed.
Lemma gstep_inv cc pls lpage g l g' zs z : cluster_ok cc lpage -> placed cc pls -> (forall i op, l = LCall i op -> valid_op lpage op) ->
  GInv cc pls g zs z -> gstep cc pls g l g' ->
  exists ls zs' z', spec_steps lpage z ls z' /\ visible ls = visible [l] /\ GInv cc pls g' zs' z'.
Proof.
  intros Hok Hpl Hv [HC Hse] St. destruct St as [g i op k' Hc|g p pl y c d l y' l' Hy Hc Hp Hd Hs Hfr Hl].
  - destruct (cstep_inv cc lpage _ _ _ _ _ Hok Hv HC Hc) as (ls & zs' & z' & H1 & H2 & H3). exists ls, zs', z'. split; [exact H1|]. split; [exact H2|].
    constructor; [exact H3|]. cbn [g_k g_phys].
    inversion Hc as [k0 op0 p y c i0 y' Hgo Hp Hcp Hs|k0 p y c l0 y' l' Hp Hcp Hs Hfr Hl].
    + subst. cbn [k_parts]. intros q ql yq Hq Hyq. destruct (decide (q = p)) as [->|Hne].
      * rewrite list_lookup_insert in Hyq by (eapply lookup_lt_Some, Hp). injection Hyq as <-.
        inversion Hs; subst; [cbn [y_sh]; now apply (Hse p)|destruct v; discriminate].
      * rewrite list_lookup_insert_ne in Hyq by congruence. now apply (Hse q).
    + exfalso. subst. destruct l0; [contradiction|destruct Hl as (j & _ & E); discriminate|discriminate].
  - assert (Hsh : same_heap c (h_dev (y_sh y)) d) by (eapply sees_heap; [exact Hpl|exact Hc|exact Hp|apply (Hse _ _ _ Hp Hy)|exact Hd]).
    pose proof (CInv_dev _ _ _ _ _ _ _ _ HC Hy Hc Hsh) as HC'. pose proof (lookup_lt_Some _ _ _ Hy) as Hlt.
    set (k1 := {| k_parts := <[p := {| y_sh := set_dev (y_sh y) d; y_procs := y_procs y |}]> (k_parts (g_k g)); k_calls := k_calls (g_k g); k_seen := k_seen (g_k g) |}) in *.
    assert (Hst : cstep cc k1 l' {| k_parts := <[p := y']> (k_parts k1); k_calls := k_calls k1; k_seen := k_seen k1 |}).
    { apply (cstep_part cc k1 p {| y_sh := set_dev (y_sh y) d; y_procs := y_procs y |} c l y' l'); [now apply list_lookup_insert|exact Hc|exact Hs| |exact Hl].
      intros id H1 H2. destruct (Hfr id H1 H2) as [H3 H4]. split; [exact H3|]. intros q yq Hq. cbn [k1 k_parts] in Hq. destruct (decide (q = p)) as [->|Hne].
      - rewrite list_lookup_insert in Hq by exact Hlt. injection Hq as <-. exact H2.
      - rewrite list_lookup_insert_ne in Hq by congruence. now apply (H4 q). }
    cbn [k1 k_parts k_calls k_seen] in Hst. rewrite list_insert_insert in Hst. fold k1 in Hst.
    destruct (cstep_inv cc lpage _ _ _ _ _ Hok Hv HC' Hst) as (ls & zs' & z' & H1 & H2 & H3). exists ls, zs', z'. split; [exact H1|]. split; [exact H2|].
    constructor; [exact H3|]. cbn [g_k g_phys k_parts]. intros q ql yq Hq Hyq. destruct (decide (q = p)) as [->|Hne].
    + rewrite list_lookup_insert in Hyq by exact Hlt. injection Hyq as <-. assert (ql = pl) as -> by congruence. apply stores_own.
    + rewrite list_lookup_insert_ne in Hyq by congruence. intros a Ha. rewrite (Hse q ql yq Hq Hyq a Ha). symmetry. apply stores_other; [|exact Ha].
      intros E. apply (pp_apart _ _ Hpl p q); auto.
Qed.
Lemma gsteps_inv cc pls lpage g0 ls g : cluster_ok cc lpage -> placed cc pls -> fresh_shared cc pls g0 -> valid_calls lpage ls -> gsteps cc pls g0 ls g ->
  exists ls' zs z, spec_steps lpage zempty ls' z /\ visible ls' = visible ls /\ GInv cc pls g zs z.
Proof.
  intros Hok Hpl Hf Hv Hs. induction Hs as [g0|g0 ls g1 l g2 Hs IH St].
  - exists [], (replicate (length (cc_parts cc)) zempty), zempty. split; [constructor|]. split; [reflexivity|].
    destruct Hf as [F1 F2]. constructor; [eapply fresh_inv; eassumption|exact F2].
  - destruct IH as (ls1 & zs1 & z1 & H1 & H2 & H3); [exact Hf|intros i op Hin; apply (Hv i), elem_of_app; now left|].
    destruct (gstep_inv cc pls lpage g1 l g2 zs1 z1 Hok Hpl) as (ls2 & zs2 & z2 & H4 & H5 & H6).
    { intros i op ->. apply (Hv i), elem_of_app. right. constructor. }
    { exact H3. }
    { exact St. }
    exists (ls1 ++ ls2), zs2, z2. split; [eapply spec_app; eassumption|]. split; [rewrite !visible_app; now rewrite H2, H5|exact H6].
Qed.

(** ** The properties *)
(** Partitions on shared devices, whose places do not overlap: every concurrent
    history is one of a single store, and listing shows each object once. *)
Theorem C51_sharing_devices_changes_nothing : forall cc pls lpage g0 ls g,
  cluster_ok cc lpage -> placed cc pls -> fresh_shared cc pls g0 -> gsteps cc pls g0 ls g -> valid_calls lpage ls ->
  exists ls' z', spec_steps lpage {| z_state := ss_empty; z_procs := [] |} ls' z' /\ visible ls' = visible ls /\
    list_objects (g_k g) ≡ₚ listed_of <$> map_to_list (ss_com (z_state z')).
Proof.
  intros cc pls lpage g0 ls g Hok Hpl Hf Hs Hv. destruct (gsteps_inv _ _ _ _ _ _ Hok Hpl Hf Hv Hs) as (ls' & zs & z & H1 & H2 & [HC _]).
  exists ls', z. split; [exact H1|]. split; [exact H2|]. eapply list_spec, HC.
Qed.
Print Assumptions C51_sharing_devices_changes_nothing.
(** In any state of any history, whatever a partition does next, it changes only
    bytes of its own heap, so no write is refused and no other partition, index
    area or part of the file is touched. *)
Theorem C51_writes_stay_in_own_heap : forall cc pls lpage g0 ls g p pl y c d l y' a,
  cluster_ok cc lpage -> placed cc pls -> fresh_shared cc pls g0 -> gsteps cc pls g0 ls g -> valid_calls lpage ls ->
  k_parts (g_k g) !! p = Some y -> cc_parts cc !! p = Some c -> pls !! p = Some pl -> sees pl (g_phys g) d ->
  dstep c {| y_sh := set_dev (y_sh y) d; y_procs := y_procs y |} l y' -> h_dev (y_sh y') a <> d a ->
  dc_base c <= a < dc_base c + dc_heap c /\ a < pl_len pl /\
  forall q ql b, pls !! q = Some ql -> q <> p -> pl_dev ql = pl_dev pl -> b < pl_len ql -> pl_off ql + b <> pl_off pl + a.
Proof.
  intros cc pls lpage g0 ls g p pl y c d l y' a Hok Hpl Hf Hs Hv Hy Hc Hp Hd St Hx.
  destruct (gsteps_inv _ _ _ _ _ _ Hok Hpl Hf Hv Hs) as (ls' & zs & z & _ & _ & [HC Hse]).
  assert (Hsh : same_heap c (h_dev (y_sh y)) d) by (eapply sees_heap; [exact Hpl|exact Hc|exact Hp|apply (Hse _ _ _ Hp Hy)|exact Hd]).
  destruct (ko_parts _ _ Hok _ _ Hc) as [Hcfg _]. destruct (ci_len _ _ _ _ HC) as [_ Hl2].
  destruct (lookup_lt_is_Some_2 zs p) as [zp Hz]; [rewrite Hl2; eapply lookup_lt_Some, Hc|].
  destruct (ci_good _ _ _ _ HC _ _ _ _ Hc Hy Hz) as (lk & zz & HG). pose proof (good_heap _ _ _ _ _ _ HG Hsh) as HG'.
  pose proof (good_writes _ _ _ _ _ _ _ a Hcfg HG' St Hx) as Hh. unfold in_heap in Hh. split; [exact Hh|].
  pose proof (pp_fits _ _ Hpl _ _ _ Hc Hp) as Hfit. assert (Ha : a < pl_len pl) by (clear -Hh Hfit; lia). split; [exact Ha|].
  intros q ql b Hq Hne Hdev Hb E. destruct (pp_apart _ _ Hpl q p _ _ Hq Hp Hne Hdev) as [H|H]; clear -H E Ha Hb; lia.
Qed.
Print Assumptions C51_writes_stay_in_own_heap.

(** ** A run *)
(** Whatever partitions with devices of their own do, partitions on shared devices
    can do as well. *)
Lemma share_steps cc pls k0 ls k phys : placed cc pls ->
  (forall p pl y, pls !! p = Some pl -> k_parts k0 !! p = Some y -> sees pl phys (h_dev (y_sh y))) -> csteps cc k0 ls k ->
  exists phys', gsteps cc pls {| g_k := k0; g_phys := phys |} ls {| g_k := k; g_phys := phys' |} /\
    (forall p pl y, pls !! p = Some pl -> k_parts k !! p = Some y -> sees pl phys' (h_dev (y_sh y))).
Proof.
  intros Hpl H0 Hs. induction Hs as [k0|k0 ls k1 l k2 Hs IH St]; [exists phys; split; [constructor|exact H0]|].
  destruct (IH H0) as (phys1 & H1 & H2). pose proof St as St0. destruct St as [k1 op p y c i y' Hgo Hy Hc Hd|k1 p y c l y' l' Hy Hc Hd Hfr Hl].
  - exists phys1. split; [econstructor; [exact H1|]; exact (gstep_call cc pls {| g_k := k1; g_phys := phys1 |} _ _ _ St0)|].
    cbn [k_parts]. intros q ql yq Hq Hyq. destruct (decide (q = p)) as [->|Hne].
    + rewrite list_lookup_insert in Hyq by (eapply lookup_lt_Some, Hy). injection Hyq as <-.
      inversion Hd; subst; [cbn [y_sh]; now apply (H2 p)|destruct v; discriminate].
    + rewrite list_lookup_insert_ne in Hyq by congruence. now apply (H2 q).
  - destruct (lookup_lt_is_Some_2 pls p) as [pl Hp]; [rewrite (pp_len _ _ Hpl); eapply lookup_lt_Some, Hc|].
    exists (stores pl phys1 (h_dev (y_sh y'))). split.
    + econstructor; [exact H1|]. eapply (gstep_part cc pls {| g_k := k1; g_phys := phys1 |} p pl y c (h_dev (y_sh y)) l y' l');
        [exact Hy|exact Hc|exact Hp|now apply (H2 p)| |exact Hfr|exact Hl].
      destruct y as [[] ?]. exact Hd.
    + cbn [k_parts]. intros q ql yq Hq Hyq. destruct (decide (q = p)) as [->|Hne].
      * rewrite list_lookup_insert in Hyq by (eapply lookup_lt_Some, Hy). injection Hyq as <-. assert (ql = pl) as -> by congruence. apply stores_own.
      * rewrite list_lookup_insert_ne in Hyq by congruence. intros a Ha. rewrite (H2 q ql yq Hq Hyq a Ha). symmetry. apply stores_other; [|exact Ha].
        intros E. apply (pp_apart _ _ Hpl p q); auto.
Qed.
(** The two partitions of [C49_example] on one file, one behind the other. *)
Definition ex_places : list place :=
  [{| pl_dev := 0; pl_off := 0; pl_len := 16384 |}; {| pl_dev := 0; pl_off := 16384; pl_len := 16384 |}].
Theorem C51_example : exists g0 ls g, cluster_ok ex_cc 10 /\ placed ex_cc ex_places /\ fresh_shared ex_cc ex_places g0 /\
  gsteps ex_cc ex_places g0 ls g /\ visible ls = c49_labels /\ valid_calls 10 ls /\
  (fun x => (li_key x, li_size x, li_id x)) <$> list_objects (g_k g) = [([98], 7, 4); ([97], 5, 3)].
Proof.
  assert (H : c49_facts = Some (c49_labels, [([98], 7, 4); ([97], 5, 3)])) by (vm_compute; reflexivity).
  unfold c49_facts in H. destruct ex_ck as [k0|] eqn:E0; [|discriminate]. cbn [mbind option_bind] in H.
  destruct (cdrive ex_cc (k0, []) c49_run) as [[k ls]|] eqn:E1; [|discriminate]. cbn [mbind option_bind] in H. injection H as H1 H2.
  assert (Hpl : placed ex_cc ex_places).
  { constructor; [reflexivity| |].
    - intros [|[|p]] c pl Hc Hp; cbn in Hc, Hp; try discriminate; injection Hc as <-; injection Hp as <-; vm_compute; discriminate.
    - intros [|[|p]] [|[|q]] pl ql Hp Hq Hne Hd; cbn in Hp, Hq; try discriminate; try congruence; injection Hp as <-; injection Hq as <-; cbn; [left|right]; discriminate. }
  assert (Hz : forall p pl y, ex_places !! p = Some pl -> k_parts k0 !! p = Some y -> sees pl (fun _ _ => 0) (h_dev (y_sh y))).
  { unfold ex_ck, ex_fresh in E0. destruct (PropertiesTuples.ex_open 1) as [t|]; [|discriminate]. cbn [mbind option_bind] in E0.
    destruct (allocator_new _ _ _ _ _ _) as [a| |]; try discriminate E0. cbn [mbind option_bind] in E0. injection E0 as <-.
    intros [|[|p]] pl y _ Hy; cbn in Hy; try discriminate; injection Hy as <-; intros a' _; reflexivity. }
  pose proof (cdrive_steps ex_cc k0 c49_run (k0, []) (k, ls) E1 (csteps_nil _ _)) as Hs. cbn [fst snd] in Hs.
  destruct (share_steps _ _ _ _ _ _ Hpl Hz Hs) as (phys' & Hg & _).
  exists {| g_k := k0; g_phys := fun _ _ => 0 |}, ls, {| g_k := k; g_phys := phys' |}. split.
  { constructor; [discriminate|]. intros [|[|p]] c Hc; cbn in Hc; try discriminate; injection Hc as <-; (split; [constructor; cbn; lia|reflexivity]). }
  split; [exact Hpl|]. split; [constructor; [apply ex_ck_ok; exact E0|exact Hz]|]. split; [exact Hg|].
  split; [exact H1|]. split; [apply valid_calls_ok; rewrite H1; reflexivity|exact H2].
Qed.
Print Assumptions C51_example.
