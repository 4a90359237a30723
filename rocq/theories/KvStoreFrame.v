(** Steps of the store that leave the stage of the commit alone. *)
From Coq Require Import ZifyBool ZifyNat ZifyN.
From stdpp Require Import base numbers list_numbers option gmap sets fin_maps list.
From Verif Require Import Util Bytes PageIOModel PageIOProofs PageIOWrite BuddyModel KvAllocModel KvAllocSpec KvAllocProofs KvAllocInv
  KvCodecModel KvCodecSpec KvCodecProofs KvReadModel PropertiesKvRead KvLogModel KvLogSpec KvLogProofs KvLogSys KvLogInv KvStoreModel KvStoreSpec KvStoreInv.
Open Scope N_scope.
Ltac Zify.zify_post_hook ::= idtac.

(** ** Live extents. *)
Section live.
Context (c : kconf).
Hypothesis Hc : good_kconf c.
Lemma live_disj a live total e f : KIc c a live total -> e ∈ live -> f ∈ live -> e <> f -> extents_disjoint (kc_spage c) e f.
Proof using Hc.
  intros HK He Hf Hne. pose proof (good_spage c Hc) as ([H1 _] & H63 & _).
  apply elem_of_list_lookup in He as [i Hi]. apply elem_of_list_lookup in Hf as [j Hj].
  eapply (ki_disjoint _ _ _ _ H1 H63 _ _ _ HK i j); [congruence|exact Hi|exact Hj].
Qed.
Lemma live_placed a live total e : KIc c a live total -> e ∈ live -> placed c e.
Proof using Hc. intros HK He. pose proof (good_spage c Hc) as ([H1 _] & H63 & _). exact (ki_placed _ _ _ _ H1 H63 _ _ _ _ HK He). Qed.
Lemma ext_byte o s x : o <= x < o + s -> extent_bytes (kc_spage c) (o, s) x.
Proof. intros Hx. exists (ceil_pow2 s (kc_spage c)). split; [apply rounded_ceil|]. cbn [fst snd]. pose proof (ceil_pow2_ge s (kc_spage c)). lia. Qed.
Lemma ext_bytes_ceil o s x : extent_bytes (kc_spage c) (o, s) x <-> o <= x < o + ceil_pow2 s (kc_spage c).
Proof.
  split; [|intros Hx; exists (ceil_pow2 s (kc_spage c)); split; [apply rounded_ceil|exact Hx]].
  intros (r & Hr & Hx). apply rounded_unique in Hr. subst r. exact Hx.
Qed.
Lemma live_same_off a live total o s s' : KIc c a live total -> (o, s) ∈ live -> (o, s') ∈ live -> s = s'.
Proof using Hc.
  intros HK H1 H2. destruct (decide (s = s')) as [|Hne]; [assumption|]. exfalso.
  pose proof (live_disj _ _ _ _ _ HK H1 H2 ltac:(congruence)) as Hd. pose proof (live_placed _ _ _ _ HK H1) as (P1 & _). pose proof (live_placed _ _ _ _ HK H2) as (P2 & _).
  cbn in *. apply (Hd o). split; apply ext_byte; lia.
Qed.
(** Placed extents: addresses fit an entry; they lie outside the index. *)
Lemma placed_addr e : placed c e -> fst e mod 512 = 0 /\ fst e < 2 ^ 48 /\ kc_base c <= fst e /\ fst e mod 2 ^ kc_spage c = 0 /\ fst e + snd e <= 2 ^ 48.
Proof using Hc.
  intros (Hp & (p & (Hp1 & _) & _ & Hm) & Hb). destruct e as [o s]. cbn [fst snd] in *. pose proof (good_spage c Hc) as (_ & _ & H9).
  pose proof (Hb o ltac:(apply ext_byte; lia)) as Hb1. pose proof (Hb (o + s - 1) ltac:(apply ext_byte; lia)) as Hb2. pose proof (gk_addr _ Hc) as Ha.
  split; [change 512 with (2 ^ 9); apply (BuddyInv.mod_pow2_le _ 9 p); [lia|exact Hm]|]. split; [lia|]. split; [lia|].
  split; [apply (BuddyInv.mod_pow2_le _ (kc_spage c) p); [exact Hp1|exact Hm]|]. lia.
Qed.
(** A device change inside one live extent leaves other values alone. *)
Lemma denotes_other a live total e f d d' v : KIc c a live total -> e ∈ live -> f ∈ live -> e <> f ->
  (forall x, ~ extent_bytes (kc_spage c) e x -> d' x = d x) ->
  denotes d (DHeap (snd f) (fst f)) v -> denotes d' (DHeap (snd f) (fst f)) v.
Proof using Hc.
  intros HK He Hf Hne Hd [Hs Hv]. split; [exact Hs|]. intros i b Hi. rewrite Hd; [apply Hv; exact Hi|]. intros Hx.
  apply (live_disj _ _ _ _ _ HK He Hf Hne (fst f + N.of_nat i)). split; [exact Hx|]. destruct f as [o s]. apply ext_byte. cbn in *. pose proof (lookup_lt_Some _ _ _ Hi). lia.
Qed.
Lemma page_other e d d' idx : placed c e -> idx < kc_pages c -> (forall x, ~ extent_bytes (kc_spage c) e x -> d' x = d x) ->
  page_at c d' idx = page_at c d idx.
Proof using Hc.
  intros (_ & _ & Hb) Hi Hd. unfold page_at, dev_read. apply list_fmap_ext. intros i n Hn. apply Hd. intros Hx. apply Hb in Hx.
  pose proof (good_pages c Hc) as [_ E]. apply lookup_seq in Hn as [-> Hlt]. cbn [Nat.add] in *.
  assert (idx * kc_psize c + N.of_nat i < kc_base c); [|lia]. rewrite <- E.
  assert ((idx + 1) * kc_psize c <= kc_pages c * kc_psize c) by (apply N.mul_le_mono_r; lia). rewrite N.mul_add_distr_r, N.mul_1_l in *. lia.
Qed.
End live.

Lemma owned_map {NL : Prop} o o' live (R : owner -> owner -> Prop) : owned (NL:=NL) o live ->
  (forall t e, o' t = Some e -> exists t0, R t t0 /\ o t0 = Some e) -> (forall t1 t2 t0, R t1 t0 -> R t2 t0 -> t1 = t2) ->
  (NL -> forall t0 e, o t0 = Some e -> exists t, o' t = Some e) -> owned (NL:=NL) o' live.
Proof.
  intros (H1 & H2 & H3) Hm Hinj Hcov. split; [|split].
  - intros t e E. destruct (Hm _ _ E) as (t0 & _ & E0). eapply H1; exact E0.
  - intros t t' e E E'. destruct (Hm _ _ E) as (t0 & HR & E0). destruct (Hm _ _ E') as (t0' & HR' & E0').
    pose proof (H2 _ _ _ E0 E0') as <-. eapply Hinj; eassumption.
  - intros HG e He. destruct (H3 HG e He) as [t0 Et0]. eapply Hcov; eassumption.
Qed.
Lemma owned_ext {NL : Prop} o o' live : owned (NL:=NL) o live -> (forall t, o' t = o t) -> owned (NL:=NL) o' live.
Proof.
  intros (H1 & H2 & H3) E. split; [intros t e He; rewrite E in He; eauto|]. split; [intros t t' e He He'; rewrite E in He, He'; eauto|].
  intros HG e He. destruct (H3 HG e He) as [t Et]. exists t. rewrite E. exact Et.
Qed.
(** One more owner, with an extent of its own. *)
#[global] Instance owner_eq_dec : EqDecision owner.
Proof. solve_decision. Defined.
Lemma owned_new {NL : Prop} o o' live t0 e0 : owned (NL:=NL) o live -> e0 ∉ live -> o' t0 = Some e0 -> o t0 = None -> (forall t, t <> t0 -> o' t = o t) -> owned (NL:=NL) o' (e0 :: live).
Proof.
  intros (H1 & H2 & H3) He E0 En Eo. split; [|split].
  - intros t e E. destruct (decide (t = t0)) as [->|Hne].
    + rewrite E0 in E. injection E as <-. left.
    + rewrite (Eo t Hne) in E. right. eapply H1; exact E.
  - intros t t' e E E'. destruct (decide (t = t0)) as [->|Hne]; destruct (decide (t' = t0)) as [->|Hne']; [reflexivity| | |].
    + rewrite E0 in E. injection E as <-. rewrite (Eo t' Hne') in E'. exfalso. apply He. eapply H1; exact E'.
    + rewrite E0 in E'. injection E' as <-. rewrite (Eo t Hne) in E. exfalso. apply He. eapply H1; exact E.
    + rewrite (Eo t Hne) in E. rewrite (Eo t' Hne') in E'. eapply H2; eassumption.
  - intros HG e Hin. apply elem_of_cons in Hin as [->|Hin]; [exists t0; exact E0|]. destruct (H3 HG e Hin) as [t Et]. exists t. rewrite Eo; [exact Et|].
    intros ->. congruence.
Qed.
Lemma fresh_live c e (live : list extent) : good_kconf c -> placed c e -> (forall f, f ∈ live -> extents_disjoint (kc_spage c) e f) -> e ∉ live.
Proof. intros Hc (Hp & _) Hd Hin. destruct e as [o s]. cbn in Hp. apply (Hd _ Hin o). split; apply ext_byte; lia. Qed.

(** ** Log steps. *)
Record logsame (log log' : lstate) (ts : list ltask) : Prop := {
  ls_hist : l_hist log' = l_hist log ++ ts;
  ls_nhead : l_nhead log' = l_nhead log;
  ls_ncommit : l_ncommit log' = l_ncommit log;
  ls_commit : l_commit log' = l_commit log;
  ls_applied : (l_ntail log' - length (l_apply log') = l_ntail log - length (l_apply log))%nat
}.
Lemma logsame_refl log : logsame log log [].
Proof. constructor; try reflexivity. rewrite app_nil_r. reflexivity. Qed.
Lemma internal_same c log e log' : log_internal e = true -> lstep c log e = Some log' -> logsame log log' [].
Proof.
  intros Hi E. destruct e as [t|junk wjunk|i v|i|i|junk| |th|junk| ]; try discriminate Hi; cbn [lstep] in E.
  - destruct (writer_flush _ _ _ _ _) as [[w f]|]; [|discriminate E]. cbn [mbind option_bind] in E. injection E as <-. constructor; cbn; try reflexivity. rewrite app_nil_r; reflexivity.
  - destruct (l_flights log !! i) as [[f fin]|]; [|discriminate E]. cbn [mbind option_bind] in E. destruct fin; [discriminate E|]. injection E as <-. constructor; cbn; try reflexivity. rewrite app_nil_r; reflexivity.
  - destruct (l_flights log !! i) as [[f fin]|]; [|discriminate E]. cbn [mbind option_bind] in E. destruct fin; [discriminate E|].
    destruct (flight_write _ _ _); [|discriminate E]. cbn [mbind option_bind] in E. injection E as <-. constructor; cbn; try reflexivity. rewrite app_nil_r; reflexivity.
  - destruct (l_flights log !! i) as [[f fin]|]; [|discriminate E]. cbn [mbind option_bind] in E. destruct fin; [|discriminate E]. cbn [negb] in E.
    destruct (l_backlog log !! fl_id f); [discriminate E|]. injection E as <-. constructor; cbn; try reflexivity. rewrite app_nil_r; reflexivity.
  - destruct (l_apply log) as [|x l] eqn:Ea; [|discriminate E]. cbn [length Nat.eqb negb] in E. destruct (drain _ _ _) as [[fs bl] next].
    destruct (last fs); [|discriminate E]. cbn [mbind option_bind] in E. destruct (state_page _ _ _); [|discriminate E]. cbn [mbind option_bind] in E. injection E as <-.
    constructor; cbn; try reflexivity; [rewrite app_nil_r; reflexivity|]. rewrite Ea. cbn [length]. lia.
Qed.
Lemma recv_same c log t log' : lstep c log (ERecv t) = Some log' -> logsame log log' [t].
Proof.
  cbn [lstep]. intros E. destruct (writer_recv _ _ _); [|discriminate E]. cbn [mbind option_bind] in E. injection E as <-. constructor; reflexivity.
Qed.

(** ** Steps that keep the overlay and the stage. *)
Definition keeps (c : kconf) (y : kstate) (d' : device) (t0 : option owner) : Prop :=
  forall t e v, Some t <> t0 -> ow c y t = Some e -> denotes (ks_dev y) (DHeap (snd e) (fst e)) v -> denotes d' (DHeap (snd e) (fst e)) v.
Lemma keeps_refl c y t0 : keeps c y (ks_dev y) t0.
Proof. intros t e v _ _ H. exact H. Qed.

Lemma frame_BI c y y' ts os t0 : BI c y ->
  (exists q, linv (kc_log c) (ks_log y') q) -> logsame (ks_log y) (ks_log y') ts -> ks_vals y' = ks_vals y ++ os -> Forall2 (tv c) ts os ->
  ks_unc y' = ks_unc y -> ks_com y' = ks_com y -> (forall k, eff c y' k = eff c y k) ->
  stage_ok c y' -> (forall idx, idx < kc_pages c -> page_ok c idx (page_at c (ks_dev y') idx)) ->
  keeps c y (ks_dev y') t0 -> (forall n, t0 <> Some (OLog n)) -> (forall k, t0 <> Some (OKey k)) ->
  (forall n k s o raw v, ts !! n = Some (TUpsert k (DHeap s o)) -> os !! n = Some (raw, Some v) -> denotes (ks_dev y') (DHeap s o) v) ->
  BI c y'.
Proof.
  intros H Hl Hs Hvals Htv Hu Hm He Hst Hpg Hk Ht1 Ht2 Hnew. destruct Hs as [L1 L2 L3 L4 L5].
  assert (applied y' = applied y) as Ea by exact L5. pose proof (applied_le c y H) as Hal. unfold hist in Hal.
  assert (length (hist y) = length (ks_vals y)) as Elen by (apply (Forall2_length (tv c)), H).
  constructor; try assumption.
  - unfold hist. rewrite L1, Hvals. apply Forall2_app; [apply H|exact Htv].
  - rewrite L3, Ea. apply H.
  - rewrite Hu, L3, Ea. unfold hist. rewrite L1, slice_snoc_ext by exact Hal. apply H.
  - intros n k s o raw v Hn Eh Hlast Ev. rewrite L3 in Hn. unfold hist in Eh. rewrite L1 in Eh. rewrite Hvals in Ev. apply lookup_app_Some in Eh as [Eh|[Hge Eh]].
    + rewrite lookup_app_l in Ev by (pose proof (lookup_lt_Some _ _ _ Eh); unfold hist in Elen; lia).
      apply (Hk (OLog n) (o, s) v); [intros E; eapply Ht1; symmetry; exact E| |].
      * cbn. destruct (Nat.leb_spec (l_ncommit (ks_log y)) n) as [_|Hx]; [|lia]. rewrite Eh. reflexivity.
      * eapply (b_vlog _ _ H); try eassumption. intros j t Hj Ej. rewrite Ea in Hlast. eapply Hlast; [exact Hj|]. unfold hist. rewrite L1. apply lookup_app_l_Some, Ej.
    + rewrite lookup_app_r in Ev by (unfold hist in Elen; lia). eapply Hnew; [exact Eh|]. unfold hist in Elen. rewrite Elen. exact Ev.
  - intros k Eu Em. rewrite Hu in Eu. rewrite Hm in Em. rewrite He, Ea. unfold upto. rewrite Hvals. unfold okeyed. rewrite fmap_app, take_app_le by (rewrite fmap_length; unfold hist in Elen; lia).
    pose proof (b_vpage _ _ H k Eu Em) as Hv. unfold upto, okeyed in Hv. destruct (eff c y k) as [[i|s o]|] eqn:Ee; [exact Hv| |exact Hv].
    destruct (latest _ k) as [v|]; [|exact Hv]. cbn [shows] in *. apply (Hk (OKey k) (o, s) v); [intros E; eapply Ht2; symmetry; exact E| |exact Hv].
    cbn. rewrite Ee. reflexivity.
Qed.
Lemma upto_app c y y' os n : ks_vals y' = ks_vals y ++ os -> (n <= length (ks_vals y))%nat -> upto c y' n = upto c y n.
Proof. intros E Hn. unfold upto. rewrite E. unfold okeyed. rewrite fmap_app, take_app_le; [reflexivity|]. rewrite fmap_length. exact Hn. Qed.
Lemma stage_log c y log d a ws vals ts : stage_ok c y -> logsame (ks_log y) log ts -> (l_ncommit (ks_log y) <= length (hist y))%nat ->
  (forall idx, idx < kc_pages c -> page_at c d idx = page_at c (ks_dev y) idx) -> good_kconf c -> stage_ok c (ks_set y log d a ws vals).
Proof.
  intros H [L1 L2 L3 L4 L5] Hn Hp Hc.
  assert (forall idx, idx < kc_pages c -> epage c (ks_set y log d a ws vals) idx = epage c y idx) as Hep.
  { intros idx Hi. unfold epage, ready_of. cbn [ks_set ks_commit ks_dev]. rewrite (Hp idx Hi). reflexivity. }
  assert (forall k, eff c (ks_set y log d a ws vals) k = eff c y k) as He.
  { intros k. unfold eff. destruct (kc_index c k) as [idx|] eqn:Ei; [|reflexivity]. cbn [mbind option_bind]. rewrite (Hep idx (index_bound c k idx Hc Ei)). reflexivity. }
  unfold stage_ok in *. unfold hist in *. cbn [ks_set ks_commit ks_com ks_log ks_dev]. rewrite L1, L2, L3, L4.
  destruct (ks_commit y) as [[|hw ents|ents todo ready|]|].
  - rewrite slice_snoc_ext by exact Hn. exact H.
  - rewrite slice_snoc_ext by exact Hn. exact H.
  - rewrite slice_snoc_ext by exact Hn. destruct H as (H1 & m & H2 & H3 & H4 & H5 & H6 & H7 & H8). split; [exact H1|]. exists m.
    split; [exact H2|]. split; [exact H3|]. split; [exact H4|]. split; [exact H5|]. split; [exact H6|]. split.
    + intros k e idx E1 E2 E3. rewrite He. eapply H7; eassumption.
    + intros idx page Hin. destruct (H8 idx page Hin) as (G1 & G2 & G3 & G4 & G5). split; [exact G1|]. split; [exact G2|]. split; [exact G3|]. split; [exact G4|]. intros k Ek. rewrite (Hp idx G1). apply G5, Ek.
  - destruct H as (H1 & m & h0 & H2 & H3 & H4 & H5). split; [exact H1|]. exists m, h0. rewrite slice_snoc_ext by exact Hn. repeat split; try assumption.
    intros k e E. rewrite He. eapply H5, E.
  - exact H.
Qed.
