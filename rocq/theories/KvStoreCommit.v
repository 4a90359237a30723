(** Steps of the store: the background commit. *)
From Coq Require Import ZifyBool ZifyNat ZifyN.
From stdpp Require Import base numbers list_numbers option gmap sets fin_maps list.
From Verif Require Import Util Bytes PageIOModel PageIOProofs PageIOWrite BuddyModel KvAllocModel KvAllocSpec KvAllocProofs KvAllocInv
  KvCodecModel KvCodecSpec KvCodecProofs KvReadModel PropertiesKvRead KvLogModel KvLogSpec KvLogProofs KvLogSys KvLogInv KvStoreModel KvStoreSpec KvStoreInv KvStoreFrame KvStoreSteps.
Open Scope N_scope.
Ltac Zify.zify_post_hook ::= idtac.

Lemma owned_disjoint {NL : Prop} c a live total (o : owner -> option extent) t t' e e' : good_kconf c -> KIc c a live total -> owned (NL:=NL) o live ->
  o t = Some e -> o t' = Some e' -> t <> t' -> extents_disjoint (kc_spage c) e e'.
Proof. intros Hc HK (H1 & H2 & _) E E' Hne. eapply live_disj; [exact Hc|exact HK|eapply H1; exact E|eapply H1; exact E'|]. intros ->. apply Hne. eapply H2; eassumption. Qed.

(** When no page is in flight, what pages may hold is owned. *)
Lemma own_pth {NL : Prop} c y : good_kconf c -> ready_of y = [] -> (exists live total, KIc c (ks_alloc y) live total /\ owned (NL:=NL) (ow c y) live) ->
  (forall k e, pth c y k e -> placed c e) /\
  (forall k k' e e', k <> k' -> pth c y k e -> pth c y k' e' -> extents_disjoint (kc_spage c) e e').
Proof.
  intros Hc Hr (live & total & HK & Ho).
  assert (forall k e, pth c y k e -> exists t, ow c y t = Some e /\ (t = OKey k \/ t = OCom k)) as Ht.
  { intros k e [He|[He|He]]; [exists (OKey k); cbn [ow]; rewrite eff_nil by exact Hr; auto|exists (OKey k); auto|exists (OCom k); auto]. }
  split.
  - intros k e He. destruct (Ht k e He) as (t & Et & _). eapply live_placed; [exact Hc|exact HK|]. eapply (proj1 Ho); exact Et.
  - intros k k' e e' Hne He He'. destruct (Ht k e He) as (t & Et & Hk). destruct (Ht k' e' He') as (t' & Et' & Hk').
    eapply owned_disjoint; [exact Hc|exact HK|exact Ho|exact Et|exact Et'|]. destruct Hk as [->| ->], Hk' as [->| ->]; congruence.
Qed.

(** No heap value among the operations a commit would take is superseded by
    another one of them. *)
Definition heap_last (y : kstate) : Prop :=
  forall n k s o, (l_ncommit (ks_log y) <= n < applied y)%nat -> hist y !! n = Some (TUpsert k (DHeap s o)) -> last_op y n (applied y) k.

Section start.
Context {NL : Prop} (c : kconf) (y : kstate).
Hypothesis Hc : good_kconf c.
Hypothesis H : SI (NL:=NL) c y.

Lemma si_commit_start log : ks_commit y = None -> ks_com y = None -> lstep (kc_log c) (ks_log y) (ECommitStart (kc_commit c)) = Some log ->
  (NL -> heap_last y) ->
  SI (NL:=NL) c {| ks_log := log; ks_dev := ks_dev y; ks_alloc := ks_alloc y; ks_unc := ∅; ks_com := Some (ks_unc y);
          ks_commit := Some CStart; ks_writes := ks_writes y; ks_vals := ks_vals y; ks_lost := ks_lost y; ks_old := ks_old y ++ [ks_unc y] |}.
Proof using Hc H.
  intros Ec Em E HG. pose proof (linv_step c y Hc H (ECommitStart (kc_commit c)) log I E) as Hl. pose proof (lens c y H) as [Hlen [Hn1 Hn2]]. pose proof (s_b _ _ H) as HB.
  destruct (b_log _ _ HB) as [q Hq]. cbn [lstep] in E. destruct (l_apply (ks_log y)) as [|x l] eqn:Ea; [|discriminate E].
  destruct (l_commit (ks_log y)) eqn:Elc; [discriminate E|]. destruct (_ <=? _); [|discriminate E]. injection E as E.
  pose proof (i_commit _ _ _ Hq Elc) as Enc. pose proof (i_ord _ _ _ Hq) as (Ho1 & Ho2 & Ho3).
  assert (applied y = l_ntail (ks_log y)) as Eap by (unfold applied; rewrite Ea; cbn; lia).
  set (y' := Build_kstate _ _ _ _ _ _ _ _ _ _).
  assert (l_hist log = l_hist (ks_log y) /\ l_nhead log = l_nhead (ks_log y) /\ l_ncommit log = applied y /\ l_commit log = Some (l_tail (ks_log y)) /\ applied y' = applied y) as (L1 & L2 & L3 & L4 & L5).
  { subst log. cbn. unfold applied, y'. cbn. rewrite Ea. cbn. repeat split; lia. }
  assert (ready_of y = [] /\ ready_of y' = []) as [Er Er'] by (unfold ready_of; rewrite Ec; auto).
  assert (forall k, eff c y' k = eff c y k) as Eeff by (intros k; rewrite !eff_nil by assumption; reflexivity).
  assert (forall k, pcom c y k = None) as Epc by (intros k; unfold pcom; rewrite Ec; reflexivity).
  assert (forall k e, ks_unc y !! k = Some e -> exists n t raw v, (l_ncommit (ks_log y) <= n < applied y)%nat /\ hist y !! n = Some t /\ task_key t = k /\ task_entry t = e /\
     ks_vals y !! n = Some (raw, v) /\ tv c t (raw, v) /\ latest (upto c y (applied y)) k = v /\ last_op y n (applied y) k) as Hunc.
  { intros k e Eu. rewrite (b_unc _ _ HB) in Eu. apply (mapfold_latest c y (b_tv _ _ HB)); [lia|exact Eu]. }
  assert (exists live total, KIc c (ks_alloc y') live total /\ owned (NL:=NL) (ow c y') live) as Hown.
  { destruct (s_own _ _ H) as (live & total & HK & Ho). exists live, total. split; [exact HK|].
    apply (owned_map (ow c y) _ live (fun t t0 => match t with
       | OCom k => exists n tk, t0 = OLog n /\ (n < applied y)%nat /\ hist y !! n = Some tk /\ task_key tk = k
       | OLog n => t0 = OLog n /\ (applied y <= n)%nat
       | _ => t0 = t end)); [exact Ho| | |].
    - intros t e Ee. destruct t as [k|k|n|i].
      + exists (OKey k). split; [reflexivity|]. cbn [ow] in *. rewrite Eeff in Ee. exact Ee.
      + cbn [ow] in Ee. unfold pcom, y' in Ee. cbn [ks_commit ks_com mbind option_bind] in Ee.
        destruct (ks_unc y !! k) as [d|] eqn:Eu; [|discriminate Ee]. cbn [mbind option_bind] in Ee.
        destruct (Hunc k d Eu) as (n & t & raw & v & Hn & Et & Ek & Ed & _). exists (OLog n). split; [exists n, t; repeat split; [lia|exact Et|exact Ek]|].
        cbn [ow]. destruct (Nat.leb_spec (l_ncommit (ks_log y)) n) as [_|Hx]; [|lia]. unfold hist in Et. rewrite Et. cbn [mbind option_bind]. rewrite Ed. exact Ee.
      + cbn [ow] in Ee. unfold y' in Ee. cbn [ks_log] in Ee. rewrite L1, L3 in Ee. destruct (Nat.leb_spec (applied y) n) as [Hx|_]; [|discriminate Ee].
        exists (OLog n). split; [auto|]. cbn [ow]. destruct (Nat.leb_spec (l_ncommit (ks_log y)) n) as [_|Hx']; [exact Ee|lia].
      + exists (OWr i). split; [reflexivity|exact Ee].
    - intros t1 t2 t0 E1 E2. destruct t1 as [k1|k1|n1|i1], t2 as [k2|k2|n2|i2];
        repeat match goal with H : exists _, _ |- _ => destruct H | H : _ /\ _ |- _ => destruct H end; subst; try congruence; try discriminate.
      all: match goal with H : OLog _ = OLog _ |- _ => injection H as -> end; lia.
    - intros Hg t0 e Ee. destruct t0 as [k|k|n|i].
      + exists (OKey k). cbn [ow] in *. rewrite Eeff. exact Ee.
      + cbn [ow] in Ee. rewrite Epc in Ee. discriminate Ee.
      + cbn [ow] in Ee. destruct (Nat.leb_spec (l_ncommit (ks_log y)) n) as [Hge|]; [|discriminate Ee].
        destruct (l_hist (ks_log y) !! n) as [t|] eqn:Et; [|discriminate Ee]. cbn [mbind option_bind] in Ee.
        destruct (decide (applied y <= n)%nat) as [Hx|Hx].
        * exists (OLog n). cbn [ow]. unfold y'. cbn [ks_log]. rewrite L1, L3. destruct (Nat.leb_spec (applied y) n) as [_|]; [|lia]. rewrite Et. exact Ee.
        * exists (OCom (task_key t)). cbn [ow]. unfold pcom, y'. cbn [ks_commit ks_com mbind option_bind].
          assert (ks_unc y !! task_key t = Some (task_entry t)) as ->; [|exact Ee]. rewrite (b_unc _ _ HB). apply mapfold_Some. exists (n - l_ncommit (ks_log y))%nat, t.
          split; [rewrite slice_lookup by lia; exact Et|]. split; [reflexivity|]. split; [reflexivity|]. intros j t' Hj Ej.
          pose proof (lookup_lt_Some _ _ _ Ej) as Hjl. rewrite slice_length in Hjl by lia. destruct t as [k [i|s o]|k]; try discriminate Ee. cbn [task_key].
          apply (HG Hg n k s o ltac:(lia) Et (l_ncommit (ks_log y) + j)%nat t'); [lia|]. rewrite <- (slice_lookup _ (l_ncommit (ks_log y)) (applied y)) by lia. replace (l_ncommit (ks_log y) + j - l_ncommit (ks_log y))%nat with j by lia. exact Ej.
      + exists (OWr i). exact Ee. }
  destruct (own_pth c y' Hc Er' Hown) as [Hpl Hdj].
  constructor; [constructor| |exact Hown|exact Hpl|exact Hdj|exact (s_writes _ _ H)].
  - exact Hl.
  - unfold hist, y'. cbn [ks_log ks_vals]. rewrite L1. apply HB.
  - rewrite L5. unfold y'. cbn [ks_log]. rewrite L3. lia.
  - rewrite L5. unfold y'. cbn [ks_log ks_unc]. rewrite L3, slice_nil. reflexivity.
  - unfold stage_ok, y'. cbn [ks_commit ks_com ks_log]. split; [eauto|]. exists (ks_unc y). split; [reflexivity|]. split; [|exact I].
    unfold hist. cbn [ks_log]. rewrite L1, L2, L3, <- Enc. apply (b_unc _ _ HB).
  - apply HB.
  - intros n k s o raw v Hn Eh Hlast Ev. rewrite L5 in Hlast. unfold last_op, hist, y' in *. cbn [ks_log ks_vals ks_dev] in *. rewrite L1 in *. rewrite L3 in Hn. eapply (b_vlog _ _ HB); [|eassumption..]. lia.
  - intros k _ Emk. rewrite L5, Eeff. apply (b_vpage _ _ HB k); [apply Emk; reflexivity|]. rewrite Em. discriminate.
  - intros m k e s o Em' Ek Ecur _. unfold y' in Em'. cbn [ks_com] in Em'. injection Em' as <-. unfold cur, pcom, y' in Ecur. cbn [ks_commit ks_com mbind option_bind] in Ecur.
    rewrite Ek in Ecur. subst e. destruct (Hunc k _ Ek) as (n & t & raw & v & Hn & Et & Etk & Ed & Ev & Htv & El & Hlast).
    assert (l_ncommit (ks_log y') = applied y) as -> by exact L3. destruct t as [k' d|k']; [|discriminate Ed]. cbn in Ed. injection Ed as ->.
    destruct v as [v|]; [|destruct Htv as (_ & _ & [])]. exists v. split; [exact El|]. cbn in Etk. subst k'. eapply (b_vlog _ _ HB n); [lia|exact Et|exact Hlast|exact Ev].
Qed.

(** Facts about the running commit's map. *)
Lemma com_facts m k e : ks_com y = Some m -> m !! k = Some e -> exists h0 n t raw v, (h0 <= n < l_ncommit (ks_log y))%nat /\ hist y !! n = Some t /\
  task_key t = k /\ task_entry t = e /\ ks_vals y !! n = Some (raw, v) /\ tv c t (raw, v) /\ latest (upto c y (l_ncommit (ks_log y))) k = v /\ valid_task t /\
  k = kc_key c raw /\ good_key raw.
Proof using H.
  intros Em Ek. pose proof (s_b _ _ H) as HB. destruct (com_map c y m HB Em) as (h0 & Hh & ->). pose proof (lens c y H) as [_ Hn]. destruct (b_log _ _ HB) as [q Hq].
  destruct (mapfold_latest c y (b_tv _ _ HB) _ _ _ _ ltac:(split; [exact Hh|lia]) Ek) as (n & t & raw & v & Hr & Et & Etk & Ee & Ev & Htv & El & _).
  exists h0, n, t, raw, v. split; [exact Hr|]. split; [exact Et|]. split; [exact Etk|]. split; [exact Ee|]. split; [exact Ev|]. split; [exact Htv|]. split; [exact El|].
  split; [|split; [destruct Htv as (G & _); cbn [fst] in G; congruence|apply Htv]].
  pose proof (i_hist _ _ _ Hq) as Hh'. rewrite Forall_lookup in Hh'. eapply Hh'; exact Et.
Qed.
Lemma com_index m k e : ks_com y = Some m -> m !! k = Some e -> exists idx, kc_index c k = Some idx /\ idx < kc_pages c.
Proof using Hc H. intros Em Ek. destruct (com_facts m k e Em Ek) as (h0 & n & t & raw & v & _ & _ & _ & _ & _ & _ & _ & _ & -> & _). apply index_some, Hc. Qed.
(** The entry to be stored is valid. *)
Lemma com_valid m k e : ks_com y = Some m -> m !! k = Some e -> valid_key k /\ nonempty_key k /\
  forall e', mv e e' -> (forall s o, e' = Some (DHeap s o) -> placed c (o, s)) -> forall d, e' = Some d -> valid_data d.
Proof using Hc H.
  intros Em Ek. destruct (com_facts m k e Em Ek) as (h0 & n & t & raw & v & _ & Et & Etk & Ee & Ev & Htv & El & Hv & Hk & Hg).
  destruct (good_key_valid c raw Hc Hg) as [G1 G2]. rewrite <- Hk in G1, G2. split; [exact G1|]. split; [exact G2|].
  intros e' Hm Hp d ->. destruct t as [k' [i|s o]|k']; cbn [task_entry] in Ee; subst e; cbn [mv] in Hm.
  - destruct Htv as (_ & _ & Hi). destruct v as [v|]; [|contradiction]. destruct Hi as (-> & Hl & Hb). destruct (N.ltb_spec tuple_inline_threshold (N.of_nat (length v))) as [Hx|Hx].
    + destruct Hm as [off Eo]. injection Eo as ->. destruct (placed_addr c Hc _ (Hp _ _ eq_refl)) as (P1 & P2 & _). cbn [fst] in *. split; [|auto].
      unfold tuple_inline_threshold in Hx. clear -Hx Hl. lia.
    + injection Hm as ->. split; [|exact Hb]. clear -Hl. change (2 ^ 24) with 16777216 in Hl. change (2 ^ 32) with 4294967296. lia.
  - injection Hm as ->. apply Hv.
  - discriminate Hm.
Qed.
End start.
