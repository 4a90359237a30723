(** Reads of libblobd-kv that overlap other steps. *)
From Coq Require Import ZifyBool ZifyNat ZifyN.
From stdpp Require Import base numbers list_numbers option gmap sets fin_maps list.
From Verif Require Import Util Bytes PageIOModel PageIOProofs PageIOWrite BuddyModel KvAllocModel KvAllocSpec KvAllocProofs KvAllocInv
  KvCodecModel KvCodecSpec KvCodecProofs KvReadModel PropertiesKvRead KvLogModel KvLogSpec KvLogProofs KvLogSys KvLogInv KvStoreModel KvStoreSpec KvStoreInv KvStoreFrame KvStoreSteps KvStoreCommit KvStoreGroup KvStorePages KvStoreIndex KvStoreOpen.
Open Scope N_scope.
Ltac Zify.zify_post_hook ::= idtac.

(** The device page is what counts for keys the running commit does not touch. *)
Lemma eff_dpg c y k : BI c y -> (forall m, ks_com y = Some m -> m !! k = None) -> eff c y k = dpg c y k.
Proof.
  intros HB Hno. unfold eff, dpg. destruct (kc_index c k) as [idx|]; [|reflexivity]. cbn [mbind option_bind]. unfold epage, ready_of.
  pose proof (b_stage _ _ HB) as Hst. unfold stage_ok in Hst. destruct (ks_commit y) as [[|hw ents|ents todo ready|]|]; try reflexivity.
  destruct ((list_to_map ready : gmap N (list N)) !! idx) as [pg|] eqn:Er; [|reflexivity]. cbn [from_option id].
  apply elem_of_list_to_map_2 in Er. destruct Hst as (_ & m & Em & _ & _ & _ & _ & _ & Hr). destruct (Hr idx pg Er) as (_ & _ & _ & _ & Hf). apply Hf, Hno, Em.
Qed.

(** What an undisturbed lookup finds. *)
Definition incom (y : kstate) (k : okey) : option (option odata) := m ← ks_com y; m !! k.
Definition klook (c : kconf) (y : kstate) (k : okey) : option odata :=
  match ks_unc y !! k with Some e => e | None => match incom y k with Some e => e | None => dpg c y k end end.
Lemma page_dpg c y k idx : BI c y -> kc_index c k = Some idx -> idx < kc_pages c -> kv_page c y k = Some (dpg c y k).
Proof.
  intros HB Ei Hi. unfold kv_page, dpg. rewrite Ei. cbn [mbind option_bind]. destruct (po_read _ _ _ (b_pages _ _ HB idx Hi)) as [l El]. unfold decode. rewrite El. reflexivity.
Qed.
Lemma klook_read c y raw : good_kconf c -> BI c y -> kv_read_tuple c y y y raw = Some (klook c y (kc_key c raw)).
Proof.
  intros Hc HB. unfold kv_read_tuple, kv_clone, kv_get, kv_map, klook, incom. cbn [fst snd]. rewrite Nat.eqb_refl. cbn [mbind option_bind]. set (k := kc_key c raw).
  destruct (ks_unc y !! k); [reflexivity|]. destruct (index_some c raw Hc) as (idx & Ei & Hi). destruct (ks_com y) as [m|]; cbn [mbind option_bind].
  - destruct (m !! k); [reflexivity|]. eapply page_dpg; eassumption.
  - eapply page_dpg; eassumption.
Qed.

(** ** What a step may change. *)
Inductive kmove (c : kconf) (y y' : kstate) : Prop :=
| mv_same os : ks_old y' = ks_old y -> ks_unc y' = ks_unc y -> ks_com y' = ks_com y -> applied y' = applied y ->
    l_ncommit (ks_log y') = l_ncommit (ks_log y) -> ks_vals y' = ks_vals y ++ os ->
    (forall k, dpg c y' k = dpg c y k \/
       exists ents todo ready, ks_commit y = Some (CPages ents todo ready) /\ dpg c y' k = eff c y k /\ forall idx, kc_index c k = Some idx -> idx ∉ todo) ->
    kmove c y y'
| mv_apply t : ks_old y' = ks_old y -> ks_unc y' = overlay_insert (ks_unc y) t -> ks_com y' = ks_com y -> applied y' = S (applied y) ->
    l_ncommit (ks_log y') = l_ncommit (ks_log y) -> ks_vals y' = ks_vals y -> hist y !! applied y = Some t ->
    (forall k, dpg c y' k = dpg c y k) -> kmove c y y'
| mv_start : ks_old y' = ks_old y ++ [ks_unc y] -> ks_unc y' = ∅ -> ks_com y = None -> ks_com y' = Some (ks_unc y) -> applied y' = applied y ->
    l_ncommit (ks_log y') = applied y -> ks_vals y' = ks_vals y -> (forall k, dpg c y' k = dpg c y k) -> kmove c y y'
| mv_done : ks_old y' = ks_old y -> ks_unc y' = ks_unc y -> ks_commit y = Some CHeaded -> ks_com y' = None -> applied y' = applied y ->
    l_ncommit (ks_log y') = l_ncommit (ks_log y) -> ks_vals y' = ks_vals y -> (forall k, dpg c y' k = dpg c y k) -> kmove c y y'.

Lemma dpg_pages c y d k : good_kconf c -> (forall idx, idx < kc_pages c -> page_at c d idx = page_at c (ks_dev y) idx) ->
  (idx ← kc_index c k; page_find (decode (page_at c d idx)) k) = dpg c y k.
Proof.
  intros Hc Hp. unfold dpg. destruct (kc_index c k) as [idx|] eqn:Ei; [|reflexivity]. cbn [mbind option_bind]. rewrite Hp by (eapply index_bound; eassumption). reflexivity.
Qed.
Lemma wr_pages c y i w d : good_kconf c -> SI (NL:=False) c y -> ks_writes y !! i = Some w ->
  (forall x, ~ (kw_off w <= x < kw_off w + N.of_nat (length (kw_buf w))) -> d x = ks_dev y x) ->
  forall idx, idx < kc_pages c -> page_at c d idx = page_at c (ks_dev y) idx.
Proof.
  intros Hc H E Hd. apply (pages_within c y Hc H d (OWr i) _ (wr_owner c y i w E)). intros x Hx. apply Hd.
  destruct (wr_ok c y H i w E) as (_ & _ & _ & _ & Hlen & _). rewrite Hlen. rewrite ext_bytes_ceil in Hx. exact Hx.
Qed.
Lemma hw_pages c y hw ents off buf d : good_kconf c -> SI (NL:=False) c y -> ks_commit y = Some (CHeap hw ents) -> (off, buf) ∈ hw ->
  (forall x, ~ (off <= x < off + N.of_nat (length buf)) -> d x = ks_dev y x) ->
  forall idx, idx < kc_pages c -> page_at c d idx = page_at c (ks_dev y) idx.
Proof.
  intros Hc H Ec Hin Hd. pose proof (b_stage _ _ (s_b _ _ H)) as Hst. unfold stage_ok in Hst. rewrite Ec in Hst.
  destruct Hst as (_ & m & _ & _ & _ & Hhw). destruct (Hhw off buf Hin) as (k0 & i & junk & _ & _ & El0 & Hlen).
  apply (pages_within c y Hc H d (OCom k0) (off, N.of_nat (length i))); [cbn [ow]; unfold pcom; rewrite Ec, El0; reflexivity|].
  intros x Hx. apply Hd. rewrite Hlen. rewrite ext_bytes_ceil in Hx. exact Hx.
Qed.

Lemma step_move c y e y' : good_kconf c -> SI (NL:=False) c y -> e <> KCrash -> kstep c y e = Some y' -> kmove c y y'.
Proof.
  intros Hc H Hne E. pose proof (s_b _ _ H) as HB.
  destruct e as [raw val|raw val junk|i v|i|i|raw|e| | |order junks|i v|i| |idx order junk|i|junk| | ].
  - cbn [kstep] in E. destruct (_ || _); [discriminate E|]. destruct (lstep _ _ _) as [log|] eqn:El; [|discriminate E]. cbn [mbind option_bind] in E. injection E as <-. apply recv_same in El.
    eapply mv_same; try reflexivity; [apply El|apply El|left; reflexivity].
  - cbn [kstep] in E. destruct (_ || _); [discriminate E|]. destruct (kv_allocate _ _) as [[a off]| |]; try discriminate E. destruct (negb _); [discriminate E|]. injection E as <-.
    eapply (mv_same _ _ _ []); try reflexivity; [cbn; rewrite app_nil_r; reflexivity|left; reflexivity].
  - cbn [kstep] in E. destruct (ks_writes y !! i) as [w|] eqn:Ew; [|discriminate E]. cbn [mbind option_bind] in E. destruct (kw_done w); [discriminate E|]. injection E as <-.
    eapply (mv_same _ _ _ []); try reflexivity; [cbn; rewrite app_nil_r; reflexivity|]. intros k. left. apply dpg_pages; [exact Hc|]. eapply wr_pages; try eassumption. intros x Hx. apply torn_out, Hx.
  - cbn [kstep] in E. destruct (ks_writes y !! i) as [w|] eqn:Ew; [|discriminate E]. cbn [mbind option_bind] in E. destruct (kw_done w); [discriminate E|].
    destruct (od_write _ _ _ _) as [d|] eqn:Ed; [|discriminate E]. cbn [mbind option_bind] in E. injection E as <-. apply od_write_Some in Ed. subst d.
    eapply (mv_same _ _ _ []); try reflexivity; [cbn; rewrite app_nil_r; reflexivity|]. intros k. left. apply dpg_pages; [exact Hc|]. eapply wr_pages; try eassumption. intros x Hx. apply dev_write_out. lia.
  - cbn [kstep] in E. destruct (ks_writes y !! i) as [w|] eqn:Ew; [|discriminate E]. cbn [mbind option_bind] in E. destruct (negb _); [discriminate E|].
    destruct (lstep _ _ _) as [log|] eqn:El; [|discriminate E]. cbn [mbind option_bind] in E. injection E as <-. apply recv_same in El.
    eapply mv_same; try reflexivity; [apply El|apply El|left; reflexivity].
  - cbn [kstep] in E. destruct (lstep _ _ _) as [log|] eqn:El; [|discriminate E]. cbn [mbind option_bind] in E. injection E as <-. apply recv_same in El.
    eapply mv_same; try reflexivity; [apply El|apply El|left; reflexivity].
  - cbn [kstep] in E. destruct (log_internal e) eqn:Ei; [|discriminate E]. cbn [negb] in E. destruct (lstep _ _ _) as [log|] eqn:El; [|discriminate E]. cbn [mbind option_bind] in E. injection E as <-.
    apply internal_same in El; [|exact Ei]. eapply (mv_same _ _ _ []); try reflexivity; [apply El|apply El|cbn; rewrite app_nil_r; reflexivity|left; reflexivity].
  - cbn [kstep] in E. destruct (l_apply (ks_log y)) as [|[n t] rest] eqn:Ea; [discriminate E|]. cbn [head mbind option_bind] in E. destruct (lstep _ _ _) as [log|] eqn:El; [|discriminate E]. cbn [mbind option_bind] in E.
    injection E as <-. destruct (b_log _ _ HB) as [q Hq]. cbn [lstep] in El. rewrite Ea in El. injection El as <-.
    pose proof (i_apply _ _ _ Hq) as [G1 G2]. rewrite Ea in G1, G2. pose proof (i_ord _ _ _ Hq) as (_ & _ & G3).
    eapply (mv_apply _ _ _ t); try reflexivity.
    + unfold applied. cbn [ks_log l_ntail l_apply]. rewrite Ea. cbn [length] in *. lia.
    + unfold applied, hist. rewrite Ea. cbn [length] in *.
      rewrite <- (slice_lookup _ (l_ntail (ks_log y) - S (length rest)) (l_ntail (ks_log y))) by lia. rewrite Nat.sub_diag.
      destruct (slice _ _ _) as [|t0 l]; [discriminate G2|]. cbn in G2. injection G2 as -> ->. reflexivity.
  - cbn [kstep] in E. destruct (ks_commit y) eqn:Ec; [discriminate E|]. destruct (ks_com y) eqn:Em; [discriminate E|]. destruct (lstep _ _ _) as [log|] eqn:El; [|discriminate E]. cbn [mbind option_bind] in E. injection E as <-.
    cbn [lstep] in El. destruct (l_apply (ks_log y)) as [|x l] eqn:Ea; [|discriminate El]. destruct (l_commit (ks_log y)); [discriminate El|]. destruct (_ <=? _); [|discriminate El]. injection El as <-.
    apply mv_start; try reflexivity; [exact Em| |]; unfold applied; cbn; rewrite Ea; cbn; lia.
  - cbn [kstep] in E. destruct (ks_commit y) as [[| | |]|] eqn:Ec; try discriminate E. destruct (ks_com y) as [m|] eqn:Em; [|discriminate E]. destruct (negb _); [discriminate E|].
    destruct (group_moves _ _ _ _) as [[[a hw] ents]|]; [|discriminate E]. cbn [mbind option_bind] in E. injection E as <-.
    eapply (mv_same _ _ _ []); try reflexivity; [cbn; rewrite app_nil_r; reflexivity|left; reflexivity].
  - cbn [kstep] in E. destruct (ks_commit y) as [[|hw ents| |]|] eqn:Ec; try discriminate E. destruct (hw !! i) as [[off buf]|] eqn:Ei; [|discriminate E]. cbn [mbind option_bind] in E. injection E as <-.
    eapply (mv_same _ _ _ []); try reflexivity; [cbn; rewrite app_nil_r; reflexivity|]. intros k. left. apply dpg_pages; [exact Hc|]. eapply hw_pages; try eassumption; [eapply elem_of_list_lookup_2; exact Ei|]. intros x Hx. apply torn_out, Hx.
  - cbn [kstep] in E. destruct (ks_commit y) as [[|hw ents| |]|] eqn:Ec; try discriminate E. destruct (hw !! i) as [[off buf]|] eqn:Ei; [|discriminate E]. cbn [mbind option_bind] in E.
    destruct (od_write _ _ _ _) as [d|] eqn:Ed; [|discriminate E]. cbn [mbind option_bind] in E. injection E as <-. apply od_write_Some in Ed. subst d.
    eapply (mv_same _ _ _ []); try reflexivity; [cbn; rewrite app_nil_r; reflexivity|]. intros k. left. apply dpg_pages; [exact Hc|]. eapply hw_pages; try eassumption; [eapply elem_of_list_lookup_2; exact Ei|]. intros x Hx. apply dev_write_out. lia.
  - cbn [kstep] in E. destruct (ks_commit y) as [[|hw ents| |]|] eqn:Ec; try discriminate E. destruct hw; [|discriminate E]. destruct (mapM _ _) as [idxs|]; [|discriminate E]. cbn [mbind option_bind] in E. injection E as <-.
    eapply (mv_same _ _ _ []); try reflexivity; [cbn; rewrite app_nil_r; reflexivity|left; reflexivity].
  - cbn [kstep] in E. destruct (ks_commit y) as [[| |ents todo ready|]|] eqn:Ec; try discriminate E. destruct (negb _); [discriminate E|].
    destruct (page_task _ _ _ _ _ _ _) as [[a [page|]]|]; [| |discriminate E]; cbn [mbind option_bind] in E; injection E as <-;
      (eapply (mv_same _ _ _ []); try reflexivity; [cbn; rewrite app_nil_r; reflexivity|left; reflexivity]).
  - cbn [kstep] in E. destruct (ks_commit y) as [[| |ents todo ready|]|] eqn:Ec; try discriminate E. destruct (ready !! i) as [[idx page]|] eqn:Ei; [|discriminate E]. cbn [mbind option_bind] in E.
    destruct (od_write _ _ _ _) as [d|] eqn:Ed; [|discriminate E]. cbn [mbind option_bind] in E. injection E as <-. apply od_write_Some in Ed. subst d.
    eapply (mv_same _ _ _ []); try reflexivity; [cbn; rewrite app_nil_r; reflexivity|]. intros k.
    pose proof (b_stage _ _ HB) as Hst. unfold stage_ok in Hst. rewrite Ec in Hst. destruct Hst as (_ & m & _ & _ & _ & Hrn & _ & _ & Hready). pose proof (elem_of_list_lookup_2 _ _ _ Ei) as Hin.
    destruct (Hready idx page Hin) as (Hi & Hnt & _ & Hpl & _). unfold dpg at 1 3. cbn [ks_go ks_dev]. destruct (kc_index c k) as [j|] eqn:Ej; [|left; unfold dpg; rewrite Ej; reflexivity]. cbn [mbind option_bind].
    rewrite page_write_at by exact Hpl. destruct (decide (j = idx)) as [->|Hj]; [|left; unfold dpg; rewrite Ej; reflexivity]. right.
    exists ents, todo, ready. split; [exact Ec|]. split; [|intros j [= <-]; exact Hnt]. unfold eff. rewrite Ej. cbn [mbind option_bind]. unfold epage, ready_of. rewrite Ec.
    assert ((list_to_map ready : gmap N (list N)) !! idx = Some page) as -> by (apply elem_of_list_to_map_1; [exact Hrn|exact Hin]). reflexivity.
  - cbn [kstep] in E. destruct (ks_commit y) as [[| |ents todo ready|]|] eqn:Ec; try discriminate E. destruct todo; [|discriminate E]. destruct ready; [|discriminate E].
    destruct (lstep _ _ _) as [log|] eqn:El; [|discriminate E]. cbn [mbind option_bind] in E. injection E as <-.
    cbn [lstep] in El. destruct (l_commit (ks_log y)); [|discriminate El]. cbn [mbind option_bind] in El. destruct (state_page _ _ _); [|discriminate El]. cbn [mbind option_bind] in El. injection El as <-.
    eapply (mv_same _ _ _ []); try reflexivity; [cbn; rewrite app_nil_r; reflexivity|left; reflexivity].
  - cbn [kstep] in E. destruct (ks_commit y) as [[| | |]|] eqn:Ec; try discriminate E. injection E as <-. apply mv_done; try reflexivity. exact Ec.
  - congruence.
Qed.

(** ** Paths. *)
Lemma kpath_trans c y1 y2 y3 : kpath c y1 y2 -> kpath c y2 y3 -> kpath c y1 y3.
Proof. intros H1 H2. induction H2 as [|y e y' _ IH Hv Hn E]; [exact H1|]. eapply kp_step; eassumption. Qed.
Lemma path_lost c y1 y2 : kpath c y1 y2 -> ks_lost y2 = [] -> ks_lost y1 = [].
Proof. intros H. induction H as [|y e y' _ IH Hv Hn E]; [auto|]. intros Hl. apply IH. eapply kstep_lost; eassumption. Qed.
Lemma path_si c y1 y2 : good_kconf c -> SI (NL:=False) c y1 -> kpath c y1 y2 -> ks_lost y2 = [] -> SI (NL:=False) c y2.
Proof.
  intros Hc H1 H. induction H as [|y e y' _ IH Hv Hn E]; [auto|]. intros Hl. apply (kstep_si c y e y' Hc); try assumption; [|contradiction|intros _ []]. apply IH. eapply kstep_lost; eassumption.
Qed.
(** Induction with the invariant at hand. *)
Lemma path_ind c y1 (P : kstate -> Prop) : good_kconf c -> SI (NL:=False) c y1 -> P y1 ->
  (forall y y', kpath c y1 y -> kpath c y y' -> SI (NL:=False) c y -> SI (NL:=False) c y' -> kmove c y y' -> P y -> P y') -> forall y, kpath c y1 y -> ks_lost y = [] -> P y.
Proof.
  intros Hc H1 H0 Hs y H. induction H as [|y e y' Hp IH Hv Hn E]; intros Hl; [exact H0|].
  assert (ks_lost y = []) as Hl' by (eapply kstep_lost; eassumption). pose proof (path_si c y1 y Hc H1 Hp Hl') as Hsi.
  assert (kpath c y y') as Hstep by (eapply kp_step; [apply kp_refl|exact Hv|exact Hn|exact E]).
  eapply (Hs y y'); try eassumption; [eapply path_si; eassumption|eapply step_move; eassumption|apply IH, Hl'].
Qed.
Lemma move_vals c y y' : kmove c y y' -> exists os, ks_vals y' = ks_vals y ++ os.
Proof. intros [os Ho _ _ _ _ Ev _|t _ _ _ _ _ Ev _ _|_ _ _ _ _ _ Ev _|_ _ _ _ _ _ Ev _]; [exists os; exact Ev|exists []; rewrite app_nil_r; exact Ev..]. Qed.
Lemma move_applied c y y' : kmove c y y' -> (applied y <= applied y')%nat.
Proof. intros [os _ _ _ E _ _ _|t _ _ _ E _ _ _ _|_ _ _ _ E _ _ _|_ _ _ _ E _ _ _]; lia. Qed.
Lemma path_vals c y1 y2 : good_kconf c -> SI (NL:=False) c y1 -> kpath c y1 y2 -> ks_lost y2 = [] -> exists os, ks_vals y2 = ks_vals y1 ++ os.
Proof.
  intros Hc H1. apply (path_ind c y1 (fun y2 => exists os, ks_vals y2 = ks_vals y1 ++ os) Hc H1); [exists []; rewrite app_nil_r; reflexivity|].
  intros y y' _ _ _ _ Hm [os E]. destruct (move_vals _ _ _ Hm) as [os' E']. exists (os ++ os'). rewrite E', E, app_assoc. reflexivity.
Qed.
Lemma path_applied c y1 y2 : good_kconf c -> SI (NL:=False) c y1 -> kpath c y1 y2 -> ks_lost y2 = [] -> (applied y1 <= applied y2)%nat.
Proof.
  intros Hc H1. apply (path_ind c y1 (fun y2 => applied y1 <= applied y2)%nat Hc H1); [lia|].
  intros y y' _ _ _ _ Hm IH. pose proof (move_applied _ _ _ Hm). lia.
Qed.
Lemma path_upto c y1 y2 n : good_kconf c -> SI (NL:=False) c y1 -> kpath c y1 y2 -> ks_lost y2 = [] -> (n <= applied y1)%nat -> upto c y2 n = upto c y1 n.
Proof.
  intros Hc H1 Hp Hl Hn. destruct (path_vals c y1 y2 Hc H1 Hp Hl) as [os E]. eapply upto_app; [exact E|]. pose proof (lens c y1 H1). lia.
Qed.

(** ** A read spread over three moments. *)
Section lin.
Context (c : kconf) (y1 : kstate).
Hypothesis Hc : good_kconf c.
Hypothesis H1 : SI (NL:=False) c y1.
Let n0 := length (ks_old y1).

(** The reader's map is always there. *)
Lemma old_len y : kpath c y1 y -> ks_lost y = [] -> (n0 <= length (ks_old y))%nat.
Proof using Hc H1.
  apply (path_ind c y1 (fun y => n0 <= length (ks_old y))%nat Hc H1); [unfold n0; lia|]. intros z z' _ _ _ _ [os Eo|t Eo|Eo|Eo] IH; rewrite Eo; try exact IH. rewrite app_length. lia.
Qed.
Lemma map_there y : kpath c y1 y -> ks_lost y = [] -> exists m, kv_map y n0 = Some m.
Proof using Hc H1.
  intros Hp Hl. pose proof (old_len y Hp Hl). unfold kv_map. destruct (Nat.eqb_spec n0 (length (ks_old y))) as [|Hne]; [eauto|]. apply lookup_lt_is_Some_2. lia.
Qed.
(** How it changes: as the overlay does while it is current, not at all later. *)
Lemma map_move y y' m m' : (n0 <= length (ks_old y))%nat -> kmove c y y' -> kv_map y n0 = Some m -> kv_map y' n0 = Some m' ->
  m' = m \/ exists t, n0 = length (ks_old y) /\ ks_old y' = ks_old y /\ hist y !! applied y = Some t /\ m' = overlay_insert m t /\ applied y' = S (applied y).
Proof using Type.
  intros Hle Hm E E'. unfold kv_map in E, E'.
  destruct Hm as [os Eo Eu Ec Ea En Ev Ed|t Eo Eu Ec Ea En Ev Et Ed|Eo Eu Ec Ec' Ea En Ev Ed|Eo Eu Es Ec Ea En Ev Ed]; rewrite Eo in E'.
  - left. rewrite Eu in E'. congruence.
  - destruct (Nat.eqb_spec n0 (length (ks_old y))) as [Hq|Hq]; [|left; congruence]. right. exists t. split; [exact Hq|]. split; [exact Eo|]. split; [exact Et|]. split; [congruence|exact Ea].
  - left. rewrite app_length in E'. cbn [length] in E'. destruct (Nat.eqb_spec n0 (length (ks_old y) + 1)) as [Hq|Hq].
    + destruct (Nat.eqb_spec n0 (length (ks_old y))) as [Hq'|_]; [lia|]. rewrite lookup_ge_None_2 in E by lia. discriminate E.
    + destruct (Nat.eqb_spec n0 (length (ks_old y))) as [Hq'|Hq'].
      * rewrite list_lookup_middle in E' by exact Hq'. congruence.
      * rewrite lookup_app_l in E' by lia. congruence.
  - left. rewrite Eu in E'. congruence.
Qed.
Lemma map_current y m : n0 = length (ks_old y) -> kv_map y n0 = Some m -> m = ks_unc y.
Proof using Type. intros Hq E. unfold kv_map in E. rewrite Hq, Nat.eqb_refl in E. congruence. Qed.

Definition between (y2 ya yb : kstate) : Prop := kpath c y1 ya /\ kpath c ya yb /\ kpath c yb y2.
Lemma between_step y2 y2' ya yb : between y2 ya yb -> kpath c y2 y2' -> between y2' ya yb.
Proof using Type. intros (A & B & C) D. split; [exact A|]. split; [exact B|]. eapply kpath_trans; eassumption. Qed.

Lemma klook_shows y k : SI (NL:=False) c y -> (exists raw, good_key raw /\ k = kc_key c raw) -> shows (ks_dev y) (klook c y k) (latest (upto c y (applied y)) k).
Proof using Hc.
  intros Hs (raw & Hk & ->). destruct (read_tuple_latest c y raw Hc (si_ri c y Hc Hs) Hk) as (t & E & Hsh). rewrite klook_read in E by (exact Hc || apply Hs). injection E as <-. exact Hsh.
Qed.

Lemma lin_map k : (exists raw, good_key raw /\ k = kc_key c raw) -> forall y, kpath c y1 y -> ks_lost y = [] -> forall m e, kv_map y n0 = Some m -> m !! k = Some e ->
  exists ya, between y ya ya /\ shows (ks_dev ya) e (latest (upto c ya (applied ya)) k).
Proof using Hc H1.
  intros Hk. apply (path_ind c y1 (fun y => forall m e, kv_map y n0 = Some m -> m !! k = Some e -> exists ya, between y ya ya /\ shows (ks_dev ya) e (latest (upto c ya (applied ya)) k)) Hc H1).
  - intros m e Em Ek. rewrite (map_current y1 m eq_refl Em) in Ek. exists y1. split; [split; [apply kp_refl|split; apply kp_refl]|]. pose proof (klook_shows y1 k H1 Hk) as G. unfold klook in G. rewrite Ek in G. exact G.
  - intros y y' Hp Hp' Hs Hs' Hm IH m' e Em' Ek'.
    destruct (decide (n0 = length (ks_old y'))) as [Hq|Hq].
    + exists y'. split; [split; [eapply kpath_trans; eassumption|split; apply kp_refl]|]. rewrite (map_current y' m' Hq Em') in Ek'. pose proof (klook_shows y' k Hs' Hk) as G. unfold klook in G. rewrite Ek' in G. exact G.
    + assert (n0 <= length (ks_old y))%nat as Hle.
      { destruct (Nat.le_gt_cases n0 (length (ks_old y))) as [|Hgt]; [assumption|]. exfalso. unfold kv_map in Em'. destruct (Nat.eqb_spec n0 (length (ks_old y'))) as [|_]; [contradiction|]. apply lookup_lt_Some in Em'.
        destruct Hm as [os Eo|t Eo|Eo|Eo]; rewrite Eo in *; try lia. rewrite app_length in *. cbn [length] in *. lia. }
      assert (exists m, kv_map y n0 = Some m) as [m Em].
      { unfold kv_map. destruct (Nat.eqb_spec n0 (length (ks_old y))) as [|Hne]; [eauto|]. apply lookup_lt_is_Some_2. lia. }
      destruct (map_move y y' m m' Hle Hm Em Em') as [->|(t & Hq' & Eo & _)]; [|rewrite Eo in Hq; contradiction].
      destruct (IH m e Em Ek') as (ya & Hb & Hsh). exists ya. split; [|exact Hsh]. eapply between_step; eassumption.
Qed.
Lemma map_keys k : forall y, kpath c y1 y -> ks_lost y = [] -> forall m, kv_map y n0 = Some m -> m !! k = None -> ks_unc y1 !! k = None.
Proof using Hc H1.
  intros y Hp0 Hl0. enough ((n0 <= length (ks_old y))%nat /\ forall m, kv_map y n0 = Some m -> m !! k = None -> ks_unc y1 !! k = None) as G by apply G.
  revert y Hp0 Hl0. apply (path_ind c y1 (fun y => (n0 <= length (ks_old y))%nat /\ forall m, kv_map y n0 = Some m -> m !! k = None -> ks_unc y1 !! k = None) Hc H1).
  - split; [unfold n0; lia|]. intros m Em Ek. rewrite <- (map_current y1 m eq_refl Em). exact Ek.
  - intros y y' Hp Hp' Hs Hs' Hm [Hle IH]. split; [destruct Hm as [os Eo|t Eo|Eo|Eo]; rewrite Eo; try exact Hle; rewrite app_length; lia|]. intros m' Em' Ek'.
    assert (exists m, kv_map y n0 = Some m) as [m Em] by (unfold kv_map; destruct (Nat.eqb_spec n0 (length (ks_old y))) as [|Hne]; [eauto|]; apply lookup_lt_is_Some_2; lia).
    destruct (map_move y y' m m' Hle Hm Em Em') as [->|(t & _ & _ & _ & -> & _)]; [eapply IH; eassumption|].
    apply (IH m Em). unfold overlay_insert in Ek'. apply (lookup_insert_None (M:=gmap okey)) in Ek'. apply Ek'.
Qed.

(** The entry a commit has put into a page. *)
Lemma commit_shows y m k e ents todo ready : SI (NL:=False) c y -> ks_com y = Some m -> m !! k = Some e -> ks_commit y = Some (CPages ents todo ready) ->
  (forall idx, kc_index c k = Some idx -> idx ∉ todo) -> shows (ks_dev y) (eff c y k) (latest (upto c y (l_ncommit (ks_log y))) k).
Proof using Hc.
  intros H Em Ek Ec Hnt. pose proof (s_b _ _ H) as HB. pose proof (b_stage _ _ HB) as Hst. unfold stage_ok in Hst. rewrite Ec in Hst.
  destruct Hst as (_ & m' & Em' & _ & Hok & _ & _ & Hall & _). rewrite Em in Em'. injection Em' as <-.
  destruct (com_facts c y H m k e Em Ek) as (_ & n & t & raw & v & _ & _ & _ & Ee & _ & Htv & El & _). destruct (com_index c y Hc H m k e Em Ek) as (idx & Ei & _).
  destruct (elook ents k) as [e'|] eqn:Eel; [|apply Hok in Eel; congruence]. pose proof (proj2 (proj2 Hok k) _ _ Ek Eel) as Hmv. pose proof (Hall k e' idx Eel Ei (Hnt idx Ei)) as Eeff. subst e'. rewrite El.
  destruct (eff c y k) as [[i|s o]|] eqn:Eef.
  - destruct e as [[i'|s' o']|]; cbn in Hmv; [|discriminate Hmv|discriminate Hmv]. destruct (_ <? _); [destruct Hmv as [? ?]; discriminate|]. injection Hmv as <-.
    destruct t as [k' d'|k']; [|discriminate Ee]. cbn in Ee. injection Ee as ->. destruct Htv as (_ & _ & Hi). destruct v as [v|]; [|contradiction]. destruct Hi as (-> & _). reflexivity.
  - destruct (s_vcom _ _ H m k e s o Em Ek) as (v' & Ev' & Hd).
    + unfold cur, pcom. rewrite Ec, Ei. cbn [mbind option_bind]. rewrite bool_decide_false by (apply Hnt; exact Ei). exact Eef.
    + intros b. unfold hw_of. rewrite Ec. intros Hx; inversion Hx.
    + rewrite El in Ev'. rewrite Ev'. exact Hd.
  - destruct e as [[i'|s' o']|]; cbn in Hmv; [destruct (_ <? _); [destruct Hmv as [? ?]; discriminate|discriminate]|discriminate Hmv|].
    destruct t as [k' d'|k']; [discriminate Ee|]. destruct Htv as (_ & _ & Hi). destruct v as [v|]; [contradiction|exact I].
Qed.

Lemma lin_page k : (exists raw, good_key raw /\ k = kc_key c raw) -> ks_unc y1 !! k = None -> incom y1 k = None -> forall y, kpath c y1 y -> ks_lost y = [] ->
  exists ya yb, between y ya yb /\ shows (ks_dev yb) (dpg c y k) (latest (upto c ya (applied ya)) k).
Proof using Hc H1.
  intros Hk Eu1 Ec1 y Hp0 Hl0.
  enough ((exists ya yb, between y ya yb /\ shows (ks_dev yb) (dpg c y k) (latest (upto c ya (applied ya)) k)) /\
          (incom y k = None \/ exists ya, between y ya ya /\ upto c y (l_ncommit (ks_log y)) = upto c ya (applied ya))) as G by apply G.
  revert y Hp0 Hl0. apply (path_ind c y1 (fun y => (exists ya yb, between y ya yb /\ shows (ks_dev yb) (dpg c y k) (latest (upto c ya (applied ya)) k)) /\
          (incom y k = None \/ exists ya, between y ya ya /\ upto c y (l_ncommit (ks_log y)) = upto c ya (applied ya))) Hc H1).
  - split; [|left; exact Ec1]. exists y1, y1. split; [split; [apply kp_refl|split; apply kp_refl]|]. pose proof (klook_shows y1 k H1 Hk) as G. unfold klook in G. rewrite Eu1, Ec1 in G. exact G.
  - intros y y' Hp Hp' Hs Hs' Hm [(ya & yb & Hb & Hsh) Hin]. pose proof (lens c y Hs) as [Hlen [Hn1 Hn2]].
    assert (forall z zb, between y z zb -> between y' z zb) as Hext by (intros; eapply between_step; eassumption).
    destruct Hm as [os Eo Eu Ec Ea En Ev Ed|t Eo Eu Ec Ea En Ev Et Ed|Eo Eu Ec Ec' Ea En Ev Ed|Eo Eu Es Ec Ea En Ev Ed].
    + split.
      * destruct (Ed k) as [->|(ents & todo & ready & Ecp & -> & Hnt)]; [exists ya, yb; split; [apply Hext, Hb|exact Hsh]|].
        destruct (incom y k) as [e|] eqn:Ei.
        -- destruct Hin as [|(za & Hza & Eup)]; [discriminate|]. unfold incom in Ei. destruct (ks_com y) as [m|] eqn:Em; [|discriminate Ei]. cbn [mbind option_bind] in Ei.
           exists za, y. split; [split; [apply Hza|split; [apply Hza|exact Hp']]|]. rewrite <- Eup. eapply commit_shows; eassumption.
        -- rewrite (eff_dpg c y k (s_b _ _ Hs)); [exists ya, yb; split; [apply Hext, Hb|exact Hsh]|]. intros m Em. unfold incom in Ei. rewrite Em in Ei. exact Ei.
      * destruct Hin as [Hin|(za & Hza & Eup)]; [left; unfold incom in *; rewrite Ec; exact Hin|right]. exists za. split; [apply Hext, Hza|]. rewrite En, <- Eup. eapply upto_app; [exact Ev|lia].
    + rewrite (Ed k). split; [exists ya, yb; split; [apply Hext, Hb|exact Hsh]|]. destruct Hin as [Hin|(za & Hza & Eup)]; [left; unfold incom in *; rewrite Ec; exact Hin|right].
      exists za. split; [apply Hext, Hza|]. rewrite En, <- Eup. unfold upto. rewrite Ev. reflexivity.
    + rewrite (Ed k). split; [exists ya, yb; split; [apply Hext, Hb|exact Hsh]|]. right. exists y. split; [split; [exact Hp|split; [apply kp_refl|exact Hp']]|]. rewrite En. unfold upto. rewrite Ev. reflexivity.
    + rewrite (Ed k). split; [exists ya, yb; split; [apply Hext, Hb|exact Hsh]|]. left. unfold incom. rewrite Ec. reflexivity.
Qed.

(** The tuple found denoted, at some moment during the read, the latest value as
    of some moment during the read. *)
Theorem read_tuple_lin raw y2 y3 : good_key raw -> kpath c y1 y2 -> kpath c y2 y3 -> ks_lost y3 = [] ->
  exists t ya yb, kv_read_tuple c y1 y2 y3 raw = Some t /\ between y3 ya yb /\ shows (ks_dev yb) t (latest (upto c ya (applied ya)) (kc_key c raw)).
Proof using Hc H1.
  intros Hk Hp12 Hp23 Hl3. pose proof (path_lost _ _ _ Hp23 Hl3) as Hl2. set (k := kc_key c raw). assert (exists r, good_key r /\ k = kc_key c r) as Hkr by (exists raw; auto).
  destruct (map_there y2 Hp12 Hl2) as [m Em]. unfold kv_read_tuple, kv_get, kv_clone. cbn [fst snd]. fold n0. rewrite Em. cbn [mbind option_bind]. fold k.
  assert (forall z zb, between y2 z zb -> between y3 z zb) as Hext by (intros; eapply between_step; eassumption).
  destruct (m !! k) as [e|] eqn:Ek.
  { destruct (lin_map k Hkr y2 Hp12 Hl2 m e Em Ek) as (ya & Hb & Hsh). exists e, ya, ya. split; [reflexivity|]. split; [apply Hext, Hb|exact Hsh]. }
  pose proof (map_keys k y2 Hp12 Hl2 m Em Ek) as Eu. pose proof (klook_shows y1 k H1 Hkr) as G. unfold klook in G. rewrite Eu in G. unfold incom in G.
  assert (between y3 y1 y1) as Hb1 by (split; [apply kp_refl|split; [apply kp_refl|eapply kpath_trans; eassumption]]).
  assert (incom y1 k = None -> exists t ya yb, kv_page c y3 k = Some t /\ between y3 ya yb /\ shows (ks_dev yb) t (latest (upto c ya (applied ya)) k)) as Hpage.
  { intros Ec. assert (kpath c y1 y3) as Hp13 by (eapply kpath_trans; eassumption). destruct (index_some c raw Hc) as (idx & Ei & Hi). exists (dpg c y3 k).
    destruct (lin_page k Hkr Eu Ec y3 Hp13 Hl3) as (ya & yb & Hb & Hsh). exists ya, yb. split; [|split; assumption].
    eapply page_dpg; [apply (s_b _ _ (path_si c y1 y3 Hc H1 Hp13 Hl3))|exact Ei|exact Hi]. }
  unfold incom in Hpage. destruct (ks_com y1) as [m1|] eqn:Em1; cbn [mbind option_bind] in *; [|apply Hpage; reflexivity].
  destruct (m1 !! k) as [e|] eqn:Ek1; [|apply Hpage; reflexivity]. exists e, y1, y1. split; [reflexivity|]. split; [exact Hb1|exact G].
Qed.
End lin.

(** ** If no operation on the key is applied meanwhile, the bytes stay, too. *)
Definition untouched (c : kconf) (y y' : kstate) (k : okey) : Prop :=
  forall n v, (applied y <= n < applied y')%nat -> okeyed c (ks_vals y') !! n <> Some (k, v).

Lemma move_quiet c y y' k : SI (NL:=False) c y -> SI (NL:=False) c y' -> kmove c y y' -> untouched c y y' k ->
  (forall t, applied y' = S (applied y) -> hist y !! applied y = Some t -> task_key t <> k) /\ 
  forall s o, klook c y k = Some (DHeap s o) -> klook c y' k = Some (DHeap s o).
Proof.
  intros H H' Hm Hq.
  assert (forall t, applied y' = S (applied y) -> hist y !! applied y = Some t -> task_key t <> k) as Hk.
  { intros t Ea Et Hk. destruct (hist_vals c y (b_tv _ _ (s_b _ _ H)) _ _ Et) as (raw & v & _ & _ & Eo). rewrite Hk in Eo. apply (Hq (applied y) v); [lia|].
    destruct (move_vals _ _ _ Hm) as [os ->]. unfold okeyed in *. rewrite fmap_app. apply lookup_app_l_Some, Eo. }
  split; [exact Hk|]. intros s o E. unfold klook, incom in *.
  destruct Hm as [os Eo Eu Ec Ea En Ev Ed|t Eo Eu Ec Ea En Ev Et Ed|Eo Eu Ec Ec' Ea En Ev Ed|Eo Eu Es Ec Ea En Ev Ed].
  - rewrite Eu, Ec. destruct (ks_unc y !! k) as [e|]; [exact E|]. destruct (ks_com y ≫= _) as [e|] eqn:Ei; [exact E|].
    destruct (Ed k) as [->|(ents & todo & ready & _ & -> & _)]; [exact E|]. rewrite (eff_dpg c y k (s_b _ _ H)); [exact E|]. intros m Em. rewrite Em in Ei. exact Ei.
  - rewrite Eu, Ec, Ed. unfold overlay_insert. rewrite (lookup_insert_ne (M:=gmap okey)) by (apply Hk; assumption). exact E.
  - rewrite Eu, Ec', Ed. rewrite (lookup_empty (M:=gmap okey)). cbn [mbind option_bind]. rewrite Ec in E. cbn [mbind option_bind] in E. exact E.
  - rewrite Eu, Ec, Ed. destruct (ks_unc y !! k) as [e|]; [exact E|]. cbn [mbind option_bind]. pose proof (b_stage _ _ (s_b _ _ H)) as Hst. unfold stage_ok in Hst. rewrite Es in Hst.
    destruct Hst as (_ & m & h0 & Em & _ & _ & Hall). rewrite Em in E. cbn [mbind option_bind] in E. destruct (m !! k) as [e|] eqn:Ek; [|exact E]. subst e. pose proof (Hall k _ Ek) as Hmv. cbn in Hmv.
    rewrite eff_nil in Hmv by (unfold ready_of; rewrite Es; reflexivity). exact Hmv.
Qed.

Section quiet.
Context (c : kconf) (k : okey).
Hypothesis Hc : good_kconf c.
Lemma untouched_split y1 y y' : SI (NL:=False) c y1 -> kpath c y1 y -> kpath c y y' -> ks_lost y' = [] -> untouched c y1 y' k -> untouched c y1 y k /\ untouched c y y' k.
Proof using Hc.
  intros H1 Hp Hp' Hl Hq. pose proof (path_lost _ _ _ Hp' Hl) as Hl'. pose proof (path_si c y1 y Hc H1 Hp Hl') as H. pose proof (path_applied c y1 y Hc H1 Hp Hl'). pose proof (path_applied c y y' Hc H Hp' Hl).
  split; intros n v Hn E.
  - apply (Hq n v); [lia|]. destruct (path_vals c y y' Hc H Hp' Hl) as [os ->]. unfold okeyed in *. rewrite fmap_app. apply lookup_app_l_Some, E.
  - apply (Hq n v); [lia|exact E].
Qed.
Lemma quiet_latest y1 y2 : SI (NL:=False) c y1 -> kpath c y1 y2 -> ks_lost y2 = [] -> untouched c y1 y2 k -> latest (upto c y2 (applied y2)) k = latest (upto c y1 (applied y1)) k.
Proof using Hc.
  intros H1 Hp Hl Hq. rewrite <- (path_upto c y1 y2 (applied y1) Hc H1 Hp Hl ltac:(lia)). unfold upto. apply latest_untouched; [apply (path_applied c y1 y2 Hc H1 Hp Hl)|exact Hq].
Qed.
(** Along a quiet path. *)
Lemma quiet_path y1 (P : kstate -> Prop) : SI (NL:=False) c y1 -> P y1 ->
  (forall y y', kpath c y1 y -> kpath c y y' -> SI (NL:=False) c y -> SI (NL:=False) c y' -> kmove c y y' -> untouched c y y' k -> P y -> P y') ->
  forall y, kpath c y1 y -> ks_lost y = [] -> untouched c y1 y k -> P y.
Proof using Hc.
  intros H1 H0 Hs y Hp Hl Hq. revert Hl Hq. induction Hp as [|y e y' Hp IH Hv Hn E]; intros Hl Hq; [exact H0|].
  assert (kpath c y y') as Hp' by (eapply kp_step; [apply kp_refl|exact Hv|exact Hn|exact E]). pose proof (path_lost _ _ _ Hp' Hl) as Hl'.
  destruct (untouched_split y1 y y' H1 Hp Hp' Hl Hq) as [Hq1 Hq2]. pose proof (path_si c y1 y Hc H1 Hp Hl') as H.
  eapply (Hs y y'); try eassumption; [eapply path_si; eassumption|eapply step_move; eassumption|apply IH; assumption].
Qed.
Lemma quiet_klook y1 y2 s o : SI (NL:=False) c y1 -> kpath c y1 y2 -> ks_lost y2 = [] -> untouched c y1 y2 k -> klook c y1 k = Some (DHeap s o) -> klook c y2 k = Some (DHeap s o).
Proof using Hc.
  intros H1 Hp Hl Hq E. revert y2 Hp Hl Hq. apply (quiet_path y1 (fun y => klook c y k = Some (DHeap s o)) H1); [exact E|].
  intros y y' _ _ H H' Hm Hq IH. eapply (move_quiet c y y' k); eassumption.
Qed.
Lemma quiet_overlay y1 y2 : SI (NL:=False) c y1 -> kpath c y1 y2 -> ks_lost y2 = [] -> untouched c y1 y2 k -> ks_unc y1 !! k = None -> incom y1 k = None ->
  ks_unc y2 !! k = None /\ incom y2 k = None.
Proof using Hc.
  intros H1 Hp Hl Hq Eu Ei. revert y2 Hp Hl Hq. apply (quiet_path y1 (fun y => ks_unc y !! k = None /\ incom y k = None) H1); [auto|].
  intros y y' _ _ H H' Hm Hq [IH1 IH2]. pose proof (proj1 (move_quiet c y y' k H H' Hm Hq)) as Hk. unfold incom in *.
  destruct Hm as [os Eo Eu' Ec Ea En Ev Ed|t Eo Eu' Ec Ea En Ev Et Ed|Eo Eu' Ec Ec' Ea En Ev Ed|Eo Eu' Es Ec Ea En Ev Ed]; rewrite Eu'.
  - rewrite Ec. auto.
  - rewrite Ec. split; [|exact IH2]. unfold overlay_insert. rewrite (lookup_insert_ne (M:=gmap okey)) by (apply Hk; assumption). exact IH1.
  - rewrite Ec'. split; [apply (lookup_empty (M:=gmap okey))|]. exact IH1.
  - rewrite Ec. split; [exact IH1|reflexivity].
Qed.
Lemma quiet_map y1 y2 m : SI (NL:=False) c y1 -> kpath c y1 y2 -> ks_lost y2 = [] -> untouched c y1 y2 k -> kv_map y2 (length (ks_old y1)) = Some m -> m !! k = ks_unc y1 !! k.
Proof using Hc.
  intros H1 Hp Hl Hq. revert m. enough ((length (ks_old y1) <= length (ks_old y2))%nat /\ forall m, kv_map y2 (length (ks_old y1)) = Some m -> m !! k = ks_unc y1 !! k) as G by apply G.
  revert y2 Hp Hl Hq. apply (quiet_path y1 (fun y2 => (length (ks_old y1) <= length (ks_old y2))%nat /\ forall m, kv_map y2 (length (ks_old y1)) = Some m -> m !! k = ks_unc y1 !! k) H1).
  - split; [lia|]. intros m Em. rewrite (map_current y1 y1 m eq_refl Em). reflexivity.
  - intros y y' _ _ H H' Hm Hq [Hle IH]. split; [destruct Hm as [os Eo|t Eo|Eo|Eo]; rewrite Eo; try exact Hle; rewrite app_length; lia|]. intros m' Em'.
    assert (exists m, kv_map y (length (ks_old y1)) = Some m) as [m Em] by (unfold kv_map; destruct (Nat.eqb_spec (length (ks_old y1)) (length (ks_old y))) as [|Hne]; [eauto|]; apply lookup_lt_is_Some_2; lia).
    destruct (map_move c y1 y y' m m' Hle Hm Em Em') as [->|(t & _ & _ & Et & -> & Ea)]; [apply IH, Em|].
    pose proof (proj1 (move_quiet c y y' k H H' Hm Hq) t Ea Et) as Hk. unfold overlay_insert. rewrite (lookup_insert_ne (M:=gmap okey)) by exact Hk. apply IH, Em.
Qed.
End quiet.

Lemma shows_dev d d' t v : (forall s o, t <> Some (DHeap s o)) -> shows d t v -> shows d' t v.
Proof. intros Hn. destruct t as [[i|s o]|]; [|destruct (Hn s o eq_refl)|]; intros G; exact G. Qed.

Theorem read_quiet c y1 y2 y3 y4 raw : good_kconf c -> SI (NL:=False) c y1 -> good_key raw -> kpath c y1 y2 -> kpath c y2 y3 -> kpath c y3 y4 -> ks_lost y4 = [] ->
  untouched c y1 y4 (kc_key c raw) ->
  exists t, kv_read_tuple c y1 y2 y3 raw = Some t /\ shows (ks_dev y4) t (latest (upto c y1 (applied y1)) (kc_key c raw)).
Proof.
  intros Hc H1 Hk Hp12 Hp23 Hp34 Hl4 Hq. pose proof (path_lost _ _ _ Hp34 Hl4) as Hl3. pose proof (path_lost _ _ _ Hp23 Hl3) as Hl2. set (k := kc_key c raw) in *.
  assert (exists r, good_key r /\ k = kc_key c r) as Hkr by (exists raw; auto).
  assert (kpath c y1 y3) as Hp13 by (eapply kpath_trans; eassumption). assert (kpath c y1 y4) as Hp14 by (eapply kpath_trans; eassumption).
  destruct (untouched_split c k Hc y1 y3 y4 H1 Hp13 Hp34 Hl4 Hq) as [Hq13 Hq34]. destruct (untouched_split c k Hc y1 y2 y3 H1 Hp12 Hp23 Hl3 Hq13) as [Hq12 _].
  pose proof (path_si c y1 y3 Hc H1 Hp13 Hl3) as H3. pose proof (path_si c y1 y4 Hc H1 Hp14 Hl4) as H4.
  destruct (read_tuple_lin c y1 Hc H1 raw y2 y3 Hk Hp12 Hp23 Hl3) as (t & ya & yb & E & (Hb1 & Hb2 & Hb3) & Hsh). exists t. split; [exact E|]. fold k in Hsh.
  assert (kpath c ya y3) as Hpa3 by (eapply kpath_trans; eassumption). pose proof (path_lost _ _ _ Hpa3 Hl3) as Hla.
  destruct (untouched_split c k Hc y1 ya y3 H1 Hb1 Hpa3 Hl3 Hq13) as [Hqa _]. rewrite (quiet_latest c k Hc y1 ya H1 Hb1 Hla Hqa) in Hsh.
  destruct t as [[i|s o]|]; [exact Hsh| |exact Hsh].
  assert (klook c y4 k = Some (DHeap s o)) as E4; [|rewrite <- E4, <- (quiet_latest c k Hc y1 y4 H1 Hp14 Hl4 Hq); apply klook_shows; assumption].
  destruct (map_there c y1 Hc H1 y2 Hp12 Hl2) as [m Em]. pose proof (quiet_map c k Hc y1 y2 m H1 Hp12 Hl2 Hq12 Em) as Ek.
  unfold kv_read_tuple, kv_get, kv_clone in E. cbn [fst snd] in E. rewrite Em in E. cbn [mbind option_bind] in E. fold k in E. rewrite Ek in E.
  assert (klook c y1 k = Some (DHeap s o) \/ (ks_unc y1 !! k = None /\ incom y1 k = None /\ kv_page c y3 k = Some (Some (DHeap s o)))) as [G|(Eu & Ei & G)].
  { unfold klook. destruct (ks_unc y1 !! k) as [e|]; [left; congruence|]. change (ks_com y1 ≫= (fun m0 => m0 !! k)) with (incom y1 k) in E. destruct (incom y1 k) as [e|]; [left; congruence|]. right. auto. }
  - eapply (quiet_klook c k Hc y1 y4); eassumption.
  - eapply (quiet_klook c k Hc y3 y4); try eassumption. destruct (quiet_overlay c k Hc y1 y3 H1 Hp13 Hl3 Hq13 Eu Ei) as [Eu3 Ei3]. unfold klook. rewrite Eu3, Ei3.
    destruct (index_some c raw Hc) as (idx & Eix & Hix). rewrite (page_dpg c y3 k idx (s_b _ _ H3) Eix Hix) in G. congruence.
Qed.
