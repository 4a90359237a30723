(** Steps of the store: clients, log, completer. *)
From Coq Require Import ZifyBool ZifyNat ZifyN.
From stdpp Require Import base numbers list_numbers option gmap sets fin_maps list.
From Verif Require Import Util Bytes PageIOModel PageIOProofs PageIOWrite BuddyModel KvAllocModel KvAllocSpec KvAllocProofs KvAllocInv
  KvCodecModel KvCodecSpec KvCodecProofs KvReadModel PropertiesKvRead KvLogModel KvLogSpec KvLogProofs KvLogSys KvLogInv KvStoreModel KvStoreSpec KvStoreInv KvStoreFrame.
Open Scope N_scope.
Ltac Zify.zify_post_hook ::= idtac.

Lemma good_key_valid c raw : good_kconf c -> good_key raw -> valid_key (kc_key c raw) /\ nonempty_key (kc_key c raw).
Proof.
  intros Hc [Hne Hb]. unfold kc_key, key_from_raw. destruct (N.leb_spec (N.of_nat (length raw)) 32) as [Hl|Hl].
  - split; [split; [lia|exact Hb]|]. destruct raw; [contradiction|exact I].
  - split; [|exact I]. apply (gk_blake _ Hc).
Qed.
Lemma torn_out d off buf v x : ~ (off <= x < off + N.of_nat (length buf)) -> torn d off buf v x = d x.
Proof. intros H. unfold torn, in_range. destruct (N.leb_spec off x), (N.ltb_spec x (off + N.of_nat (length buf))); try reflexivity. exfalso; apply H; lia. Qed.
Lemma od_write_Some spage d off buf d' : od_write spage d off buf = Some d' -> d' = dev_write d off buf.
Proof. unfold od_write. destruct (_ && _); [|discriminate]. intros [= <-]. reflexivity. Qed.
Lemma write_denotes d off val junk : denotes (dev_write d off (val ++ junk)) (DHeap (N.of_nat (length val)) off) val.
Proof.
  split; [reflexivity|]. intros i b Hi. apply dev_write_in; [lia|]. replace (N.to_nat (off + N.of_nat i - off)) with i by lia.
  rewrite lookup_app_l by (eapply lookup_lt_Some; exact Hi). exact Hi.
Qed.

Section steps.
Context {NL : Prop} (c : kconf) (y : kstate).
Hypothesis Hc : good_kconf c.
Hypothesis H : SI (NL:=NL) c y.

Lemma cur_owner k s o : cur c y k = Some (DHeap s o) -> exists t, ow c y t = Some (o, s) /\ (t = OCom k \/ (t = OKey k /\ pcom c y k = None)).
Proof using Type.
  unfold cur. destruct (pcom c y k) as [e|] eqn:E.
  - intros ->. exists (OCom k). split; [cbn; rewrite E; reflexivity|]. left; reflexivity.
  - intros E'. exists (OKey k). split; [cbn; rewrite E'; reflexivity|]. right; auto.
Qed.

(** A change inside the extent of [t0] keeps what others own. *)
Lemma keeps_within d' t0 e0 : ow c y t0 = Some e0 -> (forall x, ~ extent_bytes (kc_spage c) e0 x -> d' x = ks_dev y x) -> keeps c y d' (Some t0).
Proof using Hc H.
  intros E0 Hd t e v Ht E Hv. destruct (s_own _ _ H) as (live & total & HK & Hl & Hi & _).
  eapply (denotes_other c Hc); [exact HK|eapply Hl; exact E0|eapply Hl; exact E| |exact Hd|exact Hv].
  intros ->. apply Ht. f_equal. eapply Hi; eassumption.
Qed.
Lemma pages_within d' t0 e0 : ow c y t0 = Some e0 -> (forall x, ~ extent_bytes (kc_spage c) e0 x -> d' x = ks_dev y x) ->
  forall idx, idx < kc_pages c -> page_at c d' idx = page_at c (ks_dev y) idx.
Proof using Hc H.
  intros E0 Hd idx Hi. destruct (s_own _ _ H) as (live & total & HK & Hl & _). eapply (page_other c Hc); [|exact Hi|exact Hd].
  eapply (live_placed c Hc); [exact HK|]. eapply Hl; exact E0.
Qed.

Lemma lens : length (hist y) = length (ks_vals y) /\ (l_ncommit (ks_log y) <= applied y <= length (hist y))%nat.
Proof using H.
  pose proof (s_b _ _ H) as HB. split; [apply (Forall2_length (tv c)), HB|]. pose proof (applied_le c y HB). pose proof (b_apply _ _ HB). lia.
Qed.

Section set.
Context (log : lstate) (d : device) (a : KvAlloc) (ws : list kwrite) (vals : list (list N * option (list N))).
Let y' := ks_set y log d a ws vals.
Hypothesis Hp : forall idx, idx < kc_pages c -> page_at c d idx = page_at c (ks_dev y) idx.
Lemma set_epage idx : idx < kc_pages c -> epage c y' idx = epage c y idx.
Proof using Hp. intros Hi. unfold epage, ready_of. cbn [y' ks_set ks_commit ks_dev]. rewrite (Hp idx Hi). reflexivity. Qed.
Lemma set_eff k : eff c y' k = eff c y k.
Proof using Hc Hp. unfold eff. destruct (kc_index c k) as [idx|] eqn:Ei; [|reflexivity]. cbn [mbind option_bind]. rewrite set_epage by (eapply index_bound; eassumption). reflexivity. Qed.
Lemma set_dpg k : dpg c y' k = dpg c y k.
Proof using Hc Hp. unfold dpg. destruct (kc_index c k) as [idx|] eqn:Ei; [|reflexivity]. cbn [mbind option_bind y' ks_set ks_dev]. rewrite Hp by (eapply index_bound; eassumption). reflexivity. Qed.
Lemma set_pcom k : pcom c y' k = pcom c y k.
Proof using Type. reflexivity. Qed.
Lemma set_pth k e : pth c y' k e <-> pth c y k e.
Proof using Hc Hp. unfold pth. rewrite set_dpg, set_eff, set_pcom. reflexivity. Qed.
Lemma set_ow t : (forall n, t <> OLog n) -> (forall i, t <> OWr i) -> ow c y' t = ow c y t.
Proof using Hc Hp. intros H1 H2. destruct t as [k|k|n|i]; cbn; [rewrite set_eff|rewrite set_pcom|destruct (H1 n)|destruct (H2 i)]; reflexivity. Qed.

Lemma step_set ts os t0 : (exists q, linv (kc_log c) log q) -> logsame (ks_log y) log ts -> vals = ks_vals y ++ os -> Forall2 (tv c) ts os ->
  keeps c y d t0 -> (t0 = None \/ exists i, t0 = Some (OWr i)) ->
  (forall n k s o raw v, ts !! n = Some (TUpsert k (DHeap s o)) -> os !! n = Some (raw, Some v) -> denotes d (DHeap s o) v) ->
  (exists live total, KIc c a live total /\ owned (NL:=NL) (ow c y') live) -> Forall (kw_ok c d) ws -> SI (NL:=NL) c y'.
Proof using Hc H Hp.
  intros Hl Hs Hv Htv Hk Ht0 Hnew Hown Hws. pose proof lens as [Hlen [Hn1 Hn2]]. pose proof (s_b _ _ H) as HB.
  assert (forall t, (forall i, t <> OWr i) -> Some t <> t0) as Hne.
  { intros t Hi Et. destruct Ht0 as [E|(i & E)]; rewrite E in Et; [discriminate Et|]. injection Et as ->. apply (Hi i). reflexivity. }
  constructor.
  - eapply (frame_BI c y y' ts os t0); try eassumption; try reflexivity.
    + intros k. apply set_eff.
    + apply (stage_log c y log d a ws vals ts); try assumption; [apply HB|lia].
    + intros idx Hi. cbn [y' ks_set ks_dev]. rewrite (Hp idx Hi). apply HB, Hi.
    + intros n E. apply (Hne (OLog n)); [discriminate|symmetry; exact E].
    + intros k E. apply (Hne (OKey k)); [discriminate|symmetry; exact E].
  - intros m k e s o Em Ek Ec Hhw. assert (cur c y k = Some (DHeap s o)) as Ec' by (revert Ec; unfold cur; rewrite set_pcom, set_eff; auto).
    destruct (s_vcom _ _ H m k e s o Em Ek Ec' Hhw) as (v & Ev & Hd). exists v. split.
    + assert (l_ncommit (ks_log y') = l_ncommit (ks_log y)) as -> by apply Hs. rewrite (upto_app c y y' os); [exact Ev|exact Hv|lia].
    + destruct (cur_owner k s o Ec') as (t & Et & Ht). apply (Hk t (o, s) v); [apply Hne; destruct Ht as [->|[-> _]]; discriminate|exact Et|exact Hd].
  - exact Hown.
  - intros k e He. apply set_pth in He. eapply (s_placed _ _ H); exact He.
  - intros k k' e e' Hkk He He'. apply set_pth in He, He'. eapply (s_disj _ _ H); eassumption.
  - exact Hws.
Qed.
End set.

Lemma linv_step e log : valid_levent (kc_log c) e -> lstep (kc_log c) (ks_log y) e = Some log -> exists q, linv (kc_log c) log q.
Proof using Hc H. intros He E. destruct (b_log _ _ (s_b _ _ H)) as [q Hq]. eapply lstep_linv; [apply (gk_log _ Hc)|exact He|exact Hq|exact E]. Qed.

Lemma own_inline log vals ts : logsame (ks_log y) log ts -> Forall (fun t => ext_of (task_entry t) = None) ts ->
  forall t, ow c (ks_set y log (ks_dev y) (ks_alloc y) (ks_writes y) vals) t = ow c y t.
Proof using Hc.
  intros [L1 L2 L3 L4 L5] Hts t. destruct t as [k|k|n|i]; [rewrite set_ow; [reflexivity|reflexivity|discriminate|discriminate]..| |reflexivity].
  cbn [ow ks_set ks_log]. rewrite L3, L1. destruct (Nat.leb_spec (l_ncommit (ks_log y)) n); [|reflexivity].
  destruct (l_hist (ks_log y) !! n) as [t|] eqn:E; [rewrite (lookup_app_l_Some _ _ _ _ E); reflexivity|].
  rewrite lookup_app_r by (apply lookup_ge_None in E; exact E). destruct (ts !! _) as [t|] eqn:Et; [|reflexivity]. cbn [mbind option_bind].
  rewrite Forall_lookup in Hts. apply (Hts _ _ Et).
Qed.

Lemma si_inline raw v t log : good_key raw -> t = match v with Some v => TUpsert (kc_key c raw) (DInline v) | None => TDelete (kc_key c raw) end ->
  (forall w, v = Some w -> N.of_nat (length w) <= 2 ^ 24 /\ Forall is_byte w) ->
  lstep (kc_log c) (ks_log y) (ERecv t) = Some log -> SI (NL:=NL) c (ks_set y log (ks_dev y) (ks_alloc y) (ks_writes y) (ks_vals y ++ [(raw, v)])).
Proof using Hc H.
  intros Hk Et Hv E. destruct (good_key_valid c raw Hc Hk) as [Hk1 _].
  pose proof (recv_same _ _ _ _ E) as Hs.
  apply (step_set _ _ _ _ _ ltac:(reflexivity) [t] [(raw, v)] None); try assumption; try reflexivity.
  - eapply linv_step; [|exact E]. subst t. destruct v as [v|]; [|exact Hk1]. destruct (Hv v eq_refl). split; [exact Hk1|]. split; [|assumption].
    clear -H0. change (2 ^ 24) with 16777216 in H0. change (2 ^ 32) with 4294967296. lia.
  - constructor; [|constructor]. subst t. destruct v as [v|]; (split; [reflexivity|]); (split; [exact Hk|]); [|exact I]. split; [reflexivity|]. apply Hv. reflexivity.
  - apply keeps_refl.
  - left; reflexivity.
  - intros n k s o raw' v' E1 _. apply list_lookup_singleton_Some in E1 as [_ E1]. subst t. destruct v; discriminate E1.
  - destruct (s_own _ _ H) as (live & total & HK & Ho). exists live, total. split; [exact HK|]. eapply owned_ext; [exact Ho|].
    apply (own_inline log _ [t] Hs). constructor; [|constructor]. subst t. destruct v; reflexivity.
  - apply H.
Qed.

Lemma si_log e log : log_internal e = true -> valid_levent (kc_log c) e -> lstep (kc_log c) (ks_log y) e = Some log ->
  SI (NL:=NL) c (ks_set y log (ks_dev y) (ks_alloc y) (ks_writes y) (ks_vals y)).
Proof using Hc H.
  intros Hi He E. pose proof (internal_same _ _ _ _ Hi E) as Hs.
  apply (step_set _ _ _ _ _ ltac:(reflexivity) [] [] None); try assumption; try reflexivity.
  - eapply linv_step; eassumption.
  - rewrite app_nil_r. reflexivity.
  - constructor.
  - apply keeps_refl.
  - left; reflexivity.
  - intros n k s o raw' v' E1 _. discriminate E1.
  - destruct (s_own _ _ H) as (live & total & HK & Ho). exists live, total. split; [exact HK|]. eapply owned_ext; [exact Ho|].
    apply (own_inline log _ [] Hs). constructor.
  - apply H.
Qed.

Lemma si_write_heap raw val junk a off : good_key raw -> Forall is_byte val -> 0 < N.of_nat (length val) <= 2 ^ 24 ->
  kv_allocate (ks_alloc y) (N.of_nat (length val)) = Ok (a, off) ->
  N.of_nat (length junk) = N.max (kc_psize c) (ceil_pow2 (N.of_nat (length val)) (kc_spage c)) ->
  SI (NL:=NL) c (ks_set y (ks_log y) (ks_dev y) a
          (ks_writes y ++ [{| kw_key := raw; kw_val := val; kw_off := off; kw_buf := val ++ drop (length val) junk; kw_done := false |}]) (ks_vals y)).
Proof using Hc H.
  intros Hk Hb Hs Ea Hj. pose proof (good_spage c Hc) as ([Hsp1 Hsl] & H63 & H9).
  apply (step_set _ _ _ _ _ ltac:(reflexivity) [] [] None); try reflexivity.
  - apply (s_b _ _ H).
  - apply logsame_refl.
  - rewrite app_nil_r. reflexivity.
  - constructor.
  - apply keeps_refl.
  - left; reflexivity.
  - intros n k s o raw' v' E1 _. discriminate E1.
  - destruct (s_own _ _ H) as (live & total & HK & Ho).
    destruct (allocate_ki _ _ _ _ Hsp1 H63 _ _ _ _ _ _ HK (proj1 Hs) Ea) as (HK' & Hw & Hd). eexists _, _. split; [exact HK'|].
    eapply (owned_new (ow c y) _ _ (OWr (length (ks_writes y)))); [exact Ho|eapply fresh_live; eassumption| | |].
    + cbn [ow ks_set ks_writes]. rewrite list_lookup_middle by reflexivity. reflexivity.
    + cbn [ow]. rewrite lookup_ge_None_2 by lia. reflexivity.
    + intros t Ht. destruct t as [k|k|n|i]; [rewrite set_ow; [reflexivity|reflexivity|discriminate|discriminate]..|reflexivity|].
      cbn [ow ks_set ks_writes]. destruct (decide (i < length (ks_writes y))%nat) as [Hi|Hi].
      * rewrite lookup_app_l by exact Hi. reflexivity.
      * rewrite (lookup_ge_None_2 (ks_writes y)) by lia. rewrite lookup_ge_None_2; [reflexivity|]. rewrite app_length. cbn [length].
        assert (i <> length (ks_writes y)) by congruence. lia.
  - apply Forall_app. split; [apply H|]. constructor; [|constructor]. unfold kw_ok. cbn [kw_key kw_val kw_buf kw_done kw_off].
    split; [exact Hk|]. split; [exact Hb|]. split; [exact Hs|]. split; [eexists; reflexivity|]. split; [|discriminate].
    rewrite app_length, drop_length. pose proof (ceil_pow2_ge (N.of_nat (length val)) (kc_spage c)) as Hge.
    assert (kc_psize c <= ceil_pow2 (N.of_nat (length val)) (kc_spage c)) as Hle.
    { unfold kc_psize. pose proof (ceil_pow2_mult (N.of_nat (length val)) (kc_spage c)) as Hm. apply N.mod_divide in Hm as [q Hq]; [|apply pow2_nz]. rewrite Hq in *.
      assert (q <> 0) by (intros ->; clear -Hge Hs; lia). clear -H0. revert H0. generalize (2 ^ kc_spage c). intros; nia. }
    rewrite N.max_r in Hj by exact Hle. clear -Hj Hge. lia.
Qed.

Lemma wr_owner i w : ks_writes y !! i = Some w -> ow c y (OWr i) = Some (kw_off w, N.of_nat (length (kw_val w))).
Proof using Type. intros E. cbn. rewrite E. reflexivity. Qed.
Lemma wr_ok i w : ks_writes y !! i = Some w -> kw_ok c (ks_dev y) w.
Proof using H. intros E. pose proof (s_writes _ _ H) as Hw. rewrite Forall_lookup in Hw. apply (Hw _ _ E). Qed.

(** A write's own device accesses. *)
Lemma si_write_dev i w d w' : ks_writes y !! i = Some w -> (forall x, ~ (kw_off w <= x < kw_off w + N.of_nat (length (kw_buf w))) -> d x = ks_dev y x) ->
  kw_key w' = kw_key w -> kw_val w' = kw_val w -> kw_off w' = kw_off w -> kw_ok c d w' ->
  SI (NL:=NL) c (ks_set y (ks_log y) d (ks_alloc y) (<[i := w']> (ks_writes y)) (ks_vals y)).
Proof using Hc H.
  intros E Hd Ek Ev Eo Hok. pose proof (wr_ok i w E) as (_ & _ & _ & _ & Hlen & _). pose proof (wr_owner i w E) as Eow.
  assert (forall x, ~ extent_bytes (kc_spage c) (kw_off w, N.of_nat (length (kw_val w))) x -> d x = ks_dev y x) as Hd'.
  { intros x Hx. apply Hd. rewrite Hlen. rewrite ext_bytes_ceil in Hx. exact Hx. }
  assert (keeps c y d (Some (OWr i))) as Hkp by (eapply keeps_within; eassumption).
  apply (step_set _ _ _ _ _ ltac:(eapply pages_within; eassumption) [] [] (Some (OWr i))); try reflexivity.
  - apply (s_b _ _ H).
  - apply logsame_refl.
  - rewrite app_nil_r. reflexivity.
  - constructor.
  - exact Hkp.
  - right. eauto.
  - intros n k s o raw' v' E1 _. discriminate E1.
  - destruct (s_own _ _ H) as (live & total & HK & Ho). exists live, total. split; [exact HK|]. eapply owned_ext; [exact Ho|].
    intros t. destruct t as [k|k|n|j]; [rewrite set_ow; [reflexivity|eapply pages_within; eassumption|discriminate|discriminate]..|reflexivity|].
    cbn [ow ks_set ks_writes]. destruct (decide (j = i)) as [->|Hne].
    + rewrite list_lookup_insert by (eapply lookup_lt_Some; exact E). rewrite E. cbn [mbind option_bind]. rewrite Ev, Eo. reflexivity.
    + rewrite list_lookup_insert_ne by congruence. reflexivity.
  - apply Forall_lookup. intros j w2 Ej. destruct (decide (j = i)) as [->|Hne].
    + rewrite list_lookup_insert in Ej by (eapply lookup_lt_Some; exact E). injection Ej as <-. exact Hok.
    + rewrite list_lookup_insert_ne in Ej by congruence. destruct (wr_ok j w2 Ej) as (W1 & W2 & W3 & W4 & W5 & W6).
      split; [exact W1|]. split; [exact W2|]. split; [exact W3|]. split; [exact W4|]. split; [exact W5|]. intros Hdn.
      apply (Hkp (OWr j) (kw_off w2, N.of_nat (length (kw_val w2))) (kw_val w2)); [congruence|apply wr_owner; exact Ej|apply W6; exact Hdn].
Qed.

Lemma si_write_torn i w v : ks_writes y !! i = Some w -> kw_done w = false ->
  SI (NL:=NL) c (ks_set y (ks_log y) (torn (ks_dev y) (kw_off w) (kw_buf w) v) (ks_alloc y) (ks_writes y) (ks_vals y)).
Proof using Hc H.
  intros E Hd. rewrite <- (list_insert_id (ks_writes y) i w E). apply (si_write_dev i w); try reflexivity; [exact E| |].
  - intros x Hx. apply torn_out, Hx.
  - destruct (wr_ok i w E) as (W1 & W2 & W3 & W4 & W5 & W6). split; [exact W1|]. split; [exact W2|]. split; [exact W3|]. split; [exact W4|]. split; [exact W5|]. congruence.
Qed.
Lemma si_write_done i w d : ks_writes y !! i = Some w -> od_write (kc_spage c) (ks_dev y) (kw_off w) (kw_buf w) = Some d ->
  SI (NL:=NL) c (ks_set y (ks_log y) d (ks_alloc y)
    (<[i := {| kw_key := kw_key w; kw_val := kw_val w; kw_off := kw_off w; kw_buf := kw_buf w; kw_done := true |}]> (ks_writes y)) (ks_vals y)).
Proof using Hc H.
  intros E Ed. apply od_write_Some in Ed. subst d. apply (si_write_dev i w); try reflexivity; [exact E| |].
  - intros x Hx. apply dev_write_out. lia.
  - destruct (wr_ok i w E) as (W1 & W2 & W3 & W4 & W5 & W6). split; [exact W1|]. split; [exact W2|]. split; [exact W3|]. split; [exact W4|]. split; [exact W5|].
    intros _. cbn [kw_val kw_off]. destruct W4 as [junk ->]. apply write_denotes.
Qed.

Lemma si_write_send i w log : ks_writes y !! i = Some w -> kw_done w = true ->
  lstep (kc_log c) (ks_log y) (ERecv (TUpsert (kc_key c (kw_key w)) (DHeap (N.of_nat (length (kw_val w))) (kw_off w)))) = Some log ->
  SI (NL:=NL) c (ks_set y log (ks_dev y) (ks_alloc y) (delete i (ks_writes y)) (ks_vals y ++ [(kw_key w, Some (kw_val w))])).
Proof using Hc H.
  intros E Hdn El. destruct (wr_ok i w E) as (W1 & W2 & W3 & W4 & W5 & W6). destruct (good_key_valid c _ Hc W1) as [Hk1 _].
  pose proof (recv_same _ _ _ _ El) as Hs. destruct (s_own _ _ H) as (live & total & HK & Ho).
  assert (placed c (kw_off w, N.of_nat (length (kw_val w)))) as Hpl by (eapply live_placed; [exact Hc|exact HK|eapply (proj1 Ho), wr_owner; exact E]).
  apply (step_set _ _ _ _ _ ltac:(reflexivity) [TUpsert (kc_key c (kw_key w)) (DHeap (N.of_nat (length (kw_val w))) (kw_off w))] [(kw_key w, Some (kw_val w))] None);
    try assumption; try reflexivity.
  - eapply linv_step; [|exact El]. cbn [valid_levent valid_task valid_data]. split; [exact Hk1|]. destruct (placed_addr c Hc _ Hpl) as (P1 & P2 & _). cbn [fst] in *.
    split; [clear -W3; lia|auto].
  - constructor; [|constructor]. split; [reflexivity|]. split; [exact W1|]. reflexivity.
  - apply keeps_refl.
  - left; reflexivity.
  - intros n k s o raw' v' E1 E2. apply list_lookup_singleton_Some in E1 as [_ E1]. apply list_lookup_singleton_Some in E2 as [_ E2]. injection E1 as <- <- <-. injection E2 as <- <-. apply W6, Hdn.
  - exists live, total. split; [exact HK|]. destruct Hs as [L1 L2 L3 L4 L5].
    apply (owned_map (ow c y) _ live (fun t t0 => match t with
       | OLog n => if decide (n = length (hist y)) then t0 = OWr i else t0 = OLog n
       | OWr j => t0 = OWr (if decide (j < i)%nat then j else S j)
       | _ => t0 = t end)); [exact Ho| | |].
    + intros t e Ee. destruct t as [k|k|n|j].
      * exists (OKey k). split; [reflexivity|]. rewrite set_ow in Ee by (reflexivity || discriminate). exact Ee.
      * exists (OCom k). split; [reflexivity|exact Ee].
      * cbn [ow ks_set ks_log] in Ee. rewrite L1, L3 in Ee. destruct (decide (n = length (hist y))) as [->|Hne].
        -- exists (OWr i). split; [reflexivity|]. rewrite (wr_owner i w E). unfold hist in Ee. rewrite list_lookup_middle in Ee by reflexivity.
           destruct (_ <=? _)%nat; [|discriminate Ee]. cbn in Ee. exact Ee.
        -- exists (OLog n). split; [reflexivity|]. cbn [ow]. destruct (_ <=? _)%nat; [|discriminate Ee].
           destruct (decide (n < length (hist y))%nat) as [Hlt|Hge]; [rewrite lookup_app_l in Ee by exact Hlt; exact Ee|].
           exfalso. rewrite lookup_ge_None_2 in Ee; [discriminate Ee|]. rewrite app_length. cbn [length]. unfold hist in *. lia.
      * cbn [ow ks_set ks_writes] in Ee. exists (OWr (if decide (j < i)%nat then j else S j)). split; [reflexivity|]. cbn [ow].
        destruct (decide (j < i)%nat); [rewrite lookup_delete_lt in Ee by assumption|rewrite lookup_delete_ge in Ee by lia]; exact Ee.
    + intros t1 t2 t0 E1 E2. destruct t1 as [k1|k1|n1|j1], t2 as [k2|k2|n2|j2];
        repeat match goal with H : context [decide ?P] |- _ => destruct (decide P) end; subst; try congruence; try discriminate E2; try (injection E2 as E2); try lia; f_equal; lia.
    + intros _ t0 e Ee. destruct t0 as [k|k|n|j].
      * exists (OKey k). rewrite set_ow by (reflexivity || discriminate). exact Ee.
      * exists (OCom k). exact Ee.
      * exists (OLog n). cbn [ow ks_set ks_log] in *. rewrite L1, L3. destruct (_ <=? _)%nat; [|discriminate Ee].
        destruct (l_hist (ks_log y) !! n) as [t|] eqn:Et; [|discriminate Ee]. rewrite (lookup_app_l_Some _ _ _ _ Et). exact Ee.
      * destruct (decide (j = i)) as [->|Hne].
        -- exists (OLog (length (hist y))). cbn [ow ks_set ks_log]. rewrite L1, L3. destruct (Nat.leb_spec (l_ncommit (ks_log y)) (length (hist y))) as [_|Hx].
           ++ unfold hist. rewrite list_lookup_middle by reflexivity. cbn. rewrite (wr_owner i w E) in Ee. exact Ee.
           ++ pose proof lens as [_ [Hn1 Hn2]]. lia.
        -- exists (OWr (if decide (j < i)%nat then j else pred j)). cbn [ow ks_set ks_writes] in *. destruct (decide (j < i)%nat) as [Hj|Hj].
           ++ rewrite lookup_delete_lt by exact Hj. exact Ee.
           ++ rewrite lookup_delete_ge by lia. replace (S (pred j)) with j by lia. exact Ee.
  - apply Forall_delete, H.
Qed.
(** The completer. *)
Lemma si_apply n t log : head (l_apply (ks_log y)) = Some (n, t) -> lstep (kc_log c) (ks_log y) EApply = Some log ->
  SI (NL:=NL) c {| ks_log := log; ks_dev := ks_dev y; ks_alloc := ks_alloc y; ks_unc := overlay_insert (ks_unc y) t; ks_com := ks_com y;
          ks_commit := ks_commit y; ks_writes := ks_writes y; ks_vals := ks_vals y; ks_lost := ks_lost y; ks_old := ks_old y |}.
Proof using Hc H.
  intros Eh E. pose proof (linv_step EApply log I E) as Hl. pose proof lens as [Hlen [Hn1 Hn2]]. pose proof (s_b _ _ H) as HB.
  destruct (b_log _ _ HB) as [q Hq]. cbn [lstep] in E. destruct (l_apply (ks_log y)) as [|[n' t'] rest] eqn:Ea; [discriminate E|].
  cbn in Eh. injection Eh as -> ->. injection E as E.
  assert (applied y < length (hist y))%nat as Hap.
  { pose proof (i_ord _ _ _ Hq). pose proof (i_apply _ _ _ Hq) as [G _]. rewrite Ea in G. unfold applied, hist. rewrite Ea. cbn [length] in *. lia. }
  assert (hist y !! applied y = Some t) as Et.
  { pose proof (i_apply _ _ _ Hq) as [G1 G2]. rewrite Ea in G1, G2. pose proof (i_ord _ _ _ Hq) as (_ & _ & G3). unfold applied, hist. rewrite Ea. cbn [length] in *.
    rewrite <- (slice_lookup _ (l_ntail (ks_log y) - S (length rest)) (l_ntail (ks_log y))) by lia. rewrite Nat.sub_diag.
    destruct (slice _ _ _) as [|t0 l]; [discriminate G2|]. cbn in G2. injection G2 as -> ->. reflexivity. }
  set (y' := Build_kstate _ _ _ _ _ _ _ _ _ _).
  assert (l_hist log = l_hist (ks_log y) /\ l_nhead log = l_nhead (ks_log y) /\ l_ncommit log = l_ncommit (ks_log y) /\ l_commit log = l_commit (ks_log y)) as (L1 & L2 & L3 & L4) by (subst log; auto).
  assert (applied y' = S (applied y)) as Ea'.
  { unfold applied, y'. cbn [ks_log]. pose proof (i_apply _ _ _ Hq) as [G1 _]. rewrite Ea in *. subst log. cbn [l_ntail l_apply length] in *. lia. }
  assert (forall t0, ow c y' t0 = ow c y t0) as Eow.
  { intros [k|k|m|i]; try reflexivity. cbn [ow]. unfold y'. cbn [ks_log]. rewrite L1, L3. reflexivity. }
  constructor; [constructor| | | | |].
  - exact Hl.
  - unfold hist, y'. cbn [ks_log ks_vals]. rewrite L1. apply HB.
  - rewrite Ea'. unfold y'. cbn [ks_log]. rewrite L3. lia.
  - rewrite Ea'. unfold hist, y'. cbn [ks_log ks_unc]. rewrite L1, L3, (b_unc _ _ HB).
    rewrite <- (slice_app _ (l_ncommit (ks_log y)) (applied y) (S (applied y))) by lia. replace (slice (l_hist (ks_log y)) (applied y) (S (applied y))) with [t].
    + rewrite mapfold_snoc. reflexivity.
    + unfold slice. replace (S (applied y) - applied y)%nat with 1%nat by lia. rewrite (drop_S _ t) by exact Et. reflexivity.
  - pose proof (b_stage _ _ HB) as Hst. unfold stage_ok in *. unfold hist, y' in *. cbn [ks_log ks_commit ks_com ks_dev]. rewrite L1, L2, L3, L4. exact Hst.
  - apply HB.
  - intros m k s o raw v Hm Eh Hlast Ev. rewrite Ea' in Hlast. unfold last_op, hist, y' in *. cbn [ks_log ks_vals ks_dev] in *. rewrite L1 in *. rewrite L3 in Hm. eapply (b_vlog _ _ HB); try eassumption.
    intros j t0 Hj Ej. apply (Hlast j t0); [lia|exact Ej].
  - intros k Eu Em. unfold y' in Eu, Em. cbn [ks_unc ks_com] in Eu, Em. unfold overlay_insert in Eu.
    destruct (decide (task_key t = k)) as [Hk|Hne]; [rewrite Hk, (lookup_insert (M:=gmap okey)) in Eu; discriminate Eu|]. rewrite (lookup_insert_ne (M:=gmap okey)) in Eu by exact Hne.
    rewrite Ea'. assert (latest (upto c y' (S (applied y))) k = latest (upto c y (applied y)) k) as ->; [|apply (b_vpage _ _ HB k Eu Em)].
    destruct (hist_vals c y (b_tv _ _ HB) _ _ Et) as (raw & v & _ & _ & Eo). unfold upto, y'. cbn [ks_vals]. rewrite (latest_take_S _ _ _ _ _ Eo).
    rewrite bool_decide_false by exact Hne. reflexivity.
  - intros m k e s o Em Ek Ec Hhw. assert (l_ncommit (ks_log y') = l_ncommit (ks_log y)) as -> by exact L3. exact (s_vcom _ _ H m k e s o Em Ek Ec Hhw).
  - destruct (s_own _ _ H) as (live & total & HK & Ho). exists live, total. split; [exact HK|]. eapply owned_ext; [exact Ho|exact Eow].
  - exact (s_placed _ _ H).
  - exact (s_disj _ _ H).
  - exact (s_writes _ _ H).
Qed.
End steps.
