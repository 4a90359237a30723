(** The adapters of the benchmark keep the contract of C64: invariants. *)
From Coq Require Import ZifyBool ZifyNat ZifyN.
From stdpp Require Import base numbers option gmap functions sorting list.
From Verif Require Import Util Bytes TokenModel TokenProofs StoreModel StoreSpec.
Open Scope N_scope.
Ltac Zify.zify_post_hook ::= idtac.

Lemma contract_by_invariant {S} (A : adapter S) s0 chunk (ok : kstate -> sop -> Prop) (good : kstate -> sop -> sans -> Prop) (I : S -> (list N -> kstate) -> Prop) :
  I s0 (fun _ => KAbsent) ->
  (forall s F op, I s F -> allowed chunk (F (op_key op)) op -> ok (F (op_key op)) op ->
     (exists out, A s op out) /\
     forall out, A s op out -> exists ans s', out = Some (ans, s') /\ good (F (op_key op)) op ans /\ I s' (<[op_key op := next chunk (F (op_key op)) op ans]> F)) ->
  answers A s0 chunk ok good /\ (forall h s F, runs A s0 h s -> follows chunk ok h F -> I s F).
Proof.
  intros H0 Hst.
  assert (HI : forall h s, runs A s0 h s -> forall F, follows chunk ok h F -> I s F).
  { induction 1 as [|h s op ans s' Hr IH Ha]; intros F Hf.
    - inversion Hf; [exact H0|]. destruct h; discriminate.
    - inversion Hf as [E|h' F' op' ans' Hf' Hal Hok E]; [destruct h; discriminate|]. apply app_inj_tail in E as [-> E]. injection E as -> ->.
      destruct (Hst s F' op (IH F' Hf') Hal Hok) as [_ H]. destruct (H _ Ha) as (a2 & s2 & E2 & _ & HI2). injection E2 as <- <-. exact HI2. }
  split; [|intros h s F Hr Hf; exact (HI h s Hr F Hf)].
  intros h s F op Hr Hf Hal Hok. destruct (Hst s F op (HI h s Hr F Hf) Hal Hok) as [H1 H2]. split; [exact H1|].
  intros out Ho. destruct (H2 out Ho) as (ans & s' & E & Hri & _). eauto.
Qed.

Lemma fn_insert_eq {B} (F : list N -> B) k x : (<[k := x]> F) k = x.
Proof. apply fn_lookup_insert. Qed.
Lemma fn_insert_ne {B} (F : list N -> B) k k' x : k <> k' -> (<[k := x]> F) k' = F k'.
Proof. apply fn_lookup_insert_ne. Qed.

(** ** Parts *)
Lemma tiles_one size : 0 < size -> size < 2 ^ 64 -> tiles whole_chunk size = [0].
Proof.
  intros H1 H2. unfold tiles. assert (H64 : 2 ^ 64 = 18446744073709551616) by reflexivity. rewrite H64 in H2.
  assert (E : (size + whole_chunk - 1) / whole_chunk = 1).
  { unfold whole_chunk. rewrite H64. symmetry. apply (N.div_unique _ _ _ (size - 1)); lia. }
  rewrite E. reflexivity.
Qed.
Lemma tiles_zero chunk : 0 < chunk -> tiles chunk 0 = [].
Proof. intros H. unfold tiles. rewrite N.div_small by lia. reflexivity. Qed.
Lemma whole_pos : 0 < whole_chunk.
Proof. reflexivity. Qed.
Lemma tiles_whole size off : size < 2 ^ 64 -> off ∈ tiles whole_chunk size -> off = 0 /\ 0 < size.
Proof.
  intros H Hin. destruct (N.eq_0_gt_0_cases size) as [->|Hp].
  - rewrite tiles_zero in Hin by apply whole_pos. inversion Hin.
  - rewrite tiles_one in Hin by assumption. apply elem_of_list_singleton in Hin. auto.
Qed.
Lemma data_whole size parts : size < 2 ^ 64 -> upload_data whole_chunk size parts = if size =? 0 then [] else default [] (parts !! 0).
Proof.
  intros H. unfold upload_data. destruct (N.eqb_spec size 0) as [->|Hn]; [rewrite tiles_zero by apply whole_pos; reflexivity|].
  rewrite tiles_one by lia. cbn [mbind list_bind]. apply app_nil_r.
Qed.

(** ** RocksDB and kv *)
(** What the map has for a key. *)
Definition map_holds (limit : option N) (m : gmap (list N) (list N)) (key : list N) (st : kstate) : Prop :=
  match st with
  | KAbsent => m !! key = None
  | KUpload tok size parts => 0 < size < 2 ^ 64 /\ match limit with Some x => size <= x | None => True end /\ m !! key = parts !! 0
  | KStored d => m !! key = Some d
  end.
Lemma map_contract limit : keeps_contract (map_store limit) ∅ whole_chunk (map_ok limit) /\
  (forall h m F, runs (map_store limit) ∅ h m -> follows whole_chunk (map_ok limit) h F -> forall key, map_holds limit m key (F key)).
Proof.
  apply (contract_by_invariant _ _ _ _ right (fun m F => forall key, map_holds limit m key (F key))).
  - intros key. cbn. apply lookup_empty.
  - intros m F op HI Hal Hok. split; [eexists; reflexivity|]. intros out ->.
    assert (Hsame : forall st', map_holds limit m (op_key op) st' -> forall key, map_holds limit m key ((<[op_key op := st']> F) key)).
    { intros st' H key. destruct (decide (op_key op = key)) as [<-|Hn]; [now rewrite fn_insert_eq|]. rewrite fn_insert_ne by exact Hn. apply HI. }
    pose proof (HI (op_key op)) as Hk. destruct op as [key size|key tok off data|key tok|key|key start fin|key]; cbn [op_key allowed map_ok map_call] in *.
    + destruct (F key) eqn:EF; try contradiction. cbn [map_holds] in Hk. do 2 eexists. split; [reflexivity|]. split; [cbn; eauto|].
      apply Hsame. cbn [next map_holds]. rewrite lookup_empty. destruct Hal, Hok. auto.
    + destruct (F key) as [|tok' size parts|] eqn:EF; try contradiction. cbn [map_holds] in Hk. destruct Hal as (-> & Hin & Hnew & Hlen), Hk as (Hsz & Hlim & Hm).
      destruct (tiles_whole size off ltac:(lia) Hin) as [-> _]. cbn [N.eqb negb].
      assert (Hl : blen data = size) by (rewrite Hlen; unfold whole_chunk; assert (H64 : 2 ^ 64 = 18446744073709551616) by reflexivity; rewrite H64 in *; lia).
      assert (Hx : match limit with Some x => x <? blen data | None => false end = false) by (destruct limit as [x|]; [apply N.ltb_ge; lia|reflexivity]).
      rewrite Hx. do 2 eexists. split; [reflexivity|]. split; [reflexivity|]. intros key'. destruct (decide (key = key')) as [<-|Hn].
      * rewrite fn_insert_eq. cbn [next map_holds]. rewrite !lookup_insert. auto.
      * rewrite fn_insert_ne by exact Hn. specialize (HI key'). destruct (F key'); cbn [map_holds] in *; rewrite lookup_insert_ne by exact Hn; exact HI.
    + destruct (F key) as [|tok' size parts|] eqn:EF; try contradiction. cbn [map_holds] in Hk. destruct Hal as (-> & Hall), Hk as (Hsz & Hlim & Hm).
      do 2 eexists. split; [reflexivity|]. split; [reflexivity|]. apply Hsame. cbn [next map_holds]. rewrite Hm, data_whole by lia.
      destruct (N.eqb_spec size 0) as [->|_]; [lia|]. destruct (Hall 0) as [d Hd]; [rewrite tiles_one by lia; constructor|]. rewrite Hd. reflexivity.
    + destruct (F key) as [| |d] eqn:EF; try contradiction. cbn [map_holds] in Hk. rewrite Hk. do 2 eexists. split; [reflexivity|]. split; [reflexivity|].
      apply Hsame. exact Hk.
    + destruct (F key) as [| |d] eqn:EF; try contradiction. cbn [map_holds] in Hk. rewrite Hk. cbn [mbind option_bind].
      destruct (N.leb_spec start (default (blen d) fin)) as [_|?]; [|lia]. destruct (N.leb_spec (default (blen d) fin) (blen d)) as [_|?]; [|lia]. cbn [andb].
      do 2 eexists. split; [reflexivity|]. split; [reflexivity|]. apply Hsame. exact Hk.
    + destruct (F key) as [| |d] eqn:EF; try contradiction. do 2 eexists. split; [reflexivity|]. split; [reflexivity|].
      intros key'. destruct (decide (key = key')) as [<-|Hn].
      * rewrite fn_insert_eq. apply lookup_delete.
      * rewrite fn_insert_ne by exact Hn. specialize (HI key'). destruct (F key'); cbn [map_holds] in *; rewrite lookup_delete_ne by exact Hn; exact HI.
Qed.

(** ** Files *)
Lemma b64_len l : (3 * length (b64_encode l) <= 4 * length l + 2)%nat /\ (l <> [] -> 2 <= length (b64_encode l))%nat.
Proof.
  induction l as [l IH] using (well_founded_induction (Wf_nat.well_founded_ltof _ (@length N))).
  destruct l as [|a [|b [|c t]]]; cbn [b64_encode length]; try (split; [lia|intros; lia || congruence]).
  destruct (IH t) as [H1 _]; [unfold Wf_nat.ltof; cbn [length]; lia|]. split; [lia|intros; lia].
Qed.
Lemma b64_inj k k' : Forall is_byte k -> Forall is_byte k' -> b64_encode k = b64_encode k' -> k = k'.
Proof. intros H H' E. apply (inj Some). rewrite <- (b64_decode_encode k H), <- (b64_decode_encode k' H'), E. reflexivity. Qed.
Lemma fs_path_inj c k k' : Forall is_byte k -> Forall is_byte k' -> fs_path c k = fs_path c k' -> k = k'.
Proof.
  intros H H' E. unfold fs_path in E. rewrite !app_assoc in E. apply app_inj_tail in E as [_ E]. now apply b64_inj.
Qed.
Lemma path_parent c key : removelast (fs_path c key) = fc_prefix c ++ fs_tiers c key.
Proof. unfold fs_path. rewrite app_assoc. apply removelast_last. Qed.
(** No object's file is one of the directories. *)
Definition tier_dir (c : fscfg) (p : list (list N)) : Prop := exists key n, p = take n (fc_prefix c ++ fs_tiers c key).
Lemma path_no_dir c key : key <> [] -> ~ tier_dir c (fs_path c key).
Proof.
  intros Hk (key' & n & E). assert (Hl : fs_path c key !! (length (fc_prefix c) + length (fs_tiers c key))%nat = Some (b64_encode key)).
  { unfold fs_path. rewrite lookup_app_r by lia. rewrite lookup_app_r by lia. replace (_ - _)%nat with 0%nat by lia. reflexivity. }
  rewrite E in Hl. apply lookup_take_Some in Hl as [Hl _]. rewrite lookup_app_r in Hl by lia.
  remember (length (fc_prefix c) + length (fs_tiers c key) - length (fc_prefix c))%nat as i eqn:Ei. clear Ei E n.
  unfold fs_tiers in Hl. rewrite list_lookup_fmap in Hl. destruct (take _ _ !! _) as [ch|]; [|discriminate]. injection Hl as Hl.
  pose proof (proj2 (b64_len key) Hk) as H2. rewrite <- Hl in H2. cbn in H2. lia.
Qed.
Lemma upto_dir c key d : d ∈ upto (removelast (fs_path c key)) -> tier_dir c d.
Proof. rewrite path_parent. intros H. apply elem_of_list_fmap in H as (n & -> & _). exists key, n. reflexivity. Qed.

Definition fs_key (key : list N) : Prop := key <> [] /\ Forall is_byte key.
Definition fs_holds (c : fscfg) (s : fsst) (key : list N) (st : kstate) : Prop :=
  match st with
  | KAbsent => fs_key key -> fs_files s !! fs_path c key = None
  | KUpload tok size parts => fs_key key /\ size < 2 ^ 64 /\ fs_files s !! fs_path c key = Some (default [] (parts !! 0)) /\ (forall off, off <> 0 -> parts !! off = None) /\
      forall d, parts !! 0 = Some d -> blen d = size
  | KStored d => fs_key key /\ fs_files s !! fs_path c key = Some d
  end.
Record fs_inv (c : fscfg) (s : fsst) (F : list N -> kstate) : Prop := {
  fi_keys : forall key, fs_holds c s key (F key);
  fi_dirs : forall d, d ∈ fs_dirs s -> tier_dir c d;
  fi_files : forall p, is_Some (fs_files s !! p) -> exists key, fs_key key /\ p = fs_path c key;
}.
Lemma bytes_split l a n k : bytes_from l a n ++ bytes_from l (a + n) k = bytes_from l a (n + k).
Proof.
  unfold bytes_from. rewrite !N2Nat.inj_add, <- drop_drop. generalize (drop (N.to_nat a) l) as l1. generalize (N.to_nat n) as i, (N.to_nat k) as j. clear.
  intros i j l1. revert l1. induction i as [|i IH]; intros l1; [reflexivity|]. destruct l1 as [|x l1]; [cbn; now rewrite take_nil|]. cbn [Nat.add take drop app]. f_equal. apply IH.
Qed.

(** The reading loop, when it does not run past the end of the range: either the
    range ends with the file, or each read is answered in one go. *)
Lemma reading_right c f len pos rem r : reads_some c -> fs_reading c f len pos rem r -> rem <= len -> pos + rem <= blen f ->
  (pos + rem = blen f \/ exists cap, len <= cap /\ reads_whole c cap /\ (rem = len \/ rem = 0)) -> r = Some (bytes_from f pos rem).
Proof.
  intros Hs. induction 1 as [pos|pos rem Hr Hp|pos rem n Hr Hp Hm Hn|pos rem n r Hr Hp Hm Hn Hrd IH]; intros Hle Hin Hc.
  - reflexivity.
  - lia.
  - exfalso. destruct (rs_le _ Hs _ _ Hm ltac:(lia)) as [_ Hn2]. destruct Hc as [He|(cap & Hcap & Hw & Hc)]; [lia|].
    rewrite (Hw _ _ Hm) in *. lia.
  - destruct (rs_le _ Hs _ _ Hm ltac:(lia)) as [Hn0 Hn2]. rewrite IH; [|lia|lia|].
    + cbn [fmap option_fmap option_map]. f_equal. rewrite bytes_split. f_equal. lia.
    + destruct Hc as [He|(cap & Hcap & Hw & Hc)]; [left; lia|]. right. exists cap. split; [exact Hcap|]. split; [exact Hw|]. right.
      rewrite (Hw _ _ Hm). lia.
Qed.
Lemma reading_exists c f len : reads_some c -> forall rem pos, rem <= len -> pos + rem <= blen f -> exists r, fs_reading c f len pos rem r.
Proof.
  intros Hs rem. induction rem as [rem IH] using (well_founded_induction N.lt_wf_0). intros pos Hle Hin.
  destruct (N.eq_0_gt_0_cases rem) as [->|Hr]; [exists (Some []); constructor|].
  destruct (rs_some _ Hs (N.min len (blen f - pos)) ltac:(lia)) as [n Hm]. destruct (rs_le _ Hs _ _ Hm ltac:(lia)) as [Hn0 Hn2].
  destruct (N.lt_ge_cases rem n) as [Ho|Hn]; [exists None; eapply fr_over; eauto; lia|].
  destruct (IH (rem - n) ltac:(lia) (pos + n) ltac:(lia) ltac:(lia)) as [r Hrd]. eexists. eapply fr_more; eauto; lia.
Qed.

Lemma fs_contract c : reads_some c -> keeps_contract (fs_store c) fs_empty whole_chunk (fs_ok c) /\
  (forall h s F, runs (fs_store c) fs_empty h s -> follows whole_chunk (fs_ok c) h F -> fs_inv c s F).
Proof.
  intros Hs. apply (contract_by_invariant _ _ _ _ right (fs_inv c)).
  - constructor; [intros key _; apply lookup_empty|intros d H; inversion H|intros p [x H]; cbn [fs_empty fs_files] in H; rewrite lookup_empty in H; discriminate].
  - intros s F op HI Hal Hok.
    assert (Hsame : forall st', fs_holds c s (op_key op) st' -> fs_inv c s (<[op_key op := st']> F)).
    { intros st' H. destruct HI as [I1 I2 I3]. constructor; [|exact I2|exact I3]. intros key. destruct (decide (op_key op = key)) as [<-|Hn]; [now rewrite fn_insert_eq|]. rewrite fn_insert_ne by exact Hn. apply I1. }
    assert (Hother : forall key st' files dirs, fs_key key -> fs_holds c {| fs_files := files; fs_dirs := dirs |} key st' ->
      (forall p, p <> fs_path c key -> files !! p = fs_files s !! p) -> (forall d, d ∈ dirs -> tier_dir c d) ->
      fs_inv c {| fs_files := files; fs_dirs := dirs |} (<[key := st']> F)).
    { intros key st' files dirs Hkey Hh Hf Hd. destruct HI as [I1 I2 I3]. constructor; cbn [fs_files fs_dirs]; [|exact Hd|].
      - intros key'. destruct (decide (key = key')) as [<-|Hn]; [now rewrite fn_insert_eq|]. rewrite fn_insert_ne by exact Hn. specialize (I1 key').
        assert (Hp : fs_key key' -> files !! fs_path c key' = fs_files s !! fs_path c key').
        { intros Hk'. apply Hf. intros E. apply fs_path_inj in E; [congruence|apply Hk'|apply Hkey]. }
        destruct (F key'); cbn [fs_holds fs_files] in *.
        + intros Hk'. rewrite (Hp Hk'). auto.
        + destruct I1 as (Hk' & I1). split; [exact Hk'|]. rewrite (Hp Hk'). exact I1.
        + destruct I1 as (Hk' & I1). split; [exact Hk'|]. rewrite (Hp Hk'). exact I1.
      - intros p [x Hx]. destruct (decide (p = fs_path c key)) as [->|Hn]; [eauto|]. rewrite Hf in Hx by exact Hn. apply I3. eauto. }
    pose proof (fi_keys _ _ _ HI (op_key op)) as Hk. destruct op as [key size|key tok off data|key tok|key|key start fin|key]; cbn [op_key allowed fs_ok] in *.
    + destruct (F key) eqn:EF; try contradiction. cbn [fs_holds] in Hk. destruct Hal as [Hb Hsz], Hok as [Hne Hlen]. specialize (Hk (conj Hne Hb)).
      split; [eexists; constructor|]. intros out Hout. inversion Hout; subst. clear Hout. subst p.
      destruct (existsb _ _) eqn:Ee.
      { exfalso. apply existsb_exists in Ee as (d & Hd & Hx). apply bool_decide_eq_true in Hx. apply elem_of_list_In in Hd.
        destruct (fi_files _ _ _ HI _ Hx) as (key' & [Hk1 _] & ->). eapply path_no_dir; [exact Hk1|eapply upto_dir, Hd]. }
      assert (Hdirs : forall d, d ∈ fs_dirs s ∪ list_to_set (upto (removelast (fs_path c key))) -> tier_dir c d).
      { intros d Hd. apply elem_of_union in Hd as [Hd|Hd]; [apply (fi_dirs _ _ _ HI), Hd|]. apply elem_of_list_to_set in Hd. eapply upto_dir, Hd. }
      cbn zeta. rewrite (bool_decide_eq_false_2 (fs_path c key ∈ _)) by (intros Hd; eapply path_no_dir; [exact Hne|apply Hdirs, Hd]).
      destruct (b64_len key) as [L1 L2]. specialize (L2 Hne).
      rewrite (bool_decide_eq_false_2 (b64_encode key = [])) by (intros E; rewrite E in L2; cbn in L2; lia). destruct (N.ltb_spec 255 (blen (b64_encode key))) as [Hl|_]; [unfold blen in Hl; lia|]. cbn [orb].
      do 2 eexists. split; [reflexivity|]. split; [cbn; eauto|]. apply Hother; [split; assumption| | |exact Hdirs].
      * cbn [next fs_holds fs_files]. rewrite lookup_insert, lookup_empty. split; [split; assumption|]. split; [exact Hsz|]. split; [reflexivity|]. split; [intros; apply lookup_empty|discriminate].
      * intros p Hp. rewrite lookup_insert_ne by congruence. reflexivity.
    + destruct (F key) as [|tok' size parts|] eqn:EF; try contradiction. cbn [fs_holds] in Hk. destruct Hal as (-> & Hin & Hnew & Hlen), Hk as (Hkey & Hsz & Hf & Hp & Hd).
      destruct (tiles_whole size off Hsz Hin) as [-> Hpos]. rewrite Hnew in Hf. cbn [default from_option] in Hf.
      assert (Hl : blen data = size) by (rewrite Hlen; unfold whole_chunk; assert (H64 : 2 ^ 64 = 18446744073709551616) by reflexivity; rewrite H64 in *; lia).
      split; [eexists; constructor|]. intros out Hout. inversion Hout; subst out. rewrite Hf. cbn [mbind option_bind]. do 2 eexists. split; [reflexivity|]. split; [reflexivity|].
      assert (Hw : file_write [] 0 data = data).
      { unfold file_write. destruct data as [|x data]; [reflexivity|]. change (N.to_nat 0) with 0%nat. rewrite drop_nil, take_0, app_nil_l. apply app_nil_r. }
      rewrite Hw. apply Hother; [exact Hkey| | |apply (fi_dirs _ _ _ HI)].
      * cbn [next fs_holds fs_files]. rewrite !lookup_insert. split; [exact Hkey|]. split; [exact Hsz|]. split; [reflexivity|].
        split; [intros off2 Hn; rewrite lookup_insert_ne by congruence; auto|]. intros d E. injection E as <-. exact Hl.
      * intros p Hn. rewrite lookup_insert_ne by congruence. reflexivity.
    + destruct (F key) as [|tok' size parts|] eqn:EF; try contradiction. cbn [fs_holds] in Hk. destruct Hal as (-> & Hall), Hk as (Hkey & Hsz & Hf & Hp & Hd).
      split; [eexists; constructor|]. intros out Hout. inversion Hout; subst out. do 2 eexists. split; [reflexivity|]. split; [reflexivity|].
      apply Hsame. cbn [next fs_holds]. split; [exact Hkey|]. rewrite Hf, data_whole by exact Hsz. destruct (N.eqb_spec size 0) as [->|Hn]; [|reflexivity].
      destruct (parts !! 0) as [d|] eqn:E; [|reflexivity]. specialize (Hd d eq_refl). destruct d; [reflexivity|]. discriminate Hd.
    + destruct (F key) as [| |d] eqn:EF; try contradiction. cbn [fs_holds] in Hk. destruct Hk as [Hkey Hf].
      split; [eexists; constructor|]. intros out Hout. inversion Hout; subst out. rewrite Hf. do 2 eexists. split; [reflexivity|]. split; [reflexivity|].
      apply Hsame. split; assumption.
    + destruct (F key) as [| |d] eqn:EF; try contradiction. cbn [fs_holds] in Hk. destruct Hk as [Hkey Hf]. split.
      * destruct (reading_exists c d (default (blen d) fin - start) Hs (default (blen d) fin - start) start ltac:(lia) ltac:(lia)) as [r Hr].
        eexists. eapply fc_read; [exact Hf|lia|exact Hr].
      * intros out Hout. inversion Hout as [| | | |k1 s1 f1 Hno|k1 s1 e1 f1 Hf1 Hbk|k1 s1 e1 f1 r Hf1 Hle Hr|]; subst; [congruence|assert (f1 = d) by congruence; subst; lia|].
        assert (f1 = d) as -> by congruence. assert (r = Some (bytes_from d start (default (blen d) fin - start))) as ->.
        { eapply reading_right; [exact Hs|exact Hr|lia|lia|]. destruct Hok as [He|(cap & Hw & Hcap)]; [left; lia|right]. exists cap. auto. }
        do 2 eexists. split; [reflexivity|]. split; [reflexivity|]. apply Hsame. split; assumption.
    + destruct (F key) as [| |d] eqn:EF; try contradiction. cbn [fs_holds] in Hk. destruct Hk as [Hkey Hf].
      split; [eexists; constructor|]. intros out Hout. inversion Hout; subst out. rewrite bool_decide_eq_true_2 by (rewrite Hf; eauto).
      do 2 eexists. split; [reflexivity|]. split; [reflexivity|]. apply Hother; [exact Hkey| | |apply (fi_dirs _ _ _ HI)].
      * cbn [next fs_holds fs_files]. intros _. apply lookup_delete.
      * intros p Hp. rewrite lookup_delete_ne by congruence. reflexivity.
Qed.
