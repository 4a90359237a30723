(** The S3 adapter of the benchmark: invariant (C64). *)
From Coq Require Import ZifyBool ZifyNat ZifyN.
From stdpp Require Import base numbers option gmap functions sorting list.
From Verif Require Import Util Bytes TokenModel TokenProofs StoreModel StoreSpec StoreProofs.
Open Scope N_scope.
Ltac Zify.zify_post_hook ::= idtac.

(** ** Sorting by part number *)
Global Instance by_number_trans : Transitive by_number.
Proof. intros a b c H1 H2. unfold by_number in *. lia. Qed.
Global Instance by_number_total : Total by_number.
Proof. intros a b. unfold by_number. lia. Qed.
Lemma sorted_same l1 : forall l2, StronglySorted by_number l1 -> StronglySorted by_number l2 -> NoDup (l1.*1) -> l1 ≡ₚ l2 -> l1 = l2.
Proof.
  induction l1 as [|x l1 IH]; intros l2 S1 S2 Hn Hp; [now apply Permutation_nil in Hp|].
  destruct l2 as [|y l2]; [symmetry in Hp; apply Permutation_nil in Hp; discriminate|].
  apply StronglySorted_inv in S1 as [S1 F1]. apply StronglySorted_inv in S2 as [S2 F2]. rewrite Forall_forall in F1, F2. cbn [fmap list_fmap] in Hn. apply NoDup_cons in Hn as [Hx Hn].
  assert (x = y) as <-.
  { assert (Hy : y ∈ x :: l1) by (rewrite Hp; constructor). assert (Hx2 : x ∈ y :: l2) by (rewrite <- Hp; constructor).
    apply elem_of_cons in Hy as [->|Hy]; [reflexivity|]. apply elem_of_cons in Hx2 as [->|Hx2]; [reflexivity|].
    specialize (F1 y Hy). specialize (F2 x Hx2). unfold by_number in *. contradiction Hx. apply elem_of_list_fmap. exists y. split; [lia|exact Hy]. }
  f_equal. apply IH; auto. now apply Permutation_cons_inv in Hp.
Qed.

Section S3.
Context (c : s3cfg) (Hpart : 0 < sc_part c) (Hmin : sc_min c <= sc_part c).

(** Number of parts, and part [k]. *)
Definition npt (size : N) : nat := N.to_nat ((size + sc_part c - 1) / sc_part c).
Definition pk (parts : gmap N (list N)) (k : nat) : list N := default [] (parts !! (N.of_nat k * sc_part c)).
Lemma npt_lt size k : (k < npt size)%nat <-> N.of_nat k * sc_part c < size.
Proof using Hpart Hmin.
  unfold npt. pose proof (N.div_mod (size + sc_part c - 1) (sc_part c) ltac:(lia)) as Hd. pose proof (N.mod_lt (size + sc_part c - 1) (sc_part c) ltac:(lia)) as Hm.
  generalize dependent ((size + sc_part c - 1) / sc_part c). intros q Hd. generalize dependent ((size + sc_part c - 1) mod sc_part c). intros r Hd Hm.
  set (p := sc_part c) in *. assert (Hk : (k < N.to_nat q)%nat <-> N.of_nat k < q) by lia. rewrite Hk. clear Hk. generalize (N.of_nat k). intros j. clear k.
  split; intros H.
  - assert (p * (j + 1) <= p * q) by (apply N.mul_le_mono_l; lia). lia.
  - destruct (N.lt_ge_cases j q) as [Hj|Hj]; [exact Hj|]. exfalso. assert (p * q <= p * j) by (apply N.mul_le_mono_l; lia). lia.
Qed.
Lemma tiles_in size off : off ∈ tiles (sc_part c) size <-> exists k, (k < npt size)%nat /\ off = N.of_nat k * sc_part c.
Proof.
  unfold tiles. rewrite elem_of_list_fmap. split.
  - intros (k & -> & Hk). apply elem_of_seq in Hk. exists k. split; [unfold npt; lia|reflexivity].
  - intros (k & Hk & ->). exists k. split; [reflexivity|]. apply elem_of_seq. unfold npt in Hk. lia.
Qed.
Lemma number_of k : N.of_nat k * sc_part c / sc_part c + 1 = N.of_nat k + 1.
Proof using Hpart Hmin. rewrite N.div_mul by lia. reflexivity. Qed.

(** The service has the parts that were written. *)
Record has_parts (size : N) (parts P : gmap N (list N)) : Prop := {
  hp_in : forall off d, parts !! off = Some d -> exists k, (k < npt size)%nat /\ off = N.of_nat k * sc_part c /\ P !! (N.of_nat k + 1) = Some d /\ blen d = N.min (sc_part c) (size - off);
  hp_only : forall n d, P !! n = Some d -> exists k, n = N.of_nat k + 1 /\ parts !! (N.of_nat k * sc_part c) = Some d;
}.
Lemma complete_all size parts P : has_parts size parts P -> (forall off, off ∈ tiles (sc_part c) size -> is_Some (parts !! off)) ->
  s3_complete c P (merge_sort by_number (map_to_list (sc_etag c <$> P))) = Some (upload_data (sc_part c) size parts).
Proof using Hpart Hmin.
  intros [H1 H2] Hall.
  assert (Hk : forall k, (k < npt size)%nat -> parts !! (N.of_nat k * sc_part c) = Some (pk parts k) /\ P !! (N.of_nat k + 1) = Some (pk parts k) /\ blen (pk parts k) = N.min (sc_part c) (size - N.of_nat k * sc_part c)).
  { intros k Hk. destruct (Hall (N.of_nat k * sc_part c)) as [d Hd]; [apply tiles_in; eauto|]. unfold pk. rewrite Hd. cbn [default from_option].
    destruct (H1 _ _ Hd) as (k' & _ & E & HP & Hl). apply N.mul_cancel_r in E; [|lia]. assert (k' = k) as -> by lia. auto. }
  set (f := fun k => (N.of_nat k + 1, sc_etag c (pk parts k))).
  assert (Hsort : merge_sort by_number (map_to_list (sc_etag c <$> P)) = f <$> seq 0 (npt size)).
  { symmetry. apply sorted_same.
    - generalize 0%nat, (npt size). clear. intros j n. revert j. induction n as [|n IH]; intros j; [constructor|]. cbn [seq fmap list_fmap]. apply SSorted_cons; [apply IH|].
      rewrite Forall_forall. intros x Hx. apply elem_of_list_fmap in Hx as (i & -> & Hi). apply elem_of_seq in Hi. unfold by_number, f. cbn [fst]. lia.
    - apply StronglySorted_merge_sort; apply _.
    - rewrite <- list_fmap_compose. apply NoDup_fmap_2; [|apply NoDup_seq]. intros i j E. unfold compose, f in E. cbn [fst] in E. lia.
    - rewrite merge_sort_Permutation. apply NoDup_Permutation.
      + apply (NoDup_fmap_1 fst). rewrite <- list_fmap_compose. apply NoDup_fmap_2; [|apply NoDup_seq]. intros i j E. unfold compose, f in E. cbn [fst] in E. lia.
      + apply NoDup_map_to_list.
      + intros [n e]. rewrite elem_of_map_to_list, lookup_fmap. split.
        * intros Hx. apply elem_of_list_fmap in Hx as (k & E & Hi). apply elem_of_seq in Hi. unfold f in E. injection E as -> ->.
          destruct (Hk k ltac:(lia)) as (_ & HP & _). rewrite HP. reflexivity.
        * destruct (P !! n) as [d|] eqn:E; [|discriminate]. cbn [fmap option_fmap option_map]. intros Ee. injection Ee as <-.
          destruct (H2 _ _ E) as (k & -> & Hp). destruct (H1 _ _ Hp) as (k' & Hk' & E' & _). apply N.mul_cancel_r in E'; [|lia]. assert (k' = k) as -> by lia.
          apply elem_of_list_fmap. exists k. split; [|apply elem_of_seq; lia]. unfold f, pk. rewrite Hp. reflexivity. }
  rewrite Hsort. unfold upload_data, tiles. change (N.to_nat ((size + sc_part c - 1) / sc_part c)) with (npt size).
  assert (Hgen : forall n j, (j + n = npt size)%nat -> s3_complete c P (f <$> seq j n) = Some (((fun k => N.of_nat k * sc_part c) <$> seq j n) ≫= (fun off => default [] (parts !! off)))).
  { induction n as [|n IH]; intros j Hj; [reflexivity|]. cbn [seq]. rewrite !fmap_cons, bind_cons. cbn [s3_complete]. destruct (Hk j ltac:(lia)) as (Hp & HP & Hl).
    change (f j) with (N.of_nat j + 1, sc_etag c (pk parts j)). cbv beta iota. rewrite HP. cbn [mbind option_bind]. rewrite N.eqb_refl. cbn [negb].
    assert (Hm : match f <$> seq (S j) n with [] => false | _ :: _ => blen (pk parts j) <? sc_min c end = false).
    { destruct n as [|n]; [reflexivity|]. cbn [seq]. rewrite fmap_cons. apply N.ltb_ge. rewrite Hl.
      assert (Hlt : N.of_nat (S j) * sc_part c < size) by (apply npt_lt; lia). clear -Hlt Hmin. lia. }
    rewrite Hm, (IH (S j) ltac:(lia)). cbn [mbind option_bind]. rewrite Hp. reflexivity. }
  apply (Hgen (npt size) 0%nat). reflexivity.
Qed.

Definition s3_holds (s : s3st) (key : list N) (st : kstate) : Prop :=
  match st with
  | KAbsent => Forall is_byte key -> s3_objects s !! b64_encode key = None
  | KUpload tok size parts => Forall is_byte key /\ 0 < size < 2 ^ 64 /\ size <= sc_parts c * sc_part c /\ s3_objects s !! b64_encode key = None /\
      exists P, s3_uploads s !! tok = Some (b64_encode key, P) /\ has_parts size parts P /\
        (s3_inflight s !! tok = Some (b64_encode key, sc_etag c <$> P) \/ s3_inflight s !! tok = None /\ P = ∅)
  | KStored d => Forall is_byte key /\ s3_objects s !! b64_encode key = Some d /\ blen d < 2 ^ 64
  end.
Lemma upload_length size parts : (forall off, off ∈ tiles (sc_part c) size -> exists d, parts !! off = Some d /\ blen d = N.min (sc_part c) (size - off)) ->
  blen (upload_data (sc_part c) size parts) = size.
Proof using Hpart Hmin.
  intros Hall. unfold upload_data, tiles. fold (npt size).
  assert (Hgen : forall n j, (j + n = npt size)%nat -> N.of_nat j * sc_part c <= size \/ n = 0%nat ->
    blen (((fun k => N.of_nat k * sc_part c) <$> seq j n) ≫= (fun off => default [] (parts !! off))) = if (n =? 0)%nat then 0 else size - N.of_nat j * sc_part c).
  { induction n as [|n IH]; intros j Hj Hle; [reflexivity|]. cbn [seq Nat.eqb]. rewrite fmap_cons, bind_cons.
    destruct (Hall (N.of_nat j * sc_part c)) as (d & Hd & Hl); [apply tiles_in; exists j; split; [lia|reflexivity]|]. rewrite Hd. cbn [default from_option id].
    unfold blen in *. rewrite app_length, Nat2N.inj_add. rewrite Hl.
    assert (Hlt : N.of_nat j * sc_part c < size) by (apply npt_lt; lia).
    destruct n as [|n].
    - cbn [seq fmap list_fmap mbind list_bind length]. assert (Hlast : ~ N.of_nat (S j) * sc_part c < size) by (rewrite <- npt_lt; lia). clear -Hlast Hlt. lia.
    - assert (Hlt2 : N.of_nat (S j) * sc_part c < size) by (apply npt_lt; lia).
      specialize (IH (S j) ltac:(lia) ltac:(left; lia)). cbn [Nat.eqb] in IH.
      rewrite IH. clear -Hlt2. lia. }
  specialize (Hgen (npt size) 0%nat eq_refl ltac:(left; lia)). rewrite Hgen. destruct (Nat.eqb_spec (npt size) 0) as [E|E].
  - assert (~ N.of_nat 0 * sc_part c < size) by (rewrite <- npt_lt; lia). lia.
  - lia.
Qed.

Lemma s3_answers : answers (s3_store c) s3_empty (sc_part c) (s3_wide c) s3_right /\
  (forall h s F, runs (s3_store c) s3_empty h s -> follows (sc_part c) (s3_wide c) h F -> forall key, s3_holds s key (F key)).
Proof using Hpart Hmin.
  apply (contract_by_invariant _ _ _ _ s3_right (fun s F => forall key, s3_holds s key (F key))).
  - intros key _. apply lookup_empty.
  - intros s F op HI Hal Hok.
    assert (Hsame : forall st', s3_holds s (op_key op) st' -> forall key, s3_holds s key ((<[op_key op := st']> F) key)).
    { intros st' H key. destruct (decide (op_key op = key)) as [<-|Hn]; [now rewrite fn_insert_eq|]. rewrite fn_insert_ne by exact Hn. apply HI. }
    (* a change to the object of [key] and to upload [tok] of [key] leaves other keys alone *)
    assert (Hother : forall key tok st' s', Forall is_byte key -> s3_holds s' key st' ->
      (forall k, k <> b64_encode key -> s3_objects s' !! k = s3_objects s !! k) ->
      (forall id, id <> tok -> s3_uploads s' !! id = s3_uploads s !! id /\ s3_inflight s' !! id = s3_inflight s !! id) ->
      (forall k P, s3_uploads s !! tok = Some (k, P) -> k = b64_encode key) ->
      forall key', s3_holds s' key' ((<[key := st']> F) key')).
    { intros key tok st' s' Hb Hh Ho Hu Ht key'. destruct (decide (key = key')) as [<-|Hn]; [now rewrite fn_insert_eq|]. rewrite fn_insert_ne by exact Hn. specialize (HI key').
      assert (Hp : Forall is_byte key' -> s3_objects s' !! b64_encode key' = s3_objects s !! b64_encode key').
      { intros Hb'. apply Ho. intros E. apply b64_inj in E; [congruence|exact Hb'|exact Hb]. }
      destruct (F key') as [|tok2 size parts|d]; cbn [s3_holds] in *.
      - intros Hb'. rewrite (Hp Hb'). auto.
      - destruct HI as (Hb' & H1 & H2 & H3 & P & HP & H4). split; [exact Hb'|]. split; [exact H1|]. split; [exact H2|]. split; [now rewrite (Hp Hb')|].
        assert (tok2 <> tok) as Hne by (intros ->; apply Ht in HP; apply b64_inj in HP; congruence). destruct (Hu tok2 Hne) as [-> ->]. exists P. auto.
      - destruct HI as (Hb' & H1). split; [exact Hb'|]. now rewrite (Hp Hb'). }
    pose proof (HI (op_key op)) as Hk. destruct op as [key size|key tok off data|key tok|key|key start fin|key]; cbn [op_key allowed s3_wide] in *.
    + destruct (F key) eqn:EF; try contradiction. cbn [s3_holds] in Hk. destruct Hal as [Hb Hsz]. specialize (Hk Hb). split.
      * set (used := dom (s3_uploads s) ∪ dom (s3_inflight s) : gset N). pose proof (is_fresh used) as Hf. unfold used in Hf. apply not_elem_of_union in Hf as [F1 F2].
        apply not_elem_of_dom in F1, F2. eexists. econstructor; eassumption.
      * intros out Hout. inversion Hout as [k2 s2 id F1 F2| | | | |]; subst. do 2 eexists. split; [reflexivity|]. split; [cbn; eauto|].
        apply (Hother key id); [exact Hb| |reflexivity| |].
        -- cbn [next s3_holds s3_objects s3_uploads s3_inflight]. split; [exact Hb|]. split; [lia|]. split; [lia|]. split; [exact Hk|]. exists ∅. rewrite lookup_insert. split; [reflexivity|].
           split; [constructor; intros ? ? E; rewrite lookup_empty in E; discriminate|]. right. auto.
        -- intros id' Hn. cbn [s3_uploads s3_inflight]. rewrite lookup_insert_ne by congruence. auto.
        -- intros k P E. congruence.
    + destruct (F key) as [|tok' size parts|] eqn:EF; try contradiction. cbn [s3_holds] in Hk. destruct Hal as (-> & Hin & Hnew & Hlen), Hk as (Hb & Hsz & Hmax & Hno & P & HP & [Hp1 Hp2] & Hfl).
      apply tiles_in in Hin as (k & Hk & ->). split; [eexists; constructor|]. intros out Hout. inversion Hout; subst out. subst n. clear Hout.
      rewrite N.mod_mul by lia. cbn [N.eqb negb]. rewrite number_of. pose proof (proj1 (npt_lt size k) Hk) as Hklt.
      assert (Hn : N.of_nat k + 1 <= sc_parts c).
      { destruct (N.lt_ge_cases (sc_parts c) (N.of_nat k + 1)) as [Hx|Hx]; [|exact Hx]. exfalso.
        assert (sc_parts c * sc_part c <= N.of_nat k * sc_part c) by (apply N.mul_le_mono_r; lia). lia. }
      destruct (N.ltb_spec (sc_parts c) (N.of_nat k + 1)) as [Hx|_]; [lia|]. rewrite HP. cbn [mbind option_bind]. rewrite bool_decide_eq_true_2 by reflexivity. cbn [negb].
      assert (Hpn : P !! (N.of_nat k + 1) = None).
      { destruct (P !! (N.of_nat k + 1)) as [d|] eqn:E; [|reflexivity]. destruct (Hp2 _ _ E) as (k' & Ek & Ep). assert (k' = k) as -> by lia. congruence. }
      assert (Het : default (b64_encode key, ∅) (s3_inflight s !! tok') = (b64_encode key, sc_etag c <$> P)).
      { destruct Hfl as [->|[-> ->]]; [reflexivity|]. rewrite fmap_empty. reflexivity. }
      rewrite Het, lookup_fmap, Hpn. cbn [fmap option_fmap option_map]. do 2 eexists. split; [reflexivity|]. split; [reflexivity|].
      apply (Hother key tok'); [exact Hb| |reflexivity| |].
      * cbn [next s3_holds s3_objects s3_uploads s3_inflight]. split; [exact Hb|]. split; [exact Hsz|]. split; [exact Hmax|]. split; [exact Hno|].
        exists (<[N.of_nat k + 1 := data]> P). rewrite !lookup_insert. split; [reflexivity|]. split; [|left; now rewrite fmap_insert]. constructor.
        -- intros off2 d E. destruct (decide (off2 = N.of_nat k * sc_part c)) as [->|Hne].
           ++ rewrite lookup_insert in E. injection E as <-. exists k. rewrite lookup_insert. auto.
           ++ rewrite lookup_insert_ne in E by congruence. destruct (Hp1 _ _ E) as (k' & K1 & K2 & K3 & K4). exists k'. split; [exact K1|]. split; [exact K2|]. split; [|exact K4].
              rewrite lookup_insert_ne; [exact K3|]. intros Ek. assert (k' = k) as -> by lia. congruence.
        -- intros n d E. destruct (decide (n = N.of_nat k + 1)) as [->|Hne].
           ++ rewrite lookup_insert in E. injection E as <-. exists k. rewrite lookup_insert. auto.
           ++ rewrite lookup_insert_ne in E by congruence. destruct (Hp2 _ _ E) as (k' & -> & K2). exists k'. split; [reflexivity|].
              rewrite lookup_insert_ne; [exact K2|]. intros Ek. apply N.mul_cancel_r in Ek; [|lia]. lia.
      * intros id2 Hne. cbn [s3_uploads s3_inflight]. rewrite !lookup_insert_ne by congruence. auto.
      * intros k' P' E. congruence.
    + destruct (F key) as [|tok' size parts|] eqn:EF; try contradiction. cbn [s3_holds] in Hk. destruct Hal as (-> & Hall), Hk as (Hb & Hsz & Hmax & Hno & P & HP & Hhp & Hfl).
      split; [eexists; constructor|]. intros out Hout. inversion Hout; subst out. clear Hout.
      assert (Hin0 : s3_inflight s !! tok' = Some (b64_encode key, sc_etag c <$> P)).
      { destruct Hfl as [H|[_ ->]]; [exact H|]. exfalso. destruct (Hall 0) as [d Hd]; [apply tiles_in; exists 0%nat; split; [apply npt_lt; lia|reflexivity]|].
        destruct (hp_in _ _ _ Hhp _ _ Hd) as (k & _ & _ & E & _). rewrite lookup_empty in E. discriminate. }
      rewrite Hin0. cbn [mbind option_bind]. rewrite HP. cbn [mbind option_bind]. rewrite bool_decide_eq_true_2 by reflexivity. cbn [negb].
      rewrite (complete_all _ _ _ Hhp Hall). cbn [mbind option_bind]. do 2 eexists. split; [reflexivity|]. split; [reflexivity|].
      apply (Hother key tok'); [exact Hb| | | |].
      * cbn [next s3_holds s3_objects]. rewrite lookup_insert. split; [exact Hb|]. split; [reflexivity|]. rewrite upload_length; [lia|].
        intros off Hin. destruct (Hall off Hin) as [d Hd]. exists d. split; [exact Hd|]. destruct (hp_in _ _ _ Hhp _ _ Hd) as (k & _ & _ & _ & Hl). exact Hl.
      * intros k Hne. cbn [s3_objects]. rewrite lookup_insert_ne by congruence. reflexivity.
      * intros id2 Hne. cbn [s3_uploads s3_inflight]. rewrite !lookup_delete_ne by congruence. auto.
      * intros k' P' E. congruence.
    + destruct (F key) as [| |d] eqn:EF; try contradiction. cbn [s3_holds] in Hk. pose proof Hk as (Hb & Hd & Hl).
      split; [eexists; constructor|]. intros out Hout. inversion Hout; subst out. rewrite Hd. do 2 eexists. split; [reflexivity|]. split; [reflexivity|]. apply Hsame. exact Hk.
    + destruct (F key) as [| |d] eqn:EF; try contradiction. cbn [s3_holds] in Hk. pose proof Hk as (Hb & Hd & Hl). rename Hok into Hst.
      split; [eexists; constructor|]. intros out Hout. inversion Hout; subst out. clear Hout. rewrite Hd. cbn [mbind option_bind]. unfold s3_get.
      set (b := default (2 ^ 64 - 1) fin). assert (Hbl : N.min b (blen d - 1) = N.min (default (blen d) fin) (blen d - 1) /\ start <= b) by (subst b; destruct fin as [e|]; cbn [default from_option id] in *; lia). destruct Hbl as [Hbm Hbs].
      destruct (N.ltb_spec b start) as [Hx|_]; [lia|]. destruct (N.leb_spec (blen d) start) as [Hx|_]; [lia|]. cbn [mbind option_bind].
      do 2 eexists. split; [reflexivity|]. split; [|apply Hsame; exact Hk]. cbn [s3_right op_key]. rewrite Hbm. reflexivity.
    + destruct (F key) as [| |d] eqn:EF; try contradiction. cbn [s3_holds] in Hk. destruct Hk as (Hb & Hd & Hl).
      split; [eexists; constructor|]. intros out Hout. inversion Hout; subst out. do 2 eexists. split; [reflexivity|]. split; [reflexivity|].
      intros key'. destruct (decide (key = key')) as [<-|Hn].
      * rewrite fn_insert_eq. cbn [next s3_holds s3_objects]. intros _. apply lookup_delete.
      * rewrite fn_insert_ne by exact Hn. specialize (HI key').
        assert (Hp : Forall is_byte key' -> base.delete (b64_encode key) (s3_objects s) !! b64_encode key' = s3_objects s !! b64_encode key').
        { intros Hb'. apply lookup_delete_ne. intros E. apply b64_inj in E; [congruence|exact Hb|exact Hb']. }
        destruct (F key'); cbn [s3_holds s3_objects s3_uploads s3_inflight] in *.
        -- intros Hb'. rewrite (Hp Hb'). auto.
        -- destruct HI as (Hb' & HI). rewrite (Hp Hb'). auto.
        -- destruct HI as (Hb' & HI). rewrite (Hp Hb'). auto.
Qed.
Lemma s3_ok_wide st op : s3_ok c st op -> s3_wide c st op.
Proof. destruct op, st; cbn [s3_ok s3_wide]; tauto. Qed.
Lemma follows_wide h F : follows (sc_part c) (s3_ok c) h F -> follows (sc_part c) (s3_wide c) h F.
Proof. induction 1; constructor; auto using s3_ok_wide. Qed.
Lemma s3_contract : keeps_contract (s3_store c) s3_empty (sc_part c) (s3_ok c) /\
  (forall h s F, runs (s3_store c) s3_empty h s -> follows (sc_part c) (s3_ok c) h F -> forall key, s3_holds s key (F key)).
Proof using Hpart Hmin.
  destruct s3_answers as [HA HI]. split; [|intros h s F Hr Hf; exact (HI h s F Hr (follows_wide _ _ Hf))].
  intros h s F op Hr Hf Hal Hok. destruct (HA h s F op Hr (follows_wide _ _ Hf) Hal (s3_ok_wide _ _ Hok)) as [H1 H2]. split; [exact H1|].
  intros out Ho. destruct (H2 out Ho) as (ans & s' & -> & Hg). exists ans, s'. split; [reflexivity|]. destruct op as [| | | |key start fin|]; try exact Hg.
  cbn [op_key] in *. destruct (F key) as [| |d]; try exact Hg. cbn [s3_right s3_ok right] in *. destruct Hok as [He Hst]. rewrite Hg, He. do 2 f_equal. lia.
Qed.
End S3.
