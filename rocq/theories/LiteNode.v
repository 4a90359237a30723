(** Records on the device, and walking a chain of them. *)
From Coq Require Import ZifyBool ZifyNat ZifyN.
From stdpp Require Import base numbers list_numbers option gmap sets list.
From Verif Require Import Util Bytes BuddyModel BuddySpec LayoutModel LayoutProofs MetaModel MetaSpec PageIOModel PageIOSpec PageIOProofs.
From Verif Require Import JournalModel JournalSpec JournalProofs LiteModel LiteSpec LiteJournal.
Open Scope N_scope.
Ltac Zify.zify_post_hook ::= idtac.

Lemma dev_read_lookup d off n i : (i < N.to_nat n)%nat -> dev_read d off n !! i = Some (d (off + N.of_nat i)).
Proof. intros H. unfold dev_read. rewrite list_lookup_fmap, lookup_seq_lt by exact H. reflexivity. Qed.
Lemma dev_read_same d d' off len : (forall x, off <= x < off + len -> d' x = d x) -> dev_read d' off len = dev_read d off len.
Proof.
  intros H. unfold dev_read. apply list_fmap_ext. intros i x Hx. apply lookup_seq in Hx as [-> Hx]. apply H. lia.
Qed.
Lemma buf_dev d off n fo len : fo + len <= n -> buf_read (dev_read d off n) fo len = Some (dev_read d (off + fo) len).
Proof.
  intros H. unfold buf_read. rewrite dev_read_length. destruct (N.leb_spec (fo + len) (N.of_nat (N.to_nat n))); [|lia].
  f_equal. apply list_eq. intros i. destruct (decide (i < N.to_nat len)%nat) as [Hi|Hi].
  - rewrite lookup_take by exact Hi. rewrite lookup_drop, !dev_read_lookup by lia. do 2 f_equal. lia.
  - rewrite !lookup_ge_None_2; [reflexivity|rewrite dev_read_length; lia|rewrite take_length; lia].
Qed.
Lemma dev_read_write d off data : dev_read (dev_write d off data) off (N.of_nat (length data)) = data.
Proof.
  apply list_eq. intros i. destruct (decide (i < length data)%nat) as [Hi|Hi].
  - rewrite dev_read_lookup by lia. destruct (lookup_lt_is_Some_2 data i Hi) as [b Hb]. rewrite Hb. f_equal.
    apply dev_write_in; [lia|]. rewrite <- Hb. f_equal. lia.
  - rewrite !lookup_ge_None_2; [reflexivity|lia|rewrite dev_read_length; lia].
Qed.
Lemma read_be_write d off n v len : len = N.of_nat n -> v < 256 ^ N.of_nat n -> read_be (dev_write d off (be_bytes n v)) off len = v.
Proof.
  intros -> H. unfold read_be. pose proof (dev_read_write d off (be_bytes n v)) as E. rewrite be_bytes_length in E. rewrite E.
  apply be_val_bytes, H.
Qed.

Ltac offs := unfold off_assoc_data, off_assoc_data_len, off_tail_page, off_tail_pages, off_lpage, off_lpages, off_key, off_key_len,
  off_id, off_size, off_created_ms, off_next, off_metadata_size_pow2, off_state in *.

(** An object in a chain. *)
Record lobj := { lo_off : N; lo_req : create_req; lo_pow2 : N; lo_st : N }.
Notation lo_key o := (cr_key (lo_req o)).
Notation lo_id o := (cr_id (lo_req o)).
Notation lo_size o := (cr_size (lo_req o)).

Section node.
Context (spage lpage : N).
Definition onode (F : device) (o : lobj) (next : N) : Prop :=
  decodes spage lpage (dev_read F (lo_off o) (2 ^ lo_pow2 o)) (lo_req o) (lo_st o) next (lo_pow2 o).

(** Bytes of the record that never change. *)
Definition static_off (x : N) : Prop := x = 1 \/ 8 <= x.

Record rec_fields (d : device) (o : lobj) : Prop := {
  rf_pow2 : read_be d (lo_off o + off_metadata_size_pow2) 1 = lo_pow2 o;
  rf_size : read_be d (lo_off o + off_size) 5 = lo_size o;
  rf_id : read_be d (lo_off o + off_id) 16 = lo_id o;
  rf_klen : read_be d (lo_off o + off_key_len) 2 = N.of_nat (length (lo_key o));
  rf_key : dev_read d (lo_off o + off_key) (N.of_nat (length (lo_key o))) = lo_key o;
}.

Lemma buf_read_inv raw off len r : buf_read raw off len = Some r -> off + len <= N.of_nat (length raw).
Proof. unfold buf_read. destruct (N.leb_spec (off + len) (N.of_nat (length raw))); [auto|discriminate]. Qed.

Lemma onode_fields F o next : onode F o next ->
  rec_fields F o /\ read_be F (lo_off o + off_next) 6 = next /\
  read_be F (lo_off o + off_state) 1 = lo_st o /\ (lo_st o = st_incomplete \/ lo_st o = st_committed) /\
  off_lpages (N.of_nat (length (lo_key o))) <= 2 ^ lo_pow2 o.
Proof.
  intros [D1 D2 D3 _ D5 D6 D7 _ _ _].
  unfold meta_state, meta_size_pow2, meta_next, meta_size, meta_id, meta_key, meta_key_len in *.
  assert (R : forall fo len r, buf_read (dev_read F (lo_off o) (2 ^ lo_pow2 o)) fo len = Some r -> r = dev_read F (lo_off o + fo) len /\ fo + len <= 2 ^ lo_pow2 o).
  { intros fo len r E. pose proof (buf_read_inv _ _ _ _ E) as Hl. rewrite dev_read_length in Hl.
    assert (fo + len <= 2 ^ lo_pow2 o) as H by lia. rewrite buf_dev in E by exact H. injection E as <-. auto. }
  destruct (buf_read _ off_state 1) as [r1|] eqn:E1; [|discriminate]. apply R in E1 as [-> _].
  cbn [mbind option_bind] in D1.
  destruct (buf_read _ off_metadata_size_pow2 1) as [r2|] eqn:E2; [|discriminate]. apply R in E2 as [-> _].
  destruct (buf_read _ off_next 6) as [r3|] eqn:E3; [|discriminate]. apply R in E3 as [-> _].
  destruct (buf_read _ off_size 5) as [r4|] eqn:E4; [|discriminate]. apply R in E4 as [-> _].
  destruct (buf_read _ off_id 16) as [r5|] eqn:E5; [|discriminate]. apply R in E5 as [-> _].
  destruct (buf_read _ off_key_len 2) as [r6|] eqn:E6; [|discriminate]. apply R in E6 as [-> _].
  cbn [fmap option_fmap option_map mbind option_bind] in *.
  injection D2 as D2. injection D3 as D3. injection D5 as D5. injection D6 as D6.
  pose proof (buf_read_length _ _ _ _ D7) as Hkl. apply R in D7 as [D7 Hl].
  unfold read_be.
  destruct (_ || _) eqn:Eb in D1; [|discriminate]. injection D1 as D1.
  rewrite <- Hkl in D7, Hl.
  split; [split; [exact D2|exact D5|exact D6|symmetry; exact Hkl|symmetry; exact D7]|]. split; [exact D3|]. split; [exact D1|]. split; [|offs; lia].
  rewrite D1 in Eb. apply orb_true_iff in Eb as [Eb|Eb]; apply N.eqb_eq in Eb; auto.
Qed.

Lemma fields_static d F o : rec_fields F o -> (forall x, static_off x -> x < off_lpages (N.of_nat (length (lo_key o))) -> d (lo_off o + x) = F (lo_off o + x)) -> rec_fields d o.
Proof.
  intros [H1 H2 H3 H4 H5] Hs.
  assert (R : forall fo len, (fo = 1 /\ len = 1) \/ 8 <= fo -> fo + len <= off_lpages (N.of_nat (length (lo_key o))) -> dev_read d (lo_off o + fo) len = dev_read F (lo_off o + fo) len).
  { intros fo len Hf Hl. apply dev_read_same. intros x Hx. replace x with (lo_off o + (x - lo_off o)) by lia. apply Hs; unfold static_off; lia. }
  split; unfold read_be in *.
  - rewrite R by (offs; lia). exact H1.
  - rewrite R by (offs; lia). exact H2.
  - rewrite R by (offs; lia). exact H3.
  - rewrite R by (offs; lia). exact H4.
  - rewrite R by (offs; lia). exact H5.
Qed.

(** What a lookup learns about one object: key length read on [d1], record on
    [d2]. *)
Record frep (f : found) (o : lobj) (prev : option N) : Prop := {
  fr_off : f_off f = lo_off o;
  fr_prev : f_prev f = prev;
  fr_id : meta_id (f_raw f) = Some (lo_id o);
  fr_size : meta_size (f_raw f) = Some (lo_size o);
  fr_pow2 : meta_size_pow2 (f_raw f) = Some (lo_pow2 o);
}.

Lemma node_read d1 d2 ov3 ov4 o next :
  rec_fields d1 o -> rec_fields d2 o -> (lo_st o = st_incomplete \/ lo_st o = st_committed) ->
  match ov_nexts ov3 !! lo_id o with Some (_, v) => v = next | None => read_be d2 (lo_off o + off_next) 6 = next end ->
  match ov_states ov4 !! lo_id o with Some (_, v) => v = lo_st o | None => read_be d2 (lo_off o + off_state) 1 = lo_st o end ->
  let raw := dev_read d2 (lo_off o) (off_lpages (read_be d1 (lo_off o + off_key_len) 2)) in
  ov_next ov3 raw = Some next /\ meta_key raw = Some (lo_key o) /\ ov_state ov4 raw = Some (lo_st o) /\
  forall prev, frep {| f_off := lo_off o; f_prev := prev; f_raw := raw |} o prev.
Proof.
  intros F1 F2 Hst Hn Hs raw. destruct F1 as [_ _ _ K1 _]. destruct F2 as [P2 S2 I2 K2 Y2]. subst raw. rewrite K1.
  set (n := off_lpages (N.of_nat (length (lo_key o)))).
  assert (Hid : meta_id (dev_read d2 (lo_off o) n) = Some (lo_id o)).
  { unfold meta_id. rewrite buf_dev by (unfold n; offs; lia). cbn [fmap option_fmap option_map]. f_equal. exact I2. }
  split; [|split; [|split]].
  - unfold ov_next. rewrite Hid. cbn [mbind option_bind]. destruct (ov_nexts ov3 !! lo_id o) as [[s v]|]; [congruence|].
    unfold meta_next. rewrite buf_dev by (unfold n; offs; lia). cbn [fmap option_fmap option_map]. f_equal. exact Hn.
  - unfold meta_key, meta_key_len. rewrite buf_dev by (unfold n; offs; lia). cbn [fmap option_fmap option_map mbind option_bind].
    unfold read_be in K2. rewrite K2. rewrite buf_dev by (unfold n; offs; lia). f_equal. exact Y2.
  - unfold ov_state. rewrite Hid. cbn [mbind option_bind]. destruct (ov_states ov4 !! lo_id o) as [[s v]|]; [congruence|].
    unfold meta_state. rewrite buf_dev by (unfold n; offs; lia). cbn [mbind option_bind]. unfold read_be in Hs. rewrite Hs.
    destruct Hst as [-> | ->]; reflexivity.
  - intros prev. split; [reflexivity|reflexivity|exact Hid| |]; cbn [f_raw].
    + unfold meta_size. rewrite buf_dev by (unfold n; offs; lia). cbn [fmap option_fmap option_map]. f_equal. exact S2.
    + unfold meta_size_pow2. rewrite buf_dev by (unfold n; offs; lia). cbn [fmap option_fmap option_map]. f_equal. exact P2.
Qed.

(** ** Walking *)
Definition first_off (l : list lobj) : N := match l with [] => 0 | o :: _ => lo_off o end.
Definition last_off (prev : option N) (l : list lobj) : option N :=
  match last l with Some o => Some (lo_off o) | None => prev end.
Lemma last_off_cons prev o l : last_off (Some (lo_off o)) l = last_off prev (o :: l).
Proof. unfold last_off. rewrite last_cons. destruct (last l); reflexivity. Qed.

Definition seen_node (ys : nat -> lview) (n : nat) (o : lobj) (next : N) : Prop :=
  lo_off o <> 0 /\
  let raw := dev_read (fst (ys (4 * n + 3)%nat)) (lo_off o)
               (off_lpages (read_be (fst (ys (4 * n + 2)%nat)) (lo_off o + off_key_len) 2)) in
  ov_next (snd (ys (4 * n + 4)%nat)) raw = Some next /\ meta_key raw = Some (lo_key o) /\
  ov_state (snd (ys (4 * n + 5)%nat)) raw = Some (lo_st o) /\
  forall prev, frep {| f_off := lo_off o; f_prev := prev; f_raw := raw |} o prev.
Fixpoint seen (ys : nat -> lview) (n : nat) (l : list lobj) : Prop :=
  match l with [] => True | o :: l => seen_node ys n o (first_off l) /\ seen ys (S n) l end.

Definition matches (key : list N) (st : N) (oid : option N) (o : lobj) : Prop :=
  lo_key o = key /\ lo_st o = st /\ id_ok oid (lo_id o) = true.

(** [f] was found: it is [o], preceded by [l1] and followed by [l2]. *)
Definition found_at (ys : nat -> lview) (l1 : list lobj) (o : lobj) (l2 : list lobj) (prev : option N) (f : found) : Prop :=
  frep f o (last_off prev l1) /\ exists m, ov_next (snd (ys m)) (f_raw f) = Some (first_off l2).

Lemma walk_find ys key st oid fuel : forall n l prev, seen ys n l ->
  match li_walk (visit_find st oid) ys key fuel n (first_off l) prev None with
  | WkFuel => (fuel < length l)%nat
  | WkPanic => False
  | WkDone None => forall o, o ∈ l -> ~ matches key st oid o
  | WkDone (Some f) => exists l1 o l2, l = l1 ++ o :: l2 /\ (forall o', o' ∈ l1 -> ~ matches key st oid o') /\
                         matches key st oid o /\ found_at ys l1 o l2 prev f
  end.
Proof.
  induction fuel as [|fuel IH]; intros n l prev Hs.
  - destruct l as [|o l]; cbn [first_off li_walk]; [cbn; intros o Ho; inversion Ho|].
    destruct Hs as [[Hne _] _]. destruct (N.eqb_spec (lo_off o) 0); [contradiction|]. cbn. lia.
  - destruct l as [|o l]; cbn [first_off li_walk]; [cbn; intros o Ho; inversion Ho|].
    destruct Hs as [(Hne & Hn & Hk & Hst & Hf) Hs]. destruct (N.eqb_spec (lo_off o) 0); [contradiction|].
    cbv zeta in *.
    set (raw := dev_read (fst (ys (4 * n + 3)%nat)) (lo_off o) (off_lpages (read_be (fst (ys (4 * n + 2)%nat)) (lo_off o + off_key_len) 2))) in *.
    rewrite Hn, Hk. specialize (IH (S n) l (Some (lo_off o)) Hs).
    assert (Hrest : ~ matches key st oid o ->
      match li_walk (visit_find st oid) ys key fuel (S n) (first_off l) (Some (lo_off o)) None with
      | WkFuel => (S fuel < length (o :: l))%nat
      | WkPanic => False
      | WkDone None => forall o', o' ∈ o :: l -> ~ matches key st oid o'
      | WkDone (Some f) => exists l1 o' l2, o :: l = l1 ++ o' :: l2 /\ (forall o', o' ∈ l1 -> ~ matches key st oid o') /\
                             matches key st oid o' /\ found_at ys l1 o' l2 prev f
      end).
    { intros Hno. destruct (li_walk _ _ _ fuel _ _ _ _) as [| |[f|]]; [cbn [length]; lia|exact IH| |].
      - destruct IH as (l1 & o' & l2 & -> & H1 & H2 & H3 & H4). exists (o :: l1), o', l2. split; [reflexivity|]. split.
        { intros o'' Ho. apply elem_of_cons in Ho as [->|Ho]; [exact Hno|now apply H1]. }
        split; [exact H2|]. split; [|exact H4]. rewrite <- last_off_cons. exact H3.
      - intros o' Ho. apply elem_of_cons in Ho as [->|Ho]; [exact Hno|now apply IH]. }
    destruct (bool_decide_reflect (lo_key o = key)) as [Hkey|Hkey].
    + unfold visit_find. cbn [f_raw]. rewrite Hst. cbn [mbind option_bind]. pose proof (fr_id _ _ _ (Hf None)) as Hid. cbn [f_raw] in Hid.
      rewrite Hid. cbn [mbind option_bind]. destruct ((lo_st o =? st) && id_ok oid (lo_id o)) eqn:Em.
      * exists [], o, l. split; [reflexivity|]. split; [intros o' Ho; inversion Ho|]. split.
        { apply andb_true_iff in Em as [E1 E2]. apply N.eqb_eq in E1. split; [exact Hkey|]. split; assumption. }
        split; [apply Hf|]. exists (4 * n + 4)%nat. exact Hn.
      * apply Hrest. intros (_ & M2 & M3). rewrite M2, N.eqb_refl, M3 in Em. discriminate.
    + apply Hrest. intros (M1 & _). contradiction.
Qed.

(** The last match in the list, or the initial value. *)
Definition last_match (ys : nat -> lview) (p : lobj -> Prop) (l : list lobj) (prev : option N) (a0 r : option found) : Prop :=
  (r = a0 /\ forall o, o ∈ l -> ~ p o) \/
  (exists l1 o l2 f, l = l1 ++ o :: l2 /\ p o /\ (forall o', o' ∈ l2 -> ~ p o') /\ r = Some f /\ found_at ys l1 o l2 prev f).

Lemma last_match_skip ys (p : lobj -> Prop) o l prev a0 r : ~ p o -> last_match ys p l (Some (lo_off o)) a0 r -> last_match ys p (o :: l) prev a0 r.
Proof.
  intros Hno [[-> H]|(l1 & o' & l2 & f & -> & H1 & H2 & H3 & H4 & H5)].
  - left. split; [reflexivity|]. intros o' Ho. apply elem_of_cons in Ho as [->|Ho]; auto.
  - right. exists (o :: l1), o', l2, f. split; [reflexivity|]. split; [exact H1|]. split; [exact H2|]. split; [exact H3|].
    split; [|exact H5]. rewrite <- last_off_cons. exact H4.
Qed.
Lemma last_match_take ys (p : lobj -> Prop) o l prev a0 f r : p o -> found_at ys [] o l prev f ->
  last_match ys p l (Some (lo_off o)) (Some f) r -> last_match ys p (o :: l) prev a0 r.
Proof.
  intros Hp Hf [[-> H]|(l1 & o' & l2 & f' & -> & H1 & H2 & H3 & H4 & H5)].
  - right. exists [], o, l, f. auto.
  - right. exists (o :: l1), o', l2, f'. split; [reflexivity|]. split; [exact H1|]. split; [exact H2|]. split; [exact H3|].
    split; [|exact H5]. rewrite <- last_off_cons. exact H4.
Qed.

Lemma walk_commit ys key id fuel : forall n l prev acc, seen ys n l ->
  match li_walk (visit_commit id) ys key fuel n (first_off l) prev acc with
  | WkFuel => (fuel < length l)%nat
  | WkPanic => False
  | WkDone (fi, fe) => last_match ys (matches key st_incomplete (Some id)) l prev (fst acc) fi /\
                       last_match ys (matches key st_committed None) l prev (snd acc) fe
  end.
Proof.
  induction fuel as [|fuel IH]; intros n l prev acc Hs.
  - destruct l as [|o l]; cbn [first_off li_walk].
    + destruct acc as [ai ae]. split; left; (split; [reflexivity|intros o Ho; inversion Ho]).
    + destruct Hs as [[Hne _] _]. destruct (N.eqb_spec (lo_off o) 0); [contradiction|]. cbn. lia.
  - destruct l as [|o l]; cbn [first_off li_walk].
    { destruct acc as [ai ae]. split; left; (split; [reflexivity|intros o Ho; inversion Ho]). }
    destruct Hs as [(Hne & Hn & Hk & Hst & Hf) Hs]. destruct (N.eqb_spec (lo_off o) 0); [contradiction|].
    cbv zeta in *.
    set (raw := dev_read (fst (ys (4 * n + 3)%nat)) (lo_off o) (off_lpages (read_be (fst (ys (4 * n + 2)%nat)) (lo_off o + off_key_len) 2))) in *.
    rewrite Hn, Hk.
    assert (Hskip : ~ matches key st_incomplete (Some id) o -> ~ matches key st_committed None o ->
      match li_walk (visit_commit id) ys key fuel (S n) (first_off l) (Some (lo_off o)) acc with
      | WkFuel => (S fuel < length (o :: l))%nat
      | WkPanic => False
      | WkDone (fi, fe) => last_match ys (matches key st_incomplete (Some id)) (o :: l) prev (fst acc) fi /\
                           last_match ys (matches key st_committed None) (o :: l) prev (snd acc) fe
      end).
    { intros N1 N2. specialize (IH (S n) l (Some (lo_off o)) acc Hs).
      destruct (li_walk _ _ _ fuel _ _ _ _) as [| |[fi fe]]; [cbn [length]; lia|exact IH|].
      destruct IH. split; apply last_match_skip; assumption. }
    destruct (bool_decide_reflect (lo_key o = key)) as [Hkey|Hkey].
    2: { apply Hskip; intros (M1 & _); contradiction. }
    unfold visit_commit. cbn [f_raw]. rewrite Hst. cbn [mbind option_bind]. pose proof (fr_id _ _ _ (Hf None)) as Hid. cbn [f_raw] in Hid.
    rewrite Hid. cbn [mbind option_bind].
    assert (Hfa : found_at ys [] o l prev {| f_off := lo_off o; f_prev := prev; f_raw := raw |}).
    { split; [apply Hf|]. exists (4 * n + 4)%nat. exact Hn. }
    destruct ((lo_st o =? st_incomplete) && (lo_id o =? id)) eqn:Em.
    + apply andb_true_iff in Em as [E1 E2]. apply N.eqb_eq in E1. apply N.eqb_eq in E2.
      specialize (IH (S n) l (Some (lo_off o)) (Some {| f_off := lo_off o; f_prev := prev; f_raw := raw |}, snd acc) Hs).
      destruct (li_walk _ _ _ fuel _ _ _ _) as [| |[fi fe]]; [cbn [length]; lia|exact IH|].
      destruct IH as [I1 I2]. split.
      * eapply last_match_take; [|exact Hfa|exact I1]. split; [exact Hkey|]. split; [exact E1|]. cbn. rewrite E2. apply N.eqb_refl.
      * apply last_match_skip; [|exact I2]. intros (_ & M & _). rewrite E1 in M. discriminate.
    + destruct (N.eqb_spec (lo_st o) st_committed) as [E2|E2].
      * specialize (IH (S n) l (Some (lo_off o)) (fst acc, Some {| f_off := lo_off o; f_prev := prev; f_raw := raw |}) Hs).
        destruct (li_walk _ _ _ fuel _ _ _ _) as [| |[fi fe]]; [cbn [length]; lia|exact IH|].
        destruct IH as [I1 I2]. split.
        { apply last_match_skip; [|exact I1]. intros (_ & M & _). rewrite E2 in M. discriminate. }
        eapply last_match_take; [|exact Hfa|exact I2]. split; [exact Hkey|]. split; [exact E2|reflexivity].
      * apply Hskip.
        { intros (_ & M2 & M3). cbn in M3. apply N.eqb_eq in M3. rewrite M2 in Em. rewrite <- M3 in Em. rewrite !N.eqb_refl in Em. discriminate. }
        { intros (_ & M2 & _). contradiction. }
Qed.
End node.
