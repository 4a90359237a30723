(** A record written by a create, read back from the device; the pages of an
    object. *)
From Coq Require Import ZifyBool ZifyNat ZifyN.
From stdpp Require Import base numbers list_numbers option gmap sets list.
From Verif Require Import Util Bytes BuddyModel BuddySpec BuddyProofs BuddyInv LayoutModel LayoutProofs MetaModel MetaSpec MetaProofs PropertiesMeta.
From Verif Require Import PageIOModel PageIOSpec PageIOProofs DirectModel DirectBase.
From Verif Require Import JournalModel JournalSpec JournalProofs LiteModel LiteSpec LiteJournal LiteNode.
Open Scope N_scope.
Ltac Zify.zify_post_hook ::= idtac.

Definition obj_of_req (r : create_req) : obj :=
  {| o_size := cr_size r; o_lpages := cr_lpages r; o_tails := cr_tails r |}.

Section record.
Context (spage lpage : N).

(** The bytes of [raw] at [off], all of them or those that never change. *)
Definition rec_on (d : device) (off : N) (raw : list N) : Prop :=
  forall i v, raw !! i = Some v -> d (off + N.of_nat i) = v.
Definition rstat (d : device) (o : lobj) : Prop :=
  exists raw, create_record spage lpage (lo_req o) = Some (CrRecord raw (lo_pow2 o)) /\
    forall i v, static_off (N.of_nat i) -> raw !! i = Some v -> d (lo_off o + N.of_nat i) = v.

Lemma rec_on_rstat d o raw : create_record spage lpage (lo_req o) = Some (CrRecord raw (lo_pow2 o)) ->
  rec_on d (lo_off o) raw -> rstat d o.
Proof. intros E H. exists raw. split; [exact E|]. intros i v _ Hi. now apply H. Qed.

Definition req_ok (r : create_req) : Prop :=
  valid_req spage lpage r /\ record_bytes r <= 2 ^ lpage.

Lemma read_ext d off raw n fo len x : (forall i v, static_off (N.of_nat i) -> raw !! i = Some v -> d (off + N.of_nat i) = v) ->
  N.of_nat (length raw) <= n -> (fo = 1 /\ len = 1) \/ 8 <= fo ->
  buf_read raw fo len = Some x -> buf_read (dev_read d off n) fo len = Some x.
Proof.
  intros Hs Hn Hfo E. pose proof (buf_read_inv _ _ _ _ E) as Hl. pose proof (buf_read_length _ _ _ _ E) as Hx.
  rewrite buf_dev by lia. f_equal. apply list_eq. intros i. destruct (decide (N.of_nat i < len)) as [Hi|Hi].
  - rewrite dev_read_lookup by lia. pose proof (buf_read_lookup _ _ _ _ i E Hi) as Ex. rewrite Ex.
    destruct (lookup_lt_is_Some_2 raw (N.to_nat fo + i)%nat) as [v Hv]; [lia|].
    rewrite Hv. f_equal. rewrite <- (Hs (N.to_nat fo + i)%nat v); [f_equal; lia| |exact Hv].
    unfold static_off. lia.
  - rewrite !lookup_ge_None_2; [reflexivity|lia|rewrite dev_read_length; lia].
Qed.

Lemma rstat_ext d d' o : rstat d o ->
  (forall x, static_off x -> x < 2 ^ lo_pow2 o -> d' (lo_off o + x) = d (lo_off o + x)) ->
  spage <= lpage -> req_ok (lo_req o) -> rstat d' o.
Proof.
  intros (raw & E & Hs) He Hsl [Hv Hb]. exists raw. split; [exact E|]. intros i v Hi Hr. rewrite <- (Hs i v Hi Hr). apply He; [exact Hi|].
  destruct (C07_created_record_decodes spage lpage (lo_req o) Hsl Hv Hb) as (raw' & p' & E' & _ & _ & Hlen & _).
  rewrite E in E'. injection E' as <- <-. apply lookup_lt_Some in Hr. lia.
Qed.

(** What the record gives back. *)
Lemma rstat_decodes d o : spage <= lpage -> req_ok (lo_req o) -> rstat d o ->
  spage <= lo_pow2 o <= lpage /\ rec_fields d o /\ record_obj spage lpage (dev_read d (lo_off o) (2 ^ lo_pow2 o)) = Some (obj_of_req (lo_req o)).
Proof.
  intros Hsl [Hv Hb] (raw & E & Hs).
  destruct (C07_created_record_decodes spage lpage (lo_req o) Hsl Hv Hb) as (raw' & p' & E' & _ & Hp & Hlen & _ & D).
  rewrite E in E'. injection E' as <- <-. split; [exact Hp|].
  assert (X : forall fo len x, (fo = 1 /\ len = 1) \/ 8 <= fo -> buf_read raw fo len = Some x ->
                buf_read (dev_read d (lo_off o) (2 ^ lo_pow2 o)) fo len = Some x).
  { intros fo len x Hfo Er. eapply read_ext; eassumption. }
  destruct D as [_ D2 _ _ D5 D6 D7 D8 D9 _].
  set (R := dev_read d (lo_off o) (2 ^ lo_pow2 o)) in *.
  assert (Tp : meta_size_pow2 R = Some (lo_pow2 o)).
  { unfold meta_size_pow2 in *. destruct (buf_read raw _ _) as [x|] eqn:Ex in D2; [|discriminate].
    rewrite (fun H => X _ _ _ H Ex) by (offs; lia). exact D2. }
  assert (Ts : meta_size R = Some (lo_size o)).
  { unfold meta_size in *. destruct (buf_read raw _ _) as [x|] eqn:Ex in D5; [|discriminate].
    rewrite (fun H => X _ _ _ H Ex) by (offs; lia). exact D5. }
  assert (Ti : meta_id R = Some (lo_id o)).
  { unfold meta_id in *. destruct (buf_read raw _ _) as [x|] eqn:Ex in D6; [|discriminate].
    rewrite (fun H => X _ _ _ H Ex) by (offs; lia). exact D6. }
  assert (Tkl : forall n, meta_key_len raw = Some n -> meta_key_len R = Some n).
  { unfold meta_key_len in *. intros n En. destruct (buf_read raw _ _) as [x|] eqn:Ex in En; [|discriminate].
    rewrite (fun H => X _ _ _ H Ex) by (offs; lia). exact En. }
  destruct (meta_key_len raw) as [kl|] eqn:Ekl; [|unfold meta_key in D7; rewrite Ekl in D7; discriminate].
  specialize (Tkl kl eq_refl).
  unfold meta_key in D7. rewrite Ekl in D7. cbn [mbind option_bind] in D7.
  pose proof (buf_read_length _ _ _ _ D7) as Hkl.
  assert (D7' : buf_read R off_key kl = Some (lo_key o)) by (apply X; [offs; lia|exact D7]).
  assert (Q : forall fo len x, buf_read R fo len = Some x -> x = dev_read d (lo_off o + fo) len).
  { intros fo len x Er. pose proof (buf_read_inv _ _ _ _ Er) as Hl. unfold R in Hl. rewrite dev_read_length in Hl.
    unfold R in Er. rewrite buf_dev in Er by lia. congruence. }
  split.
  - split; unfold read_be.
    + unfold meta_size_pow2 in Tp. destruct (buf_read R _ _) as [x|] eqn:Ex in Tp; [|discriminate]. apply Q in Ex as ->.
      cbn [fmap option_fmap option_map] in Tp. injection Tp as Tp. exact Tp.
    + unfold meta_size in Ts. destruct (buf_read R _ _) as [x|] eqn:Ex in Ts; [|discriminate]. apply Q in Ex as ->.
      cbn [fmap option_fmap option_map] in Ts. injection Ts as Ts. exact Ts.
    + unfold meta_id in Ti. destruct (buf_read R _ _) as [x|] eqn:Ex in Ti; [|discriminate]. apply Q in Ex as ->.
      cbn [fmap option_fmap option_map] in Ti. injection Ti as Ti. exact Ti.
    + unfold meta_key_len in Tkl. destruct (buf_read R _ _) as [x|] eqn:Ex in Tkl; [|discriminate]. apply Q in Ex as ->.
      cbn [fmap option_fmap option_map] in Tkl. injection Tkl as Tkl. rewrite Hkl. exact Tkl.
    + apply Q in D7'. rewrite Hkl. congruence.
  - unfold record_obj. rewrite Ts. cbn [mbind option_bind].
    destruct (vr_layout _ _ _ Hv) as (t & Ht & Htl). rewrite Ht. cbn [mbind option_bind]. rewrite Htl, !Nat2N.id.
    assert (M : forall (f : N -> option N) (l : list N), (forall i p, l !! i = Some p -> f (N.of_nat i) = Some p) ->
              mapM (fun i => f (N.of_nat i)) (seq 0 (length l)) = Some l).
    { intros f l Hf. apply mapM_Some. apply Forall2_same_length_lookup. split; [rewrite seq_length; reflexivity|].
      intros i x y Hi Hy. apply lookup_seq in Hi as [-> _]. now apply Hf. }
    rewrite (M (fun i => meta_lpage R i)).
    2: { intros i p Hi. specialize (D8 i p Hi). unfold meta_lpage in *. rewrite Tkl. rewrite Ekl in D8. cbn [mbind option_bind] in *.
         destruct (buf_read raw _ _) as [x|] eqn:Ex in D8; [|discriminate]. rewrite (fun H => X _ _ _ H Ex) by (offs; lia). exact D8. }
    cbn [mbind option_bind]. rewrite (M (fun i => meta_tail_page spage lpage R i)).
    2: { intros i p Hi. specialize (D9 i p Hi). unfold meta_tail_page, meta_layout in *. rewrite Tkl, Ts. rewrite Ekl, D5 in D9.
         cbn [mbind option_bind] in *. rewrite Ht in *. cbn [mbind option_bind] in *.
         destruct (buf_read raw _ _) as [x|] eqn:Ex in D9; [|discriminate]. rewrite (fun H => X _ _ _ H Ex) by (offs; lia). exact D9. }
    reflexivity.
Qed.

(** ** Pages *)
Definition dpages (r : create_req) : list page := default [] (obj_pages spage lpage (obj_of_req r)).

Context (Hsl : spage <= lpage) (Hl32 : lpage < 32) (Hrat : lpage <= spage + 24).

Lemma layout_lim size : size < 2 ^ 40 -> size / 2 ^ lpage < 2 ^ 64.
Proof.
  intros H. eapply N.le_lt_trans; [apply N.div_le_upper_bound with (q := size); [apply pow2_nz|]|].
  - pose proof (pow2_pos lpage). nia.
  - eapply N.lt_trans; [exact H|reflexivity].
Qed.

Lemma req_pages r : valid_req spage lpage r ->
  exists t tails, calc_object_layout spage lpage (2 ^ 64) (cr_size r) = Some (N.of_nat (length (cr_lpages r)), t) /\
    tps_rep t tails /\ length (cr_tails r) = length tails /\ (forall x, x ∈ tails -> spage <= x <= lpage) /\
    obj_pages spage lpage (obj_of_req r) = Some (((fun a => (a, lpage)) <$> cr_lpages r) ++ zip (cr_tails r) tails) /\
    dpages r = ((fun a => (a, lpage)) <$> cr_lpages r) ++ zip (cr_tails r) tails.
Proof.
  intros Hv. destruct (vr_layout _ _ _ Hv) as (t & Ht & Htl).
  destruct (calc_layout_spec spage lpage (2 ^ 64) (cr_size r) Hsl Hl32 Hrat (layout_lim _ (vr_size _ _ _ Hv)))
    as (t' & tails & Hc' & Hrep & _ & _ & _ & Hb & _).
  rewrite Hc' in Ht. injection Ht as El <-. exists t', tails. rewrite Hc', El.
  assert (Hlen : length (cr_tails r) = length tails). { pose proof (tps_rep_len _ _ Hrep). lia. }
  assert (Ho : obj_pages spage lpage (obj_of_req r) = Some (((fun a => (a, lpage)) <$> cr_lpages r) ++ zip (cr_tails r) tails)).
  { unfold obj_pages. cbn [obj_of_req o_size o_tails o_lpages]. rewrite Hc'. cbn [mbind option_bind].
    rewrite (tps_rep_collect _ _ Hrep). cbn [mbind option_bind]. rewrite (mapM_release _ _ Hlen). reflexivity. }
  split; [reflexivity|]. split; [exact Hrep|]. split; [exact Hlen|]. split; [exact Hb|]. split; [exact Ho|].
  unfold dpages. rewrite Ho. reflexivity.
Qed.

Notation inv base heap := (BuddyInv.Inv base heap spage lpage (2 ^ 64) DirLeft).

Lemma lite_object_pages base heap r a L f : valid_req spage lpage r -> inv base heap a (dpages r ++ L) f ->
  object_pages Lite spage lpage (obj_of_req r) (dpages r).
Proof.
  intros Hv HI. destruct (req_pages r Hv) as (t & tails & Ec & Hrep & Hlen & Hb & _ & Hd).
  constructor; auto.
  - cbn [obj_of_req o_size]. apply layout_lim, (vr_size _ _ _ Hv).
  - exists t, tails. split; [exact Ec|]. split; [intros idx; now apply tps_rep_get|]. split; [exact Hlen|]. exact Hd.
  - intros i j p q x Hij Hi Hj Hp Hq. eapply live_disjoint in HI.
    apply (HI i j p q Hij (lookup_app_l_Some _ _ _ _ Hi) (lookup_app_l_Some _ _ _ _ Hj) x). split; assumption.
  - intros x p Hx. assert (Hin : (x, p) ∈ dpages r ++ L) by (apply elem_of_app; auto).
    pose proof HI as HI2. eapply live_well_placed in HI2; [|exact Hin]. destruct HI2 as ((H1 & H2) & H3 & _). cbn [fst snd] in *.
    apply (mod_pow2_le x spage p); assumption.
Qed.

Lemma enum_sizes (tails : list N) : map (fun '(_, sz) => N.shiftl 1 sz) (enumerate tails) = (fun p => 2 ^ p) <$> tails.
Proof.
  unfold enumerate. generalize 0%nat as i0. induction tails as [|p l IH]; intros i0; [reflexivity|].
  cbn [length seq map zip zip_with fmap list_fmap]. rewrite IH. f_equal. apply N.shiftl_1_l.
Qed.
Lemma enumerate_length (l : list N) : length (enumerate l) = length l.
Proof. unfold enumerate. rewrite zip_with_length, map_length, seq_length. lia. Qed.

Definition mkreq key size assoc id ms ls ts : create_req :=
  {| cr_key := key; cr_size := size; cr_assoc := assoc; cr_id := id; cr_created_ms := ms; cr_lpages := ls; cr_tails := ts |}.

Lemma lite_create_layout base heap key size assoc id ms lc t l a0 a offs live f msize :
  N.of_nat (length key) < 2 ^ 16 -> N.of_nat (length assoc) < 2 ^ 16 -> size < 2 ^ 40 -> id < 2 ^ 128 -> ms < 2 ^ 48 ->
  base + heap <= 2 ^ 48 ->
  inv base heap a0 live f ->
  calc_object_layout spage lpage (2 ^ 64) size = Some (lc, t) -> tps_collect t = Some l ->
  alloc_list a0 (replicate (N.to_nat lc) (N.shiftl 1 lpage) ++ map (fun '(_, sz) => N.shiftl 1 sz) l ++ [msize]) = (a, Some offs) ->
  let r := mkreq key size assoc id ms (take (N.to_nat lc) offs) (take (length l) (drop (N.to_nat lc) offs)) in
  valid_req spage lpage r /\ length (cr_lpages r) = N.to_nat lc /\ length (cr_tails r) = length l /\
  exists off f', drop (N.to_nat lc + length l) offs = [off] /\
    inv base heap a ((dpages r ++ [(off, alloc_pow2 spage msize)]) ++ live) f'.
Proof.
  intros Hk Has Hsz Hid Hms Hend HI Hc Hl Ha r.
  destruct (calc_layout_spec spage lpage (2 ^ 64) size Hsl Hl32 Hrat (layout_lim _ Hsz)) as (t' & tails & Hc' & Ht & _ & _ & _ & Hb & _).
  assert (t' = t) as -> by congruence.
  rewrite (tps_rep_collect _ _ Ht) in Hl. injection Hl as <-. rewrite enum_sizes in Ha. rewrite N.shiftl_1_l in Ha.
  destruct (alloc_list_inv _ _ _ _ _ _ HI Ha) as (f' & got & HI' & Hgot & Hlen).
  rewrite !app_length, replicate_length, fmap_length in Hlen. cbn [length] in Hlen.
  subst r. rewrite enumerate_length in *.
  set (n := N.to_nat lc) in *. set (m := length tails) in *.
  set (r := mkreq key size assoc id ms (take n offs) (take m (drop n offs))).
  assert (Hl1 : length (take n offs) = n) by (rewrite take_length; lia).
  assert (Hl2 : length (take m (drop n offs)) = m) by (rewrite take_length, drop_length; lia).
  destruct (drop (n + m) offs) as [|off [|]] eqn:Ed; [exfalso|..|exfalso].
  1,3: apply (f_equal length) in Ed; rewrite drop_length in Ed; cbn [length] in Ed; lia.
  assert (Eo : offs = take n offs ++ take m (drop n offs) ++ [off]).
  { rewrite <- (take_drop n offs) at 1. f_equal. rewrite <- (take_drop m (drop n offs)) at 1. f_equal. rewrite drop_drop. exact Ed. }
  assert (Hg2 : got ≡ₚ (((fun x => (x, lpage)) <$> take n offs) ++ zip (take m (drop n offs)) tails) ++ [(off, alloc_pow2 spage msize)]).
  { rewrite Hgot. rewrite Eo at 1. rewrite !fmap_app, fmap_replicate.
    rewrite zip_with_app by (rewrite replicate_length; exact Hl1).
    rewrite zip_with_app by (rewrite !fmap_length; exact Hl2). rewrite <- app_assoc. apply reflexive_eq. f_equal; [|f_equal].
    - rewrite alloc_pow2_pow2 by exact Hsl. rewrite <- Hl1 at 2.
      generalize (take n offs). intros k. induction k as [|x k IH]; [reflexivity|]. cbn. now rewrite IH.
    - f_equal. rewrite <- list_fmap_compose.
      transitivity (Datatypes.id <$> tails); [|apply list_fmap_id]. apply list_fmap_ext. intros i x Hx. cbn.
      apply alloc_pow2_pow2. apply Hb. eapply elem_of_list_lookup_2, Hx. }
  assert (Hv : valid_req spage lpage r).
  { split; auto.
    - intros p Hp. assert (exists e, (p, e) ∈ got) as [e He].
      { cbn [r mkreq cr_lpages cr_tails] in Hp. apply elem_of_app in Hp as [Hp|Hp].
        - exists lpage. rewrite Hg2. rewrite !elem_of_app. left. left. apply elem_of_list_fmap. eauto.
        - apply elem_of_list_lookup in Hp as [i Hi]. destruct (lookup_lt_is_Some_2 tails i) as [e He].
          { apply lookup_lt_Some in Hi. rewrite Hl2 in Hi. exact Hi. }
          exists e. rewrite Hg2. rewrite !elem_of_app. left. right. apply elem_of_list_lookup. exists i.
          apply lookup_zip_with_Some. eauto. }
      eapply live_well_placed in HI'; [|apply elem_of_app; left; exact He]. destruct HI' as (_ & _ & Hh).
      specialize (Hh p). unfold page_bytes, in_heap in Hh. cbn [fst snd] in Hh. pose proof (pow2_pos e) as He0. lia.
    - exists t. cbn [r mkreq cr_size cr_lpages cr_tails]. rewrite Hl1, Hl2. unfold n. rewrite N2Nat.id. split; [exact Hc|].
      apply tps_rep_len, Ht. }
  split; [exact Hv|]. split; [exact Hl1|]. split; [exact Hl2|]. exists off, f'. split; [reflexivity|].
  eapply inv_perm; [exact HI'|]. apply Permutation_app_tail. rewrite Hg2. apply Permutation_app_tail, reflexive_eq.
  destruct (req_pages r Hv) as (t2 & tails2 & Ec2 & Hrep2 & Hlen2 & _ & _ & Hd2). rewrite Hd2.
  cbn [r mkreq cr_size cr_lpages cr_tails] in *. rewrite Hc in Ec2. injection Ec2 as _ <-.
  rewrite (tps_rep_unique _ _ _ Hrep2 (fun idx => tps_rep_get _ _ idx Ht)). reflexivity.
Qed.

(** The record built before the pages are known has the same length. *)
Lemma create_record_nil key size assoc id ms lc t :
  N.of_nat (length key) < 2 ^ 16 -> N.of_nat (length assoc) < 2 ^ 16 ->
  calc_object_layout spage lpage (2 ^ 64) size = Some (lc, t) ->
  let n := off_total (N.of_nat (length key)) lc (tps_len t) (N.of_nat (length assoc)) in
  (2 ^ lpage < n /\ create_record spage lpage (mkreq key size assoc id ms [] []) = Some CrTooLarge) \/
  (n <= 2 ^ lpage /\ exists raw p, create_record spage lpage (mkreq key size assoc id ms [] []) = Some (CrRecord raw p) /\
     N.of_nat (length raw) = n).
Proof.
  intros Hk Ha Hc n. unfold create_record. cbn [mkreq cr_key cr_size cr_assoc cr_id cr_created_ms cr_lpages cr_tails].
  destruct (N.leb_spec (2 ^ 16) (N.of_nat (length key))) as [|_]; [lia|]. rewrite Hc. cbn [mbind option_bind].
  destruct (N.leb_spec (2 ^ 16) (N.of_nat (length assoc))) as [|_]; [lia|]. fold n.
  destruct (N.ltb_spec (2 ^ lpage) n) as [Hn|Hn]; [left; auto|right]. split; [exact Hn|].
  assert (Hn0 : 37 <= n) by (unfold n, off_total; offs; lia).
  destruct (N.ltb_spec lpage (N.max spage (N.log2_up n))) as [Hp|Hp].
  { exfalso. assert (N.log2_up n <= lpage); [|lia].
    transitivity (N.log2_up (2 ^ lpage)); [apply N.log2_up_le_mono; assumption|]. rewrite N.log2_up_pow2 by lia. lia. }
  assert (En : n = 39 + N.of_nat (length key) + 6 * lc + 6 * tps_len t + N.of_nat (length assoc)) by (unfold n, off_total; offs; lia).
  assert (HL : N.of_nat (length (replicate (N.to_nat n) 0)) = n) by (rewrite replicate_length; lia).
  generalize dependent (replicate (N.to_nat n) 0). intros b0 Hb0.
  clearbody n. clear Hn Hp Hc.
  do 9 (match goal with |- context [buf_write ?b ?o ?d] =>
    let b' := fresh "b" in let E := fresh "E" in let L := fresh "L" in
    destruct (buf_write_Some b o d) as (b' & E & L);
    [offs; rewrite ?be_bytes_length; cbn [length]; lia|rewrite E; cbn [mbind option_bind]] end).
  cbn [write_pages mbind option_bind]. eexists _, _. split; [reflexivity|]. lia.
Qed.
End record.
