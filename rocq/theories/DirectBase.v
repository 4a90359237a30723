(** Lemmas the proofs about a whole direct partition need from the parts. *)
From Coq Require Import ZifyBool ZifyNat ZifyN.
From stdpp Require Import base numbers list_numbers option gmap sets list.
From Verif Require Import Util Bytes BuddyModel BuddySpec BuddyProofs BuddyInv LayoutModel LayoutProofs.
From Verif Require Import PageIOModel PageIOSpec PageIOProofs PageIOWrite TuplesModel DirectModel.
Open Scope N_scope.
Ltac Zify.zify_post_hook ::= idtac.

(** ** Permutations by counting *)
Section Mult.
Context {A : Type} `{EqDecision A}.
Fixpoint mult (x : A) (l : list A) : nat :=
  match l with [] => 0 | y :: l => (if decide (x = y) then 1 else 0) + mult x l end.
Lemma mult_nil x : mult x [] = 0%nat. Proof. reflexivity. Qed.
Lemma mult_cons x y l : mult x (y :: l) = ((if decide (x = y) then 1 else 0) + mult x l)%nat.
Proof. reflexivity. Qed.
Lemma mult_app x l k : mult x (l ++ k) = (mult x l + mult x k)%nat.
Proof. induction l as [|y l IH]; [reflexivity|]. cbn [app mult]. rewrite IH. lia. Qed.
Lemma mult_perm x l k : l ≡ₚ k -> mult x l = mult x k.
Proof. induction 1; cbn [mult]; lia. Qed.
Lemma mult_elem x l : (0 < mult x l)%nat <-> x ∈ l.
Proof.
  induction l as [|y l IH]; cbn [mult].
  - split; [lia|]. intros H. inversion H.
  - rewrite elem_of_cons, <- IH. destruct (decide (x = y)); [split; [auto|lia]|]. split; [intros; right; lia|].
    intros [?|?]; [contradiction|lia].
Qed.
Lemma mult_zero x l : x ∉ l -> mult x l = 0%nat.
Proof. intros H. destruct (mult x l) eqn:E; [reflexivity|]. exfalso. apply H, mult_elem. lia. Qed.
Lemma perm_mult l k : (forall x, mult x l = mult x k) -> l ≡ₚ k.
Proof.
  revert k. induction l as [|y l IH]; intros k H.
  - destruct k as [|z k]; [reflexivity|]. specialize (H z). cbn [mult] in H. destruct (decide (z = z)); [lia|contradiction].
  - assert (y ∈ k) as Hk.
    { apply mult_elem. rewrite <- H. cbn [mult]. destruct (decide (y = y)); [lia|contradiction]. }
    apply elem_of_Permutation in Hk as [k' Hk]. rewrite Hk. constructor. apply IH. intros x.
    specialize (H x). rewrite (mult_perm _ _ _ Hk) in H. cbn [mult] in H. lia.
Qed.
Lemma nodup_mult l : NoDup l <-> forall x, (mult x l <= 1)%nat.
Proof.
  induction l as [|y l IH]; cbn [mult].
  - split; [lia|constructor].
  - rewrite NoDup_cons, IH. split.
    + intros [Hy Hl] x. specialize (Hl x). destruct (decide (x = y)) as [->|]; [|lia].
      assert (mult y l = 0)%nat; [|lia]. destruct (mult y l) eqn:E; [reflexivity|]. exfalso. apply Hy, mult_elem. lia.
    + intros H. split.
      * intros Hy. apply mult_elem in Hy. specialize (H y). destruct (decide (y = y)); [lia|contradiction].
      * intros x. specialize (H x). lia.
Qed.
End Mult.

(** Turn every permutation hypothesis into a fact about the count of [x]. *)
Ltac perm_hyps x :=
  repeat match goal with H : _ ≡ₚ _ |- _ => apply (mult_perm x) in H end.
Ltac mult_simpl := rewrite ?mult_app, ?mult_cons, ?mult_nil in *.
Ltac perm_solve :=
  apply perm_mult; let x := fresh "x" in intros x; perm_hyps x;
  repeat (rewrite ?mult_app, ?mult_cons, ?mult_nil in *); lia.
Ltac in_solve :=
  apply mult_elem;
  match goal with |- (0 < mult ?x _)%nat =>
    perm_hyps x;
    repeat match goal with H : x ∈ _ |- _ => apply mult_elem in H end end;
  repeat (rewrite ?mult_app, ?mult_cons, ?mult_nil in * ); repeat (destruct (decide (_ = _))); try congruence; lia.

Lemma bind_perm {A B} (f : A -> list B) l k : l ≡ₚ k -> l ≫= f ≡ₚ k ≫= f.
Proof. intros H. now rewrite H. Qed.

(** ** Values of a map *)
Section Vals.
Context {K : Type} `{Countable K}.
Definition vals (m : gmap K nat) : list nat := (map_to_list m).*2.
Lemma vals_empty : vals ∅ = [].
Proof. unfold vals. now rewrite map_to_list_empty. Qed.
Lemma vals_insert m k v : m !! k = None -> vals (<[k := v]> m) ≡ₚ v :: vals m.
Proof. intros E. unfold vals. rewrite map_to_list_insert by exact E. reflexivity. Qed.
Lemma vals_delete m k v : m !! k = Some v -> vals m ≡ₚ v :: vals (delete k m).
Proof.
  intros E. unfold vals. rewrite <- (map_to_list_delete m k v E). reflexivity.
Qed.
Lemma vals_replace m k v w : m !! k = Some v -> v :: vals (<[k := w]> m) ≡ₚ w :: vals m.
Proof.
  intros E. rewrite <- insert_delete_insert. rewrite vals_insert by apply lookup_delete.
  rewrite (vals_delete m k v E). apply Permutation_swap.
Qed.
Lemma elem_of_vals m v : v ∈ vals m <-> exists k, m !! k = Some v.
Proof.
  unfold vals. rewrite elem_of_list_fmap. split.
  - intros ([k w] & -> & Hk). exists k. now apply elem_of_map_to_list.
  - intros [k E]. exists (k, v). split; [reflexivity|]. now apply elem_of_map_to_list.
Qed.
End Vals.

(** ** The allocator's invariant up to permutation and splitting of held pages *)
Section Alloc.
Context {base heap spage lpage lim : N} {dir : AllocDir}.
Notation inv := (BuddyInv.Inv base heap spage lpage lim dir).

Lemma inv_cnt a l l' f : inv a l f -> (forall u, cnt base spage l u = cnt base spage l' u) ->
  (forall p, p ∈ l' -> page_wf base spage lpage p) -> total_bytes l = total_bytes l' -> inv a l' f.
Proof.
  intros [] Hc Hw Ht. constructor; auto.
  - intros u. now rewrite <- Hc.
  - now rewrite <- Ht.
  - now rewrite <- Ht.
Qed.

Lemma inv_perm a l l' f : inv a l f -> l ≡ₚ l' -> inv a l' f.
Proof.
  intros HI Hp. eapply inv_cnt; [exact HI| | |].
  - intros u. now apply cnt_perm.
  - intros p Hin. apply (inv_live HI). now rewrite Hp.
  - now apply total_bytes_perm.
Qed.

Lemma inv_split a l off p f : spage <= p -> inv a ((off, p + 1) :: l) f ->
  inv a ((off, p) :: (off + 2 ^ p, p) :: l) f.
Proof.
  intros Hp HI. pose proof (inv_live HI (off, p + 1) ltac:(constructor)) as ((H1 & H2) & H3 & H4).
  cbn [fst snd] in *.
  assert (Hp1 : 2 ^ (p + 1) = 2 * 2 ^ p) by (rewrite N.add_1_r; apply N.pow_succ_r').
  pose proof (pow2_nz p) as Hnz. rewrite Hp1 in H4.
  assert (exists n, off - base = n * (2 * 2 ^ p)) as [n Hn].
  { apply N.mod_divide in H4; [|lia]. destruct H4 as [n Hn]. exists n. exact Hn. }
  eapply inv_cnt; [exact HI| | |].
  - intros u. cbn [cnt]. rewrite Nat.add_assoc. f_equal. unfold pcov. cbn [fst snd].
    replace (p + 1 - spage) with (p - spage + 1) by lia. rewrite Hp1, Hn.
    replace (off + 2 ^ p - base) with ((2 * n + 1) * 2 ^ p) by (clear -H3 Hn; lia).
    rewrite !N.div_mul by lia.
    replace (2 ^ (p - spage + 1)) with (2 ^ (p - spage) * 2) by (rewrite N.add_1_r, N.pow_succ_r'; lia).
    rewrite <- N.div_div by (try lia; apply pow2_nz).
    generalize (u / 2 ^ (p - spage)). intros v. unfold one.
    pose proof (N.div_mod v 2 ltac:(lia)). pose proof (N.mod_lt v 2 ltac:(lia)).
    replace (n * (2 * 2 ^ p)) with (2 * n * 2 ^ p) by lia. rewrite N.div_mul by exact Hnz. clear -H H0.
    repeat case_bool_decide; lia.
  - intros q Hq. rewrite !elem_of_cons in Hq. destruct Hq as [->|[->|Hq]].
    + unfold page_wf. cbn [fst snd]. split; [lia|]. split; [exact H3|]. rewrite Hn.
      replace (n * (2 * 2 ^ p)) with (2 * n * 2 ^ p) by lia. apply N.mod_mul. exact Hnz.
    + unfold page_wf. cbn [fst snd]. split; [lia|]. split; [lia|].
      replace (off + 2 ^ p - base) with ((2 * n + 1) * 2 ^ p) by (clear -H3 Hn; lia). apply N.mod_mul. exact Hnz.
    + apply (inv_live HI). now constructor.
  - cbn [total_bytes snd]. rewrite Hp1. lia.
Qed.

(** create_object.rs:48-57. *)
Lemma alloc_list_inv sizes : forall a l f a' r, inv a l f -> alloc_list a sizes = (a', r) ->
  exists f' got, inv a' (got ++ l) f' /\
    match r with
    | Some offs => got ≡ₚ zip offs (alloc_pow2 spage <$> sizes) /\ length offs = length sizes
    | None => True
    end.
Proof.
  induction sizes as [|sz sizes IH]; intros a l f a' r HI E; cbn [alloc_list] in E.
  - injection E as <- <-. exists f, []. split; [exact HI|]. split; reflexivity.
  - destruct (allocate a sz) as [a1 [off| |]] eqn:E1.
    + pose proof E1 as HI1. eapply allocate_inv in HI1; [|exact HI].
      destruct (alloc_list a1 sizes) as [a2 r2] eqn:E2. injection E as <- <-.
      destruct (IH _ _ _ _ _ HI1 E2) as (f' & got & HI2 & Hr).
      exists f', ((off, alloc_pow2 spage sz) :: got). split.
      { eapply inv_perm; [exact HI2|]. cbn. symmetry. apply Permutation_middle. }
      destruct r2 as [offs|]; [|exact I]. destruct Hr as [Hp Hl]. cbn. split; [now constructor|lia].
    + injection E as <- <-. pose proof E1 as HI1. eapply allocate_failed_inv in HI1 as [HI1 _]; [|exact HI].
      eexists _, []. split; [exact HI1|exact I].
    + injection E as <- <-.
      assert (a1 = a) as ->.
      { destruct (N.le_gt_cases (alloc_pow2 spage sz) lpage) as [Hle|Hgt].
        - exfalso. eapply allocate_total; [exact HI|exact Hle|exact E1].
        - revert E1. unfold allocate. rewrite (inv_sp HI), (inv_lp HI).
          destruct (N.leb_spec (alloc_pow2 spage sz) lpage); [lia|]. cbn [negb]. congruence. }
      exists f, []. split; [exact HI|exact I].
Qed.

Lemma release_all_inv l : forall a rest f, inv a (l ++ rest) f ->
  exists a', release_all a l = Ok a' /\ inv a' rest f.
Proof.
  induction l as [|[off p] l IH]; intros a rest f HI; cbn [release_all]; [exists a; auto|].
  change (((off, p) :: l) ++ rest) with ([] ++ (off, p) :: (l ++ rest)) in HI.
  apply release_inv in HI as (a1 & E1 & HI1). rewrite E1. apply IH, HI1.
Qed.
End Alloc.

(** ** Layouts *)
(** Page sizes within the ranges the library accepts, and a heap that metadata
    offsets (48 bits) can address. *)
Record cfg_ok (c : dcfg) : Prop := {
  ck_pages : dc_spage c <= dc_lpage c;
  ck_lpage : dc_lpage c < 32;
  ck_ratio : dc_lpage c <= dc_spage c + 24;
  ck_end : dc_base c + dc_heap c < 2 ^ 48;
}.

Definition dpages (c : dcfg) (m : dmeta) : list page := default [] (data_pages c m).

Record meta_ok (c : dcfg) (m : dmeta) : Prop := {
  mo_count : m_size m / 2 ^ dc_lpage c < 2 ^ 32;
  mo_layout : exists t tails,
    calc_object_layout (dc_spage c) (dc_lpage c) (2 ^ 32) (m_size m) = Some (N.of_nat (length (m_lpages m)), t) /\
    tps_rep t tails /\ length (m_tails m) = length tails /\
    data_pages c m = Some (((fun a => (a, dc_lpage c)) <$> m_lpages m) ++ zip (m_tails m) tails);
}.

Lemma mapM_release (offs tails : list N) : length offs = length tails ->
  mapM (fun '(i, sz) => a ← offs !! N.to_nat i; Some (a, sz)) (enumerate tails) = Some (zip offs tails).
Proof.
  intros Hlen. unfold enumerate.
  assert (G : forall l i0, drop i0 tails = l ->
    mapM (fun '(i, sz) => a ← offs !! N.to_nat i; Some (a, sz))
      (zip (map N.of_nat (seq i0 (length l))) l) = Some (zip (drop i0 offs) l)).
  { intros l. induction l as [|p l IH]; intros i0 E.
    - cbn. destruct (drop i0 offs); reflexivity.
    - cbn [length seq map].
      change (zip (N.of_nat i0 :: map N.of_nat (seq (S i0) (length l))) (p :: l)) with
        ((N.of_nat i0, p) :: zip (map N.of_nat (seq (S i0) (length l))) l).
      assert (Hp : tails !! i0 = Some p).
      { rewrite <- (Nat.add_0_r i0). rewrite <- lookup_drop, E. reflexivity. }
      assert (exists a, offs !! i0 = Some a) as [a Ea].
      { apply lookup_lt_is_Some_2. rewrite Hlen. eapply lookup_lt_Some. exact Hp. }
      cbn [mapM]. rewrite Nat2N.id, Ea. cbn [mbind option_bind].
      rewrite (IH (S i0)).
      + cbn [mbind option_bind]. rewrite (drop_S _ _ _ Ea). reflexivity.
      + rewrite <- (Nat.add_1_r i0), <- drop_drop, E. reflexivity. }
  exact (G tails 0%nat eq_refl).
Qed.

Lemma alloc_pow2_pow2 spage p : spage <= p -> alloc_pow2 spage (2 ^ p) = p.
Proof. intros H. unfold alloc_pow2. rewrite N.log2_up_pow2 by apply N.le_0_l. lia. Qed.

Lemma create_layout c size lc t l a0 a offs live f :
  cfg_ok c ->
  BuddyInv.Inv (dc_base c) (dc_heap c) (dc_spage c) (dc_lpage c) (2 ^ 32) DirRight a0 live f ->
  calc_object_layout (dc_spage c) (dc_lpage c) (2 ^ 32) size = Some (lc, t) -> tps_collect t = Some l ->
  alloc_list a0 (replicate (N.to_nat lc) (N.shiftl 1 (dc_lpage c)) ++ map (fun '(_, sz) => N.shiftl 1 sz) l) = (a, Some offs) ->
  forall created key,
  let m := {| m_size := size; m_created := created; m_key := key;
              m_lpages := take (N.to_nat lc) offs; m_tails := drop (N.to_nat lc) offs |} in
  meta_ok c m /\ exists f', BuddyInv.Inv (dc_base c) (dc_heap c) (dc_spage c) (dc_lpage c) (2 ^ 32) DirRight a (dpages c m ++ live) f'.
Proof.
  intros [C1 C2 C3 _] HI Hc Hl Ha created key m.
  assert (Hlim : size / 2 ^ dc_lpage c < 2 ^ 32 /\ lc = size / 2 ^ dc_lpage c).
  { pose proof Hc as Hc'. unfold calc_object_layout in Hc'. rewrite div_mod_pow2_spec in Hc'.
    destruct (N.ltb_spec (size / 2 ^ dc_lpage c) (2 ^ 32)) as [Hlt|]; [|discriminate].
    split; [exact Hlt|]. destruct (layout_loop _ _ _); [|discriminate]. cbn in Hc'. congruence. }
  destruct Hlim as [Hlim Hlc].
  destruct (calc_layout_spec (dc_spage c) (dc_lpage c) (2 ^ 32) size C1 C2 C3 Hlim) as (t' & tails & Hc' & Ht & _ & _ & _ & Hb & _).
  assert (t' = t) as -> by congruence.
  rewrite (tps_rep_collect _ _ Ht) in Hl. injection Hl as <-.
  assert (Esz : map (fun '(_, sz) => N.shiftl 1 sz) (enumerate tails) = (fun p => 2 ^ p) <$> tails).
  { unfold enumerate. clear. generalize 0%nat as i0. induction tails as [|p l IH]; intros i0; [reflexivity|].
    cbn [length seq map zip zip_with fmap list_fmap]. rewrite IH. f_equal. rewrite N.shiftl_1_l. reflexivity. }
  rewrite Esz in Ha. rewrite N.shiftl_1_l in Ha.
  destruct (alloc_list_inv _ _ _ _ _ _ HI Ha) as (f' & got & HI' & Hgot & Hlen).
  rewrite app_length, replicate_length, fmap_length in Hlen.
  assert (Hl1 : length (take (N.to_nat lc) offs) = N.to_nat lc) by (rewrite take_length; lia).
  assert (Hl2 : length (drop (N.to_nat lc) offs) = length tails) by (rewrite drop_length; lia).
  assert (Hd : data_pages c m = Some (((fun a => (a, dc_lpage c)) <$> m_lpages m) ++ zip (m_tails m) tails)).
  { unfold data_pages. cbn [m_size m_tails m_lpages m]. rewrite Hc. cbn [mbind option_bind].
    rewrite (tps_rep_collect _ _ Ht). cbn [mbind option_bind]. 
    rewrite (mapM_release _ _ Hl2). reflexivity. }
  split.
  - split; [exact Hlim|]. exists t, tails. cbn [m_size m_tails m_lpages m] in *. rewrite Hl1, N2Nat.id. auto.
  - exists f'. eapply inv_perm; [exact HI'|]. apply Permutation_app_tail. unfold dpages. rewrite Hd. cbn [default from_option id].
    change (default [] (Some ?x)) with x. rewrite Hgot.
    rewrite <- (take_drop (N.to_nat lc) offs) at 1. rewrite fmap_app, fmap_replicate.
    rewrite zip_with_app by (rewrite replicate_length; exact Hl1).
    apply reflexive_eq. f_equal.
    + cbn [m_lpages m]. rewrite alloc_pow2_pow2 by exact C1. rewrite <- Hl1 at 2.
      generalize (take (N.to_nat lc) offs). intros k. induction k as [|x k IH]; [reflexivity|]. cbn. now rewrite IH.
    + cbn [m_tails m]. f_equal. rewrite <- list_fmap_compose.
      transitivity (id <$> tails); [|apply list_fmap_id]. apply list_fmap_ext. intros i x Hx. cbn.
      apply alloc_pow2_pow2. apply Hb. eapply elem_of_list_lookup_2, Hx.
Qed.

(** The exponent recorded for a metadata record against the one reserved. *)
Lemma metadata_exponent spage msize : 0 < msize ->
  let p := metadata_page_pow2 spage msize in let P := alloc_pow2 spage msize in
  spage <= p /\ (p = P \/ p + 1 = P) /\ metadata_page_size spage msize <= 2 ^ P /\ msize <= metadata_page_size spage msize.
Proof.
  intros Hm. cbn zeta. unfold metadata_page_pow2.
  assert (H1 : 2 ^ spage <= metadata_page_size spage msize) by (unfold metadata_page_size; lia).
  assert (H2 : msize <= metadata_page_size spage msize).
  { unfold metadata_page_size. pose proof (ceil_pow2_ge msize spage). lia. }
  assert (H3 : spage <= N.log2 (metadata_page_size spage msize)).
  { rewrite <- (N.log2_pow2 spage) at 1 by apply N.le_0_l. apply N.log2_le_mono, H1. }
  pose proof (alloc_pow2_fits spage msize) as (G1 & G2 & G3).
  set (P := alloc_pow2 spage msize) in *.
  assert (H4 : metadata_page_size spage msize <= 2 ^ P).
  { unfold metadata_page_size. apply N.max_lub; [apply N.pow_le_mono_r; lia|].
    destruct (N.le_gt_cases (ceil_pow2 msize spage) (2 ^ P)) as [|Hgt]; [assumption|exfalso].
    pose proof (ceil_pow2_lt msize spage). pose proof (ceil_pow2_mult msize spage) as Hmu.
    assert (2 ^ P mod 2 ^ spage = 0) as HP by (apply pow2_mod_pow2; exact G1).
    assert (Hz := ceil_within (2 ^ P) spage msize HP G2). lia. }
  split; [exact H3|]. split; [|split; [exact H4|exact H2]].
  assert (H5 : N.log2 (metadata_page_size spage msize) <= P).
  { rewrite <- (N.log2_pow2 P) by apply N.le_0_l. apply N.log2_le_mono, H4. }
  destruct (N.eq_dec (N.log2 (metadata_page_size spage msize)) P) as [|Hne]; [left; assumption|right].
  pose proof (N.log2_spec (metadata_page_size spage msize) ltac:(lia)) as [_ Hs]. rewrite <- N.add_1_r in Hs.
  assert (P <= N.log2 (metadata_page_size spage msize) + 1); [|lia].
  apply G3; lia.
Qed.
