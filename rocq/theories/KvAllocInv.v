(** The invariant of the heap allocator of libblobd-kv over histories. *)
From stdpp Require Import gmap sets fin_sets.
From Verif Require Import Util BuddyModel BuddySpec BuddyProofs BuddyInv KvAllocModel KvAllocSpec KvAllocProofs.
Ltac Zify.zify_post_hook ::= idtac.
Open Scope N_scope.
#[local] Opaque pieces ka_loop N.pow.

Section KI.
Context (base heap spage lpage : N).
Hypothesis Hsp1 : 1 <= spage.
Hypothesis Hlp63 : lpage <= 63.
Local Notation INV := (Inv base heap spage lpage (heap + 1) DirLeft).
Local Notation SAME := (same base heap spage lpage).

(** Shape of an extent. *)
Definition ext_ok (e : extent) : Prop :=
  0 < snd e /\ alloc_pow2 spage (snd e) <= lpage /\ fst e mod 2 ^ alloc_pow2 spage (snd e) = 0.

Lemma ext_ok_placed e : well_placed_extent base heap spage lpage e -> ext_ok e.
Proof.
  intros (H1 & (p & Hp & Hl & Ha) & _). apply cont_fits in Hp. subst p. split; [exact H1|]. auto.
Qed.

Lemma ext_ok_fuel e : ext_ok e -> ceil_pow2 (snd e) spage < 2 ^ N.of_nat 64.
Proof.
  intros (H1 & H2 & _). eapply N.le_lt_trans; [now apply ceil_le_cont|].
  eapply N.le_lt_trans; [apply (N.pow_le_mono_r 2 _ 63); [discriminate|clear -H2 Hlp63; lia]|reflexivity].
Qed.

Lemma ext_ok_pos e : ext_ok e -> 0 < ceil_pow2 (snd e) spage.
Proof. intros (H1 & _). pose proof (ceil_pow2_ge (snd e) spage). lia. Qed.

Lemma ext_ok_aligned e : ext_ok e -> fst e mod 2 ^ N.log2 (ceil_pow2 (snd e) spage) = 0.
Proof.
  intros He. pose proof (ext_ok_pos e He) as Hp. destruct He as (H1 & H2 & H3).
  apply (mod_pow2_le _ _ (alloc_pow2 spage (snd e))); [|exact H3].
  rewrite <- (N.log2_pow2 (alloc_pow2 spage (snd e))) by apply N.le_0_l.
  apply N.log2_le_mono. now apply ceil_le_cont.
Qed.

Lemma ext_pieces_bytes e b : ext_ok e ->
  (extent_bytes spage e b <-> exists p, p ∈ ext_pieces spage e /\ page_bytes p b).
Proof.
  intros He. pose proof (ext_ok_fuel e He) as Hf. pose proof (ext_ok_aligned e He) as Ha. split.
  - intros (r & Hr & Hb). apply rounded_unique in Hr. subst r. apply pieces_bytes; assumption.
  - intros (p & Hp & Hb). exists (ceil_pow2 (snd e) spage). split; [apply rounded_ceil|].
    pose proof (pieces_wf spage 64 _ _ Hf (ceil_pow2_mult _ _) Ha p Hp) as (_ & _ & H1 & H2).
    unfold page_bytes in Hb. clear -Hb H1 H2. revert Hb H1 H2. generalize (2 ^ snd p). intros. lia.
Qed.

Lemma ext_pieces_placed e : spage <= lpage -> ext_ok e ->
  (forall b, extent_bytes spage e b -> base <= b < base + heap) ->
  forall p, p ∈ ext_pieces spage e -> well_placed base heap spage lpage p.
Proof.
  intros Hsl He Hin p Hp. pose proof (ext_ok_fuel e He) as Hf. pose proof (ext_ok_aligned e He) as Ha.
  pose proof (pieces_wf spage 64 _ _ Hf (ceil_pow2_mult _ _) Ha p Hp) as (H1 & H2 & _).
  split; [|split; [exact H2|]].
  - split; [apply H1|]. destruct H1 as [_ H1]. etransitivity; [exact H1|].
    destruct He as (G1 & G2 & _). etransitivity; [|exact G2].
    rewrite <- (N.log2_pow2 (alloc_pow2 spage (snd e))) by apply N.le_0_l.
    apply N.log2_le_mono. now apply ceil_le_cont.
  - intros b Hb. apply Hin. apply ext_pieces_bytes; [exact He|]. eauto.
Qed.

Record KI (a : KvAlloc) (live : list extent) (total : N) : Prop := {
  ki_g : exists g, INV g (all_pieces spage live) 0 /\ SAME a g;
  ki_ok : forall e, e ∈ live -> ext_ok e;
  ki_metric : ka_metric a = Z.of_N total }.

Lemma new_ki a0 : spage <= lpage -> kv_alloc_new base heap spage lpage = Ok a0 -> KI a0 [] 0.
Proof using Type.
  intros Hsl H. unfold kv_alloc_new in H.
  destruct (negb _) eqn:E1; [discriminate|]. destruct (negb (mod_pow2 heap _ =? 0)) eqn:E2; [discriminate|].
  inversion H; subst a0; clear H. constructor; [|intros e He; inversion He|reflexivity].
  destruct (allocator_new base heap spage lpage (heap + 1) DirLeft) as [g| |] eqn:E.
  - exists g. split; [exact (new_inv _ _ _ _ _ _ _ Hsl E)|].
    unfold allocator_new in E. rewrite E1, E2 in E. destruct (forallb _ _); [|discriminate].
    inversion E; subst g. constructor; reflexivity.
  - unfold allocator_new in E. rewrite E1, E2 in E. destruct (forallb _ _); discriminate.
  - exfalso. unfold allocator_new in E. rewrite E1, E2 in E. destruct (forallb _ _) eqn:F; [discriminate|].
    assert (T : forallb (fun sz => div_pow2 heap sz <? heap + 1) (seqN spage (lpage + 1 - spage)) = true).
    { apply forallb_forall. intros x _. rewrite div_pow2_spec. apply N.ltb_lt.
      apply N.le_lt_trans with heap; [|clear; lia]. pose proof (pow2_pos x).
      apply N.div_le_upper_bound; [apply pow2_nz|]. clear -H. revert H. generalize (2 ^ x). intros. nia. }
    congruence.
Qed.

Lemma loop_fields op fuel : forall a off rem a', ka_loop op fuel a off rem = Ok a' ->
  ka_base a' = ka_base a /\ ka_heap a' = ka_heap a /\ ka_spage a' = ka_spage a /\ ka_lpage a' = ka_lpage a.
Proof.
  induction fuel as [|fuel IH]; intros a off rem a'; cbn [ka_loop].
  - destruct (rem =? 0); [|discriminate]. intros H; inversion H; auto.
  - destruct (rem =? 0); [intros H; inversion H; auto|]. destruct (N.log2 rem =? 0); [discriminate|].
    destruct (ka_page op a off (N.log2 rem)) as [a1| |] eqn:E; try discriminate. intros H.
    apply IH in H as (-> & -> & -> & ->).
    unfold ka_page in E. destruct (_ <? _); [discriminate|]. destruct (negb _); [discriminate|].
    destruct (op _ _ _ _); inversion E. auto.
Qed.

Lemma same_add a g d : SAME a g -> SAME (ka_add a d) g.
Proof. intros [? ? ? ? ?]. constructor; assumption. Qed.

Lemma mark_ki a live total off size a' :
  KI a live total -> ext_ok (off, size) -> kv_mark a off size = Ok a' ->
  KI a' ((off, size) :: live) (total + ceil_pow2 size spage).
Proof using Hsp1 Hlp63.
  intros [(g & HI & HS) Hok Hmet] He Hm. unfold kv_mark in Hm. rewrite (sm_sp HS) in Hm.
  destruct (ka_loop _ _ _ _ _) as [a1| |] eqn:E; try discriminate. inversion Hm; subst a'; clear Hm.
  destruct (loop_mark_inv base heap spage lpage Hsp1 64 a g _ 0 off _ a1 HI HS (ext_ok_fuel (off, size) He)
    (ceil_pow2_mult size spage) (ext_ok_aligned (off, size) He) E) as (g' & HI' & HS' & Hm').
  constructor.
  - exists g'. split; [|now apply same_add]. unfold all_pieces. cbn [map concat].
    apply (inv_perm _ _ _ _ _ _ _ _ _ _ HI'). apply Permutation_app; [apply reverse_Permutation|reflexivity].
  - intros e H. apply elem_of_cons in H as [->|H]; auto.
  - cbn [ka_add ka_metric]. rewrite Hm', Hmet. clear; lia.
Qed.

(** The bytes of live extents are the bytes of their pages. *)
Lemma live_bytes live b : (forall e, e ∈ live -> ext_ok e) ->
  ((exists e, e ∈ live /\ extent_bytes spage e b) <-> exists p, p ∈ all_pieces spage live /\ page_bytes p b).
Proof.
  intros Hok. split.
  - intros (e & He & Hb). apply ext_pieces_bytes in Hb as (p & Hp & Hb); [|now apply Hok].
    exists p. split; [|exact Hb]. apply elem_all_pieces. eauto.
  - intros (p & Hp & Hb). apply elem_all_pieces in Hp as (e & He & Hp). exists e. split; [exact He|].
    apply ext_pieces_bytes; [now apply Hok|]. eauto.
Qed.

Lemma mark_succeeds a live total off size :
  KI a live total -> well_placed_extent base heap spage lpage (off, size) ->
  (forall e, e ∈ live -> extents_disjoint spage (off, size) e) ->
  exists a', kv_mark a off size = Ok a'.
Proof using Hsp1 Hlp63.
  intros [(g & HI & HS) Hok Hmet] Hw Hd. pose proof (ext_ok_placed _ Hw) as He.
  unfold kv_mark. rewrite (sm_sp HS).
  destruct (loop_mark_ok base heap spage lpage Hsp1 64 a g _ 0 off _ HI HS (ext_ok_fuel (off, size) He)
    (ceil_pow2_mult size spage) (ext_ok_aligned (off, size) He)) as (a' & g' & E & _).
  - intros p Hp. split.
    + apply (ext_pieces_placed (off, size) (inv_sl HI) He); [apply Hw|exact Hp].
    + intros q Hq b [B1 B2]. destruct (proj2 (live_bytes live b Hok)) as (e & Hel & Heb); [eauto|].
      apply (Hd e Hel b). split; [|exact Heb]. apply ext_pieces_bytes; [exact He|]. eauto.
  - cbn [snd] in E. rewrite E. eauto.
Qed.

Lemma first_spec b p l off : ka_first b p l = Some off ->
  exists i m n, l !! i = Some m /\ n ∈ m /\ off = n * 2 ^ (p + N.of_nat i) + b.
Proof.
  revert p. induction l as [|m l IH]; intros p; cbn [ka_first]; [discriminate|].
  destruct (bitmap_min m) as [n|] eqn:E.
  - intros H. inversion H; subst off. exists 0%nat, m, n. split; [reflexivity|].
    split; [now apply bitmap_min_some in E as [? _]|]. rewrite mul_pow2_spec, N.add_0_r. reflexivity.
  - intros H. destruct (IH _ H) as (i & m' & n & H1 & H2 & ->). exists (S i), m', n.
    split; [exact H1|]. split; [exact H2|]. do 3 f_equal. clear; lia.
Qed.
Lemma first_none b p l : ka_first b p l = None <-> forall i m, l !! i = Some m -> m = ∅.
Proof.
  revert p. induction l as [|m l IH]; intros p; cbn [ka_first].
  - split; [|reflexivity]. intros _ i m H. inversion H.
  - destruct (bitmap_min m) as [n|] eqn:E.
    + split; [discriminate|]. intros H. specialize (H 0%nat m eq_refl). subst m. discriminate E.
    + rewrite IH. assert (Hm : m = ∅) by (apply (pick_none DirLeft); exact E). split.
      * intros H [|i] m' Hi; [inversion Hi; congruence|]. exact (H i m' Hi).
      * intros H i m' Hi. exact (H (S i) m' Hi).
Qed.

Lemma cont_eq size : N.max (2 ^ spage) (2 ^ N.log2_up size) = 2 ^ alloc_pow2 spage size.
Proof using Type.
  unfold alloc_pow2. destruct (N.max_spec spage (N.log2_up size)) as [[H ->]|[H ->]].
  - apply N.max_r. apply N.pow_le_mono_r; [discriminate|clear -H; lia].
  - apply N.max_l. apply N.pow_le_mono_r; [discriminate|clear -H; lia].
Qed.

(** [allocate] in the vocabulary of pages. *)
Lemma allocate_eq a live total size : KI a live total -> size <= 2 ^ 31 -> alloc_pow2 spage size <= lpage ->
  kv_allocate a size =
  match ka_first base (alloc_pow2 spage size) (drop (N.to_nat (alloc_pow2 spage size - spage)) (ka_free a)) with
  | None => OutOfSpace
  | Some off =>
      match kv_mark a off size with Ok a => Ok (a, off) | OutOfSpace => OutOfSpace | Panic => Panic end
  end.
Proof using Type.
  intros [(g & HI & HS) _ _] Hs Hl. unfold kv_allocate. rewrite (sm_sp HS), (sm_lp HS), (sm_base HS).
  destruct (N.ltb_spec (2 ^ 31) size) as [H|_]; [clear -H Hs; lia|].
  rewrite cont_eq. destruct (N.leb_spec (2 ^ alloc_pow2 spage size) (2 ^ lpage)) as [_|H]; cbn [negb].
  - rewrite N.log2_pow2 by apply N.le_0_l. reflexivity.
  - exfalso. apply (N.pow_le_mono_r 2) in Hl; [|discriminate]. clear -H Hl.
    revert H Hl. generalize (2 ^ lpage) (2 ^ alloc_pow2 spage size). intros. lia.
Qed.

(** A page found by [get_free_page_with_min_size] is a free page and holds the extent. *)
Lemma found_free a g live p off :
  INV g live 0 -> SAME a g -> spage <= p ->
  ka_first base p (drop (N.to_nat (p - spage)) (ka_free a)) = Some off ->
  exists q, free_page g q /\ fst q = off /\ p <= snd q.
Proof.
  intros HI HS Hp H. apply first_spec in H as (i & m & n & H1 & H2 & ->).
  rewrite lookup_drop, (sm_free HS) in H1.
  exists (n * 2 ^ (p + N.of_nat i) + base, p + N.of_nat i). cbn [fst snd]. split; [|split; [reflexivity|clear; lia]].
  exists (N.to_nat (p - spage) + i)%nat, m, n. split; [exact H1|]. split; [exact H2|]. cbn [fst snd].
  rewrite (inv_sp HI), (inv_base HI). split; [clear -Hp; lia|clear; lia].
Qed.

Lemma found_placed a live total size off :
  KI a live total -> 0 < size -> alloc_pow2 spage size <= lpage ->
  ka_first base (alloc_pow2 spage size) (drop (N.to_nat (alloc_pow2 spage size - spage)) (ka_free a)) = Some off ->
  well_placed_extent base heap spage lpage (off, size) /\
  (forall e, e ∈ live -> extents_disjoint spage (off, size) e).
Proof using Hsp1 Hlp63.
  intros HK Hs Hl Hf. destruct HK as [(g & HI & HS) Hok Hmet].
  destruct (cont_alloc spage size) as (C1 & C2 & C3).
  destruct (found_free _ _ _ _ _ HI HS C1 Hf) as (q & Hq & Eq & Hqp).
  destruct (free_page_wf _ _ _ _ _ _ _ _ _ _ HI Hq) as ((Hq1 & Hq2 & Hq3) & _).
  assert (Hal : off mod 2 ^ alloc_pow2 spage size = 0).
  { apply (mod_pow2_le _ _ (snd q) Hqp).
    replace off with (base + (fst q - base)) by (clear -Eq Hq2; lia).
    apply mod_add_0; [apply pow2_nz| |exact Hq3].
    apply (mod_pow2_le _ _ lpage (proj2 Hq1)), (inv_balign HI). }
  assert (He : ext_ok (off, size)) by (split; [exact Hs|split; [exact Hl|exact Hal]]).
  assert (Hsub : forall b, extent_bytes spage (off, size) b -> page_bytes q b).
  { intros b (r & Hr & Hb). apply rounded_unique in Hr. subst r. cbn [fst snd] in *.
    pose proof (ceil_le_cont spage size Hs) as G1.
    pose proof (N.pow_le_mono_r 2 _ _ ltac:(discriminate) Hqp) as G2. unfold page_bytes. rewrite Eq.
    clear -Hb G1 G2. revert Hb G1 G2. generalize (2 ^ snd q) (2 ^ alloc_pow2 spage size). intros. lia. }
  split.
  - split; [exact Hs|]. split.
    + exists (alloc_pow2 spage size). split; [apply cont_alloc|]. split; [exact Hl|exact Hal].
    + intros b Hb. apply Hsub in Hb.
      (* a free page lies in the heap *)
      pose proof (free_unit_cov base heap spage lpage (heap + 1) DirLeft g _ 0 q ((b - base) / 2 ^ spage) HI Hq) as Hc.
      apply (page_bytes_units base spage lpage) in Hb as [B1 B2]; [|split; [exact Hq1|split; [exact Hq2|exact Hq3]]].
      specialize (Hc B2). pose proof (inv_cov HI ((b - base) / 2 ^ spage)) as Hcov.
      destruct (one_cases ((b - base) / 2 ^ spage < heap / 2 ^ spage)) as [[Hlt _]|[_ E]]; [|exfalso; clear -Hc Hcov E; lia].
      split; [exact B1|]. pose proof (heap_units _ _ _ (inv_sl HI) (inv_heap HI)) as Hh.
      apply N.lt_le_trans with (base + (heap / 2 ^ spage) * 2 ^ spage); [|rewrite <- Hh; reflexivity].
      assert ((b - base) < heap / 2 ^ spage * 2 ^ spage).
      { pose proof (N.mul_succ_div_gt (b - base) (2 ^ spage) (pow2_nz _)) as Hg.
        eapply N.lt_le_trans; [exact Hg|]. rewrite N.mul_comm. apply N.mul_le_mono_r. clear -Hlt; lia. }
      clear -H B1; lia.
  - intros e Hel b [B1 B2]. apply Hsub in B1. destruct (proj1 (live_bytes live b Hok)) as (p & Hp & Hpb); [eauto|].
    apply (live_free_disjoint _ _ _ _ _ _ _ _ _ _ _ HI Hp Hq b). auto.
Qed.

Lemma allocate_ki a live total size a' off :
  KI a live total -> 0 < size -> kv_allocate a size = Ok (a', off) ->
  KI a' ((off, size) :: live) (total + ceil_pow2 size spage) /\
  well_placed_extent base heap spage lpage (off, size) /\
  (forall e, e ∈ live -> extents_disjoint spage (off, size) e).
Proof using Hsp1 Hlp63.
  intros HK Hs Ha.
  assert (H31 : size <= 2 ^ 31).
  { unfold kv_allocate in Ha. destruct (N.ltb_spec (2 ^ 31) size); [discriminate|assumption]. }
  assert (Hl : alloc_pow2 spage size <= lpage).
  { destruct HK as [(g & HI & HS) _ _]. unfold kv_allocate in Ha. rewrite (sm_sp HS), (sm_lp HS), cont_eq in Ha.
    destruct (N.ltb_spec (2 ^ 31) size); [discriminate|].
    destruct (N.leb_spec (2 ^ alloc_pow2 spage size) (2 ^ lpage)) as [H1|]; cbn [negb] in Ha; [|discriminate].
    apply N.pow_le_mono_r_iff in H1; [exact H1|reflexivity]. }
  rewrite (allocate_eq a live total size HK H31 Hl) in Ha.
  destruct (ka_first _ _ _) as [off'|] eqn:Ef; [|discriminate].
  destruct (found_placed a live total size off' HK Hs Hl Ef) as [Hw Hd].
  destruct (kv_mark a off' size) as [a1| |] eqn:Em; try discriminate. inversion Ha; subst a1 off'; clear Ha.
  split; [|auto]. exact (mark_ki a live total off size a' HK (ext_ok_placed _ Hw) Em).
Qed.

Lemma allocate_cases a live total size :
  KI a live total -> 0 < size <= 2 ^ 31 -> alloc_pow2 spage size <= lpage ->
  (exists a' off, kv_allocate a size = Ok (a', off)) \/
  (kv_allocate a size = OutOfSpace /\
   forall i m, drop (N.to_nat (alloc_pow2 spage size - spage)) (ka_free a) !! i = Some m -> m = ∅).
Proof using Hsp1 Hlp63.
  intros HK [Hs H31] Hl. rewrite (allocate_eq a live total size HK H31 Hl).
  destruct (ka_first _ _ _) as [off|] eqn:Ef.
  - left. destruct (found_placed a live total size off HK Hs Hl Ef) as [Hw Hd].
    destruct (mark_succeeds a live total off size HK Hw Hd) as [a' ->]. eauto.
  - right. split; [reflexivity|]. apply (first_none base (alloc_pow2 spage size)). exact Ef.
Qed.

Lemma release_ki a l1 l2 total off size :
  KI a (l1 ++ (off, size) :: l2) total ->
  exists a', kv_release a off size = Ok a' /\ KI a' (l1 ++ l2) total.
Proof using Hsp1 Hlp63.
  intros [(g & HI & HS) Hok Hmet].
  assert (He : ext_ok (off, size)) by (apply Hok, elem_of_app; right; left).
  rewrite all_pieces_app in HI. unfold all_pieces in HI at 2. cbn [map concat] in HI. fold (all_pieces spage l2) in HI.
  unfold kv_release. rewrite (sm_sp HS).
  destruct (loop_release base heap spage lpage Hsp1 64 a g _ _ 0 off (ceil_pow2 size spage) HI HS (ext_ok_fuel (off, size) He)
    (ceil_pow2_mult size spage)) as (a' & g' & E & HI' & HS' & Hm').
  rewrite E. eexists. split; [reflexivity|]. constructor.
  - exists g'. split; [rewrite all_pieces_app; exact HI'|now apply same_add].
  - intros e H. apply Hok. apply elem_of_app in H as [H|H]; apply elem_of_app; [left; exact H|right; right; exact H].
  - cbn [ka_add ka_metric]. rewrite Hm', Hmet. clear; lia.
Qed.

Lemma kreaches_ki a0 a live total : KI a0 [] 0 -> kreaches a0 a live total -> KI a live total.
Proof using Hsp1 Hlp63.
  intros H0 H.
  assert (Hb : ka_base a0 = base /\ ka_heap a0 = heap /\ ka_spage a0 = spage /\ ka_lpage a0 = lpage).
  { destruct H0 as [(g & _ & HS) _ _]. destruct HS. auto. }
  destruct Hb as (B1 & B2 & B3 & B4).
  induction H as [|a live total size r a' off H IH Hs Hr Ha|a live total off size r a' H IH Hw Hr Hm
    |a l1 l2 total off size a' H IH Hr].
  - exact H0.
  - rewrite B3 in Hr. apply rounded_unique in Hr. subst r. now apply (allocate_ki a).
  - rewrite B1, B2, B3, B4 in Hw. rewrite B3 in Hr. apply rounded_unique in Hr. subst r.
    apply (mark_ki a); [exact IH|now apply ext_ok_placed|exact Hm].
  - destruct (release_ki a l1 l2 total off size IH) as (a2 & E & HK). congruence.
Qed.

Lemma ki_disjoint a live total : KI a live total -> all_disjoint spage live.
Proof using Hsp1 Hlp63.
  intros [(g & HI & HS) Hok Hmet] i j e f Hij Hi Hj b [B1 B2].
  assert (Hoke := Hok e (elem_of_list_lookup_2 _ _ _ Hi)).
  assert (Hokf := Hok f (elem_of_list_lookup_2 _ _ _ Hj)).
  apply ext_pieces_bytes in B1 as (p & Hp & P1); [|exact Hoke].
  apply ext_pieces_bytes in B2 as (q & Hq & Q1); [|exact Hokf].
  (* split the live list around the earlier one *)
  assert (K : forall i j e f p q, (i < j)%nat -> live !! i = Some e -> live !! j = Some f ->
            p ∈ ext_pieces spage e -> q ∈ ext_pieces spage f -> page_bytes p b -> page_bytes q b -> False).
  { clear -HI. intros i j e f p q Hij Hi Hj Hp Hq P Q.
    rewrite <- (take_drop_middle live i e Hi) in HI. rewrite all_pieces_app in HI.
    unfold all_pieces in HI at 2. cbn [map concat] in HI. fold (all_pieces spage (drop (S i) live)) in HI.
    assert (Hq' : q ∈ all_pieces spage (drop (S i) live)).
    { apply elem_all_pieces. exists f. split; [|exact Hq]. apply (elem_of_list_lookup_2 _ (j - S i)).
      rewrite lookup_drop. rewrite <- Hj. f_equal. lia. }
    apply elem_of_list_split in Hp as (x1 & x2 & Ep). apply elem_of_list_split in Hq' as (y1 & y2 & Eq).
    rewrite Ep, Eq in HI. pose proof (live_disjoint _ _ _ _ _ _ _ _ _ HI) as D.
    set (A := all_pieces spage (take i live)) in *.
    assert (X : pages_disjoint p q); [|exact (X b (conj P Q))].
    apply (D (length (A ++ x1)) (length ((A ++ x1) ++ p :: x2 ++ y1)) p q).
    - rewrite (app_length (A ++ x1)). cbn [length]. lia.
    - replace (A ++ (x1 ++ p :: x2) ++ y1 ++ q :: y2) with ((A ++ x1) ++ p :: (x2 ++ y1 ++ q :: y2))
        by (rewrite <- !app_assoc; reflexivity). now apply list_lookup_middle.
    - replace (A ++ (x1 ++ p :: x2) ++ y1 ++ q :: y2) with (((A ++ x1) ++ p :: x2 ++ y1) ++ q :: y2)
        by (rewrite <- !app_assoc; cbn [app]; rewrite <- !app_assoc; reflexivity). now apply list_lookup_middle. }
  destruct (Nat.lt_trichotomy i j) as [Hl|[Hl|Hl]]; [|contradiction|].
  - exact (K i j e f p q Hl Hi Hj Hp Hq P1 Q1).
  - exact (K j i f e q p Hl Hj Hi Hq Hp Q1 P1).
Qed.

Lemma ki_placed a live total e : KI a live total -> e ∈ live -> well_placed_extent base heap spage lpage e.
Proof using Hsp1 Hlp63.
  intros [(g & HI & HS) Hok Hmet] He. destruct (Hok e He) as (H1 & H2 & H3).
  split; [exact H1|]. split.
  - exists (alloc_pow2 spage (snd e)). split; [apply cont_alloc|]. auto.
  - intros b Hb. apply ext_pieces_bytes in Hb as (p & Hp & Hb); [|now apply Hok].
    assert (Hin : p ∈ all_pieces spage live) by (apply elem_all_pieces; eauto).
    exact (proj2 (proj2 (live_well_placed _ _ _ _ _ _ _ _ _ _ HI Hin)) b Hb).
Qed.

Lemma free_byte_page a g live b : INV g live 0 -> SAME a g ->
  (free_byte a b <-> exists q, free_page g q /\ page_bytes q b).
Proof.
  intros HI HS. unfold free_byte, free_page, page_bytes. rewrite (sm_free HS), (sm_base HS), (sm_sp HS).
  rewrite (inv_sp HI), (inv_base HI). split.
  - intros (i & m & n & H1 & H2 & H3). exists (base + n * 2 ^ (spage + N.of_nat i), spage + N.of_nat i). cbn [fst snd].
    split; [exists i, m, n; auto|]. clear -H3. revert H3. generalize (2 ^ (spage + N.of_nat i)). intros. lia.
  - intros ([off p] & (i & m & n & H1 & H2 & H3 & H4) & H5). cbn [fst snd] in *. subst p off. exists i, m, n.
    split; [exact H1|]. split; [exact H2|]. clear -H5. revert H5. generalize (2 ^ (spage + N.of_nat i)). intros. lia.
Qed.

Lemma ki_live_not_free a live total e b : KI a live total -> e ∈ live -> extent_bytes spage e b -> ~ free_byte a b.
Proof using Hsp1 Hlp63.
  intros [(g & HI & HS) Hok Hmet] He Hb Hf. apply (free_byte_page _ _ _ _ HI HS) in Hf as (q & Hq & Hqb).
  destruct (proj1 (live_bytes live b Hok)) as (p & Hp & Hpb); [eauto|].
  exact (live_free_disjoint _ _ _ _ _ _ _ _ _ _ _ HI Hp Hq b (conj Hpb Hqb)).
Qed.

Lemma ki_owned a live total b : KI a live total -> base <= b < base + heap ->
  (exists e, e ∈ live /\ extent_bytes spage e b) \/ free_byte a b.
Proof using Hsp1 Hlp63.
  intros [(g & HI & HS) Hok Hmet] Hb.
  destruct (heap_byte_owned _ _ _ _ _ _ _ _ _ _ HI Hb) as [H|H].
  - left. now apply live_bytes.
  - right. now apply (free_byte_page _ _ _ _ HI HS).
Qed.

Lemma ki_total a live total : KI a live total -> free_space a + held_bytes spage live = heap.
Proof using Hsp1 Hlp63.
  intros [(g & HI & HS) Hok Hmet]. pose proof (inv_bytes HI) as Hb. unfold free_bytes in Hb.
  unfold free_space. rewrite (sm_sp HS), (sm_free HS). rewrite (inv_sp HI) in Hb.
  assert (E : forall p l, free_space_from p l = free_bytes_from p l).
  { clear. intros p l. revert p. induction l as [|x l IH]; intros p; cbn [free_space_from free_bytes_from]; [reflexivity|]. now rewrite IH. }
  rewrite E. transitivity (free_bytes_from spage (a_free g) + total_bytes (all_pieces spage live)); [f_equal|exact Hb]. clear -Hok Hlp63. induction live as [|e live IH]; [reflexivity|].
  unfold all_pieces. cbn [map concat held_bytes]. fold (all_pieces spage live).
  assert (T : forall l1 l2, total_bytes (l1 ++ l2) = total_bytes l1 + total_bytes l2).
  { clear. induction l1; intros l2; cbn [app total_bytes]; [reflexivity|]. rewrite IHl1. lia. }
  rewrite T, IH by (intros x Hx; apply Hok; now right). f_equal.
  unfold ext_pieces. rewrite pieces_total by (apply ext_ok_fuel, Hok; left).
  apply rounded_unique.
  pose proof (pow2_pos spage) as Hp. pose proof (N.div_mod (snd e + 2 ^ spage - 1) (2 ^ spage) (pow2_nz _)) as Hd.
  pose proof (N.mod_lt (snd e + 2 ^ spage - 1) (2 ^ spage) (pow2_nz _)) as Hm.
  split; [apply N.mod_mul, pow2_nz|].
  clear -Hp Hd Hm. revert Hp Hd Hm. generalize (2 ^ spage). intros P Hp.
  generalize ((snd e + P - 1) / P) ((snd e + P - 1) mod P). intros x y H1 H2. lia.
Qed.

Lemma ki_canonical a1 l1 t1 a2 l2 t2 : KI a1 l1 t1 -> KI a2 l2 t2 -> l1 ≡ₚ l2 -> ka_free a1 = ka_free a2.
Proof using Type.
  intros [(g1 & HI1 & HS1) _ _] [(g2 & HI2 & HS2) _ _] Hp. rewrite (sm_free HS1), (sm_free HS2).
  refine (inv_canonical _ _ _ _ _ _ _ _ _ _ _ _ HI1 HI2 (fun u => cnt_perm _ _ _ _ u _)).
  unfold all_pieces. clear -Hp. induction Hp; cbn [map concat].
  - constructor.
  - now apply Permutation_app_head.
  - rewrite !app_assoc. apply Permutation_app_tail, Permutation_app_comm.
  - etransitivity; eassumption.
Qed.

(** A completely free aligned run lies inside one free page. *)
Lemma free_run_page a live total p off : KI a live total -> spage <= p <= lpage -> free_run a p off ->
  exists i m n, drop (N.to_nat (p - spage)) (ka_free a) !! i = Some m /\ n ∈ m.
Proof using Type.
  intros [(g & HI & HS) Hok Hmet] Hp (F1 & F2 & F3).
  rewrite (sm_base HS) in F1, F2. rewrite (sm_free HS).
  assert (C : cov (drop (N.to_nat (p - spage)) (a_free g)) ((off - base) / 2 ^ p) = 1%nat).
  { apply cov_drop.
    - apply (inv_nb HI).
    - pose proof (inv_len HI) as Hl. pose proof (inv_sl HI). clear -Hl Hp H. lia.
    - intros u. exact (inv_cov_le _ _ _ _ _ _ _ _ _ u HI).
    - intros u Hu. pose proof (inv_cov_le _ _ _ _ _ _ _ _ _ u HI) as Hle.
      assert (1 <= cov (a_free g) u)%nat; [|clear -Hle H; lia].
      specialize (F3 (base + u * 2 ^ spage)). 
      rewrite N2Nat.id in Hu.
      assert (Hb : page_bytes (off, p) (base + u * 2 ^ spage)).
      { apply (page_bytes_units base spage lpage); [split; [exact Hp|split; [exact F1|exact F2]]|]. cbn [fst snd].
        split; [clear; lia|]. rewrite unit_byte. exact Hu. }
      specialize (F3 Hb). apply (free_byte_page _ _ _ _ HI HS) in F3 as (q & Hq & Hqb).
      destruct (free_page_wf _ _ _ _ _ _ _ _ _ _ HI Hq) as (Hw & _).
      apply (page_bytes_units base spage lpage _ _ Hw) in Hqb as [_ Hqb]. rewrite unit_byte in Hqb.
      exact (free_unit_cov _ _ _ _ _ _ _ _ _ _ u HI Hq Hqb). }
  destruct (lookup_cov _ _ ltac:(rewrite C; reflexivity)) as (i & m & H1 & H2). eauto.
Qed.

(** Conversely a free page of a class at least [p] contains such a run. *)
Lemma page_free_run a live total p i m n : KI a live total -> spage <= p <= lpage ->
  drop (N.to_nat (p - spage)) (ka_free a) !! i = Some m -> n ∈ m ->
  free_run a p (base + n * 2 ^ (p + N.of_nat i)).
Proof using Type.
  intros [(g & HI & HS) Hok Hmet] Hp Hi Hn. unfold free_run. rewrite (sm_base HS).
  split; [clear; lia|]. split.
  - replace (base + n * 2 ^ (p + N.of_nat i) - base) with (n * 2 ^ N.of_nat i * 2 ^ p)
      by (rewrite N.pow_add_r; clear; lia).
    apply N.mod_mul, pow2_nz.
  - intros b Hb. rewrite lookup_drop in Hi. exists (N.to_nat (p - spage) + i)%nat, m, n.
    split; [exact Hi|]. split; [exact Hn|]. rewrite (sm_base HS), (sm_sp HS).
    replace (spage + N.of_nat (N.to_nat (p - spage) + i)) with (p + N.of_nat i) by (clear -Hp; lia).
    assert (2 ^ p <= 2 ^ (p + N.of_nat i)) by (apply N.pow_le_mono_r; [discriminate|clear; lia]).
    clear -Hb H. revert Hb H. generalize (2 ^ p) (2 ^ (p + N.of_nat i)). intros. lia.
Qed.
End KI.
