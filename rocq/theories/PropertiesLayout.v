(** C05, C06: object page layout and the packed tail-page list. *)
From stdpp Require Import base numbers list option sets.
From Verif Require Import Util LayoutModel LayoutProofs.
Open Scope N_scope.

(** ** C06.  [l] is the list of exponents pushed, in order. *)
Theorem C06_packed_list_is_the_list :
  forall l, (length l <= 24)%nat -> Forall (fun v => v < 32) l ->
  exists t, tps_push_all tps_new l = Some t /\
    tps_len t = N.of_nat (length l) /\
    (forall idx, tps_get t idx = Some (l !! N.to_nat idx)) /\
    tps_collect t = Some (zip (map N.of_nat (seq 0 (length l))) l).
Proof.
  intros l Hl Hf. destruct (tps_push_all_rep tps_new [] l tps_rep_nil) as (t & Et & Ht);
    [cbn; lia|exact Hf|]. exists t. cbn [app] in Ht.
  split; [exact Et|]. split; [exact (tps_rep_len _ _ Ht)|].
  split; [exact (fun idx => tps_rep_get _ _ idx Ht)|exact (tps_rep_collect _ _ Ht)].
Qed.
Print Assumptions C06_packed_list_is_the_list.

(** Pushing appends; what was there is undisturbed; the 25th push and an
    exponent above 31 are refused (by a panic), never silently truncated. *)
Theorem C06_push_appends_or_refuses :
  forall l t v, tps_push_all tps_new l = Some t -> (length l <= 24)%nat -> Forall (fun v => v < 32) l ->
  (if (v <? 32) && (length l <? 24)%nat
   then exists t', tps_push t v = Some t' /\
        (forall idx, tps_get t' idx = Some ((l ++ [v]) !! N.to_nat idx))
   else tps_push t v = None).
Proof.
  intros l t v Et Hl Hf. destruct (tps_push_all_rep tps_new [] l tps_rep_nil) as (t0 & Et0 & Ht);
    [cbn; lia|exact Hf|]. assert (t0 = t) as -> by congruence. cbn [app] in Ht.
  destruct (N.ltb_spec v 32) as [Hv|Hv]; cbn [andb]; [|exact (tps_push_too_big _ _ _ Ht Hv)].
  destruct (Nat.ltb_spec (length l) 24) as [H24|H24]; [|apply (tps_push_full _ _ _ Ht); lia].
  destruct (tps_rep_push t l v Ht H24 Hv) as (t' & E' & Ht'). exists t'. split; [exact E'|].
  exact (fun idx => tps_rep_get _ _ idx Ht').
Qed.
Print Assumptions C06_push_appends_or_refuses.

(** Non-vacuity: 14 entries straddle the two words. *)
Theorem C06_example :
  exists t, tps_push_all tps_new [31; 1; 30; 2; 29; 3; 28; 4; 27; 5; 26; 6; 25; 7] = Some t /\
    fst t <> 0 /\ snd t <> 0 /\ tps_get t 12 = Some (Some 25) /\ tps_get t 14 = Some None.
Proof.
  eexists. split; [vm_compute; reflexivity|]. split; [vm_compute; discriminate|].
  split; [vm_compute; discriminate|]. split; vm_compute; reflexivity.
Qed.

(** ** C05.  [spage], [lpage]: exponents of the page sizes; [limit]: bound on the
    number of large pages (2^64 lite, 2^32 direct); [tails]: exponents of the
    tail pages as the iterator yields them. *)
Theorem C05_layout_covers_object :
  forall spage lpage limit size,
    spage <= lpage -> lpage < 32 -> lpage <= spage + 24 -> size / 2 ^ lpage < limit ->
    exists lpages t tails,
      calc_object_layout spage lpage limit size = Some (lpages, t) /\
      (forall idx, tps_get t idx = Some (tails !! N.to_nat idx)) /\
      (* holds the object, wasting less than one small page *)
      size <= lpages * 2 ^ lpage + sum_pow2 tails < size + 2 ^ spage /\
      (* as many large pages as fit entirely *)
      lpages * 2 ^ lpage <= size < (lpages + 1) * 2 ^ lpage /\
      (* tail pages: strictly decreasing, between a small and a large page; a
         large page occurs only on its own *)
      (forall i j x y, (i < j)%nat -> tails !! i = Some x -> tails !! j = Some y -> y < x) /\
      (forall x, x ∈ tails -> spage <= x <= lpage) /\
      (lpage ∈ tails -> tails = [lpage]).
Proof.
  intros spage lpage limit size Hsl Hl H24 Hlim.
  destruct (calc_layout_spec spage lpage limit size Hsl Hl H24 Hlim)
    as (t & tails & E & Ht & Et & Hsum & Hd & Hb & Htop & Hlen).
  pose proof (N.div_mod size (2 ^ lpage) (pow2_nz _)) as Hdm.
  pose proof (N.mod_lt size (2 ^ lpage) (pow2_nz _)) as Hlt.
  pose proof (ceil_pow2_ge (size mod 2 ^ lpage) spage) as Hge.
  pose proof (ceil_pow2_lt (size mod 2 ^ lpage) spage) as Hclt.
  exists (size / 2 ^ lpage), t, tails.
  split; [exact E|]. split; [exact (fun idx => tps_rep_get _ _ idx Ht)|].
  split; [lia|]. split; [lia|]. split; [|split; [exact Hb|exact Htop]].
  clear -Hd. revert Hd. induction tails as [|z tails IH]; intros Hd [|i] [|j] x y Hij Hx Hy;
    try discriminate; try lia.
  - inversion Hx; subst z. apply Hd. eapply elem_of_list_lookup_2. exact Hy.
  - apply (IH (proj2 Hd) i j); [lia|exact Hx|exact Hy].
Qed.
Print Assumptions C05_layout_covers_object.

Theorem C05_example :
  exists t, calc_object_layout 8 12 (2 ^ 64) 9800 = Some (2, t) /\
    tps_collect t = Some [(0, 10); (1, 9); (2, 8)].
Proof. eexists. split; vm_compute; reflexivity. Qed.

(** With 4 GiB large pages (documented maximum, lite allocator/pages.rs:2,
    layout.rs:10) an object whose tail rounds up to a whole large page cannot
    be laid out: the exponent 32 does not fit the 5-bit field and the code
    panics.  So the property fails for [lpage = 32]. *)
Theorem C05_layout_4GiB_large_page_refuted :
  exists spage lpage size, 8 <= spage /\ spage <= lpage /\ lpage <= 32 /\ size < 2 ^ 40 /\
    calc_object_layout spage lpage (2 ^ 64) size = None.
Proof. exists 9, 32, (2 ^ 32 - 1). repeat split; vm_compute; congruence. Qed.
Print Assumptions C05_layout_4GiB_large_page_refuted.
