(** Proofs about the heap allocator of libblobd-kv, by relating it to the page
    allocator's invariant (BuddyInv.v): an extent is the list of pages it is
    cut into. *)
From stdpp Require Import gmap sets fin_sets.
From Verif Require Import Util BuddyModel BuddySpec BuddyProofs BuddyInv KvAllocModel KvAllocSpec.
Ltac Zify.zify_post_hook ::= idtac.
Open Scope N_scope.

(** * One page *)
Lemma kmark_mark heap p l n l' : kmark_from heap p l n = Some l' -> mark_from l n = Some l' /\ n < heap / 2 ^ p.
Proof.
  revert p n l'. induction l as [|b rest IH]; intros p n l'; cbn [kmark_from mark_from]; [discriminate|].
  rewrite div_pow2_spec. destruct (N.ltb_spec n (heap / 2 ^ p)) as [Hn|]; cbn [negb]; [|discriminate].
  case_bool_decide as Hb; [auto|].
  destruct (kmark_from heap (p + 1) rest (n / 2)) as [r|] eqn:E; [|discriminate].
  destruct (IH _ _ _ E) as [-> _]. auto.
Qed.

Lemma half_lt heap p n : heap mod 2 ^ (p + 1) = 0 -> n < heap / 2 ^ p -> n / 2 < heap / 2 ^ (p + 1).
Proof.
  intros Hm Hn. apply N.mod_divide in Hm as [k ->]; [|apply pow2_nz].
  rewrite N.div_mul by apply pow2_nz.
  rewrite N.add_1_r, N.pow_succ_r', N.mul_assoc, N.div_mul in Hn by apply pow2_nz.
  apply N.div_lt_upper_bound; [discriminate|]. clear -Hn; lia.
Qed.

Lemma mark_kmark heap p l n l' :
  mark_from l n = Some l' -> n < heap / 2 ^ p ->
  (forall q, p <= q -> q < p + N.of_nat (length l) -> heap mod 2 ^ q = 0) ->
  kmark_from heap p l n = Some l'.
Proof.
  revert p n l'. induction l as [|b rest IH]; intros p n l'; cbn [kmark_from mark_from]; [discriminate|].
  intros Hm Hn Hh. rewrite div_pow2_spec. destruct (N.ltb_spec n (heap / 2 ^ p)) as [_|]; cbn [negb]; [|clear -Hn H; lia].
  case_bool_decide as Hb; [auto|].
  destruct (mark_from rest (n / 2)) as [r|] eqn:E; [|discriminate].
  destruct rest as [|b2 rest]; [discriminate|]. cbn [length] in Hh.
  rewrite (IH (p + 1) (n / 2) r E).
  - exact Hm.
  - apply half_lt; [|exact Hn]. apply Hh; clear; lia.
  - intros q H1 H2. apply Hh; clear -H1 H2; cbn [length] in *; lia.
Qed.

Lemma release_krelease heap p l n l' :
  release_from l n = Some l' -> n < heap / 2 ^ p ->
  (forall q, p <= q -> q < p + N.of_nat (length l) -> heap mod 2 ^ q = 0) ->
  krelease_from heap p l n = Some l'.
Proof.
  revert p n l'. induction l as [|b rest IH]; intros p n l'; cbn [krelease_from release_from]; [discriminate|].
  intros Hm Hn Hh. rewrite div_pow2_spec. destruct (N.ltb_spec n (heap / 2 ^ p)) as [_|]; cbn [negb]; [|clear -Hn H; lia].
  destruct rest as [|b2 rest]; [exact Hm|].
  case_bool_decide as Hb; [|exact Hm].
  case_bool_decide as Hb2; [exact Hm|].
  destruct (release_from (b2 :: rest) (n / 2)) as [r|] eqn:E; [|discriminate].
  cbn [length] in Hh. rewrite (IH (p + 1) (n / 2) r E).
  - exact Hm.
  - apply half_lt; [|exact Hn]. apply Hh; clear; lia.
  - intros q H1 H2. apply Hh; clear -H1 H2; cbn [length] in *; lia.
Qed.

(** [g] is the page-allocator state with the same free pages. *)
Record same (base heap spage lpage : N) (a : KvAlloc) (g : Allocator) : Prop := {
  sm_base : ka_base a = base; sm_heap : ka_heap a = heap;
  sm_sp : ka_spage a = spage; sm_lp : ka_lpage a = lpage;
  sm_free : ka_free a = a_free g }.
Arguments sm_base {_ _ _ _ _ _}. Arguments sm_heap {_ _ _ _ _ _}. Arguments sm_sp {_ _ _ _ _ _}.
Arguments sm_lp {_ _ _ _ _ _}. Arguments sm_free {_ _ _ _ _ _}.

Section Heap.
Context (base heap spage lpage : N).
Local Notation INV := (Inv base heap spage lpage (heap + 1) DirLeft).
Local Notation SAME := (same base heap spage lpage).

Lemma heap_mods g live f p : INV g live f -> spage <= p ->
  forall q, p <= q -> q < p + N.of_nat (length (drop (N.to_nat (p - spage)) (a_free g))) -> heap mod 2 ^ q = 0.
Proof.
  intros HI Hp q H1 H2. rewrite drop_length in H2. pose proof (inv_len HI) as Hl. pose proof (inv_sl HI) as Hs.
  apply (mod_pow2_le heap q lpage); [clear -H1 H2 Hl Hp Hs; lia|apply (inv_heap HI)].
Qed.

Lemma page_mark_kv a g live f off p g' :
  INV g live f -> SAME a g -> mark_as_allocated g off p = Ok g' ->
  exists a', ka_page kmark_from a off p = Ok a' /\ SAME a' g' /\ ka_metric a' = ka_metric a.
Proof.
  intros HI S Hm. pose proof (mark_inv _ _ _ _ _ _ _ _ _ _ _ _ HI Hm) as HI'.
  destruct S as [S1 S2 S3 S4 S5].
  pose proof (live_well_placed _ _ _ _ _ _ _ _ _ (off, p) HI' ltac:(left)) as (Hsl & _ & Hin).
  pose proof (inv_live HI' (off, p) ltac:(left)) as (_ & Hb & Hmod). cbn [fst snd] in *.
  unfold mark_as_allocated, to_page_num, class_idx in Hm.
  rewrite (inv_base HI), (inv_sp HI), (inv_lp HI), (inv_lim HI) in Hm.
  unfold ka_page. rewrite S1, S3, S4.
  destruct (negb _); [discriminate|].
  destruct (N.ltb_spec off base) as [|_]; [discriminate|].
  destruct (div_pow2 (off - base) p <? heap + 1); [|discriminate].
  destruct ((spage <=? p) && (p <=? lpage)); [|discriminate]. cbn [negb].
  destruct (mark_from _ _) as [l|] eqn:E; [|discriminate].
  rewrite S2, S5.
  rewrite (mark_kmark heap p _ _ _ E).
  - inversion Hm; subst g'. eexists. split; [reflexivity|]. split; [|reflexivity].
    constructor; assumption || reflexivity.
  - rewrite div_pow2_spec. apply div_lt_mul; [apply pow2_nz|].
    specialize (Hin (off + 2 ^ p - 1)). unfold page_bytes, in_heap in Hin. cbn [fst snd] in Hin.
    pose proof (pow2_pos p) as Hpp.
    assert (Hx : off - base + 2 ^ p <= heap).
    { clear -Hin Hpp Hb. revert Hin Hpp. generalize (2 ^ p). intros P Hin Hpp. lia. }
    assert (Hh : heap mod 2 ^ p = 0) by (apply (mod_pow2_le heap p lpage); [apply Hsl|apply (inv_heap HI)]).
    pose proof (N.div_mod heap (2 ^ p) (pow2_nz p)) as Hd. rewrite Hh, N.add_0_r, N.mul_comm in Hd. rewrite <- Hd.
    clear -Hx Hpp. revert Hx Hpp. generalize (2 ^ p). intros P ? ?. lia.
  - exact (heap_mods _ _ _ p HI (proj1 Hsl)).
Qed.

Lemma page_kv_mark a g live f off p a' :
  INV g live f -> SAME a g -> off mod 2 ^ p = 0 -> ka_page kmark_from a off p = Ok a' ->
  exists g', mark_as_allocated g off p = Ok g' /\ SAME a' g'.
Proof.
  intros HI [S1 S2 S3 S4 S5] Hal. unfold ka_page, mark_as_allocated, to_page_num, class_idx.
  rewrite (inv_base HI), (inv_sp HI), (inv_lp HI), (inv_lim HI), S1, S3, S4, S2, S5.
  rewrite mod_pow2_spec, Hal. cbn [N.eqb negb].
  destruct (off <? base); [discriminate|].
  destruct ((spage <=? p) && (p <=? lpage)); [|discriminate]. cbn [negb].
  destruct (kmark_from _ _ _ _) as [l|] eqn:E; [|discriminate].
  apply kmark_mark in E as [E Hn].
  intros H. inversion H; subst a'; clear H.
  destruct (N.ltb_spec (div_pow2 (off - base) p) (heap + 1)) as [_|Hbad].
  - rewrite E. eexists. split; [reflexivity|]. constructor; cbn; auto.
  - exfalso. assert (heap / 2 ^ p <= heap).
    { pose proof (pow2_nz p). apply N.div_le_upper_bound; [assumption|].
      assert (1 <= 2 ^ p) by (clear -H; lia). clear -H0. revert H0. generalize (2 ^ p). intros. nia. }
    clear -H Hn Hbad. lia.
Qed.

Lemma page_release_kv a g l1 l2 f off p :
  INV g (l1 ++ (off, p) :: l2) f -> SAME a g ->
  exists a' g', ka_page krelease_from a off p = Ok a' /\ INV g' (l1 ++ l2) f /\ SAME a' g' /\ ka_metric a' = ka_metric a.
Proof.
  intros HI [S1 S2 S3 S4 S5].
  assert (Hin : (off, p) ∈ l1 ++ (off, p) :: l2) by (apply elem_of_app; right; left).
  pose proof (live_well_placed _ _ _ _ _ _ _ _ _ _ HI Hin) as (Hsl & _ & Hby).
  pose proof (inv_live HI _ Hin) as (_ & Hb & Hmod). cbn [fst snd] in *.
  destruct (release_inv _ _ _ _ _ _ _ _ _ _ _ _ HI) as (g' & Hr & HI').
  unfold release, to_page_num, class_idx in Hr.
  rewrite (inv_base HI), (inv_sp HI), (inv_lp HI), (inv_lim HI) in Hr.
  unfold ka_page. rewrite S1, S3, S4, S2, S5.
  destruct (N.ltb_spec off base) as [|_]; [discriminate|].
  destruct (div_pow2 (off - base) p <? heap + 1); [|discriminate].
  destruct ((spage <=? p) && (p <=? lpage)); [|discriminate]. cbn [negb].
  destruct (release_from _ _) as [l|] eqn:E; [|discriminate].
  rewrite (release_krelease heap p _ _ _ E).
  - inversion Hr; subst g'. eexists _, _. split; [reflexivity|]. split; [exact HI'|].
    split; [|reflexivity]. constructor; assumption || reflexivity.
  - rewrite div_pow2_spec. apply div_lt_mul; [apply pow2_nz|].
    specialize (Hby (off + 2 ^ p - 1)). unfold page_bytes, in_heap in Hby. cbn [fst snd] in Hby.
    pose proof (pow2_pos p) as Hpp.
    assert (Hx : off - base + 2 ^ p <= heap).
    { clear -Hby Hpp Hb. revert Hby Hpp. generalize (2 ^ p). intros P ? ?. lia. }
    assert (Hh : heap mod 2 ^ p = 0) by (apply (mod_pow2_le heap p lpage); [apply Hsl|apply (inv_heap HI)]).
    pose proof (N.div_mod heap (2 ^ p) (pow2_nz p)) as Hd. rewrite Hh, N.add_0_r, N.mul_comm in Hd. rewrite <- Hd.
    clear -Hx Hpp. revert Hx Hpp. generalize (2 ^ p). intros P ? ?. lia.
  - exact (heap_mods _ _ _ p HI (proj1 Hsl)).
Qed.
End Heap.

(** * Cutting an extent into pages *)
Fixpoint pieces (fuel : nat) (off rem : N) : list page :=
  if rem =? 0 then [] else
  match fuel with
  | O => []
  | S fuel => (off, N.log2 rem) :: pieces fuel (off + 2 ^ N.log2 rem) (rem - 2 ^ N.log2 rem)
  end.

Lemma clearbit_log2 r : r <> 0 -> N.clearbit r (N.log2 r) = r - 2 ^ N.log2 r.
Proof.
  intros Hr. unfold N.clearbit. rewrite <- N.sub_nocarry_ldiff.
  - rewrite N.shiftl_1_l. reflexivity.
  - rewrite N.shiftl_1_l. apply N.bits_inj. intros i. rewrite N.ldiff_spec, N.pow2_bits_eqb, N.bits_0.
    destruct (N.eqb_spec (N.log2 r) i) as [<-|]; [|reflexivity]. now rewrite N.bit_log2.
Qed.

Lemma rem_facts r : r <> 0 ->
  2 ^ N.log2 r <= r /\ r - 2 ^ N.log2 r < 2 ^ N.log2 r /\ 0 < 2 ^ N.log2 r.
Proof.
  intros Hr. pose proof (N.log2_spec r ltac:(lia)) as [H1 H2]. rewrite N.pow_succ_r' in H2.
  split; [exact H1|]. split; [clear -H1 H2; revert H1 H2; generalize (2 ^ N.log2 r); intros; lia|apply pow2_pos].
Qed.

Lemma rem_log2 r : r <> 0 -> r - 2 ^ N.log2 r <> 0 -> N.log2 (r - 2 ^ N.log2 r) < N.log2 r.
Proof.
  intros Hr Hn. destruct (rem_facts r Hr) as (_ & H & _).
  apply N.log2_lt_pow2; [clear -Hn; lia|exact H].
Qed.

Lemma log2_ge_mult s r : r <> 0 -> r mod 2 ^ s = 0 -> s <= N.log2 r.
Proof.
  intros Hr Hm. apply N.log2_le_pow2; [lia|]. apply N.mod_divide in Hm as [k ->]; [|apply pow2_nz].
  destruct (N.eq_dec k 0) as [->|Hk]; [lia|]. pose proof (pow2_pos s). clear -Hk. revert Hk.
  generalize (2 ^ s). intros. nia.
Qed.

Lemma pieces_S fuel off rem : rem <> 0 ->
  pieces (S fuel) off rem = (off, N.log2 rem) :: pieces fuel (off + 2 ^ N.log2 rem) (rem - 2 ^ N.log2 rem).
Proof. intros H. cbn [pieces]. destruct (N.eqb_spec rem 0); [contradiction|reflexivity]. Qed.
Lemma pieces_0 fuel off : pieces fuel off 0 = [].
Proof. destruct fuel; reflexivity. Qed.

Lemma rem_mult s r : r <> 0 -> r mod 2 ^ s = 0 -> (r - 2 ^ N.log2 r) mod 2 ^ s = 0.
Proof.
  intros Hr Hm. apply mod_sub_0; [apply pow2_nz|exact Hm|].
  apply (mod_pow2_le _ s (N.log2 r)); [now apply log2_ge_mult|]. apply N.mod_same, pow2_nz.
Qed.

Lemma next_aligned off rem : rem <> 0 -> off mod 2 ^ N.log2 rem = 0 ->
  (off + 2 ^ N.log2 rem) mod 2 ^ N.log2 (rem - 2 ^ N.log2 rem) = 0.
Proof.
  intros Hr Ha. destruct (N.eq_dec (rem - 2 ^ N.log2 rem) 0) as [E|E].
  - rewrite E. change (2 ^ N.log2 0) with 1. apply N.mod_1_r.
  - apply (mod_pow2_le _ _ (N.log2 rem)); [pose proof (rem_log2 rem Hr E); lia|].
    apply mod_add_0; [apply pow2_nz|exact Ha|apply N.mod_same, pow2_nz].
Qed.

Lemma pieces_wf s fuel : forall off rem, rem < 2 ^ N.of_nat fuel -> rem mod 2 ^ s = 0 ->
  off mod 2 ^ N.log2 rem = 0 ->
  forall p, p ∈ pieces fuel off rem ->
    s <= snd p <= N.log2 rem /\ fst p mod 2 ^ snd p = 0 /\ off <= fst p /\ fst p + 2 ^ snd p <= off + rem.
Proof.
  induction fuel as [|fuel IH]; intros off rem Hf Hm Ha p Hp.
  { cbn [pieces] in Hp. destruct (rem =? 0); inversion Hp. }
  destruct (N.eq_dec rem 0) as [->|Hr]; [inversion Hp|].
  rewrite pieces_S in Hp by done. destruct (rem_facts rem Hr) as (H1 & H2 & H3).
  apply elem_of_cons in Hp as [->|Hp]; cbn [fst snd].
  - split; [split; [now apply log2_ge_mult|lia]|]. split; [exact Ha|].
    clear -H1. revert H1. generalize (2 ^ N.log2 rem). intros. lia.
  - destruct (IH (off + 2 ^ N.log2 rem) (rem - 2 ^ N.log2 rem)) with (p := p) as (G1 & G2 & G3 & G4).
    + assert (N.log2 rem <= N.of_nat fuel).
      { rewrite Nat2N.inj_succ in Hf. apply N.log2_lt_pow2 in Hf; [clear -Hf; lia|lia]. }
      eapply N.lt_le_trans; [exact H2|]. apply N.pow_le_mono_r; [discriminate|exact H].
    + now apply rem_mult.
    + now apply next_aligned.
    + exact Hp.
    + split; [|split; [exact G2|]].
      * split; [apply G1|]. destruct G1 as [_ G1]. destruct (N.eq_dec (rem - 2 ^ N.log2 rem) 0) as [E|E].
        -- rewrite E in Hp. rewrite pieces_0 in Hp. inversion Hp.
        -- pose proof (rem_log2 rem Hr E) as HL. clear -G1 HL. lia.
      * clear -G3 G4 H1 H3. revert G3 G4 H1 H3. generalize (2 ^ N.log2 rem). intros. lia.
Qed.

Lemma pieces_disjoint fuel : forall off rem, rem < 2 ^ N.of_nat fuel ->
  off mod 2 ^ N.log2 rem = 0 -> pairwise_disjoint (pieces fuel off rem).
Proof.
  induction fuel as [|fuel IH]; intros off rem Hf Ha.
  { cbn [pieces]. destruct (rem =? 0); intros i j p q _ H; inversion H. }
  destruct (N.eq_dec rem 0) as [->|Hr]; [intros i j p q _ H; inversion H|].
  rewrite pieces_S by done. destruct (rem_facts rem Hr) as (H1 & H2 & H3).
  assert (Hf' : rem - 2 ^ N.log2 rem < 2 ^ N.of_nat fuel).
  { assert (N.log2 rem <= N.of_nat fuel).
    { rewrite Nat2N.inj_succ in Hf. apply N.log2_lt_pow2 in Hf; [clear -Hf; lia|lia]. }
    eapply N.lt_le_trans; [exact H2|]. apply N.pow_le_mono_r; [discriminate|exact H]. }
  assert (Ha' := next_aligned off rem Hr Ha).
  specialize (IH _ _ Hf' Ha').
  assert (D : forall q, q ∈ pieces fuel (off + 2 ^ N.log2 rem) (rem - 2 ^ N.log2 rem) ->
              pages_disjoint (off, N.log2 rem) q).
  { intros q Hq b [B1 B2]. unfold page_bytes in *. cbn [fst snd] in *.
    pose proof (pieces_wf 0 fuel _ _ Hf' ltac:(apply N.mod_1_r) Ha' q Hq) as (_ & _ & G & _).
    clear -B1 B2 G. revert B1 B2 G. generalize (2 ^ N.log2 rem) (2 ^ snd q). intros. lia. }
  intros [|i] [|j] p q Hij Hp Hq; cbn in Hp, Hq.
  - congruence.
  - inversion Hp; subst p. apply D. eapply elem_of_list_lookup_2; eauto.
  - inversion Hq; subst q. apply pages_disjoint_sym, D. eapply elem_of_list_lookup_2; eauto.
  - apply (IH i j); [intros ->; now apply Hij|exact Hp|exact Hq].
Qed.

Lemma pieces_bytes fuel : forall off rem b, rem < 2 ^ N.of_nat fuel -> off <= b < off + rem ->
  exists p, p ∈ pieces fuel off rem /\ page_bytes p b.
Proof.
  induction fuel as [|fuel IH]; intros off rem b Hf Hb.
  { change (2 ^ N.of_nat 0) with 1 in Hf. lia. }
  assert (Hr : rem <> 0) by lia. rewrite pieces_S by done.
  destruct (rem_facts rem Hr) as (H1 & H2 & H3).
  assert (Hf' : rem - 2 ^ N.log2 rem < 2 ^ N.of_nat fuel).
  { assert (N.log2 rem <= N.of_nat fuel).
    { rewrite Nat2N.inj_succ in Hf. apply N.log2_lt_pow2 in Hf; [clear -Hf; lia|lia]. }
    eapply N.lt_le_trans; [exact H2|]. apply N.pow_le_mono_r; [discriminate|exact H]. }
  destruct (N.lt_ge_cases b (off + 2 ^ N.log2 rem)) as [Hlt|Hge].
  - exists (off, N.log2 rem). split; [left|]. unfold page_bytes. cbn [fst snd]. split; [apply Hb|exact Hlt].
  - destruct (IH (off + 2 ^ N.log2 rem) (rem - 2 ^ N.log2 rem) b Hf') as (p & Hp & Hpb).
    + clear -Hge Hb H1. revert Hge Hb H1. generalize (2 ^ N.log2 rem). intros. lia.
    + exists p. split; [now right|exact Hpb].
Qed.

Lemma pieces_total fuel : forall off rem, rem < 2 ^ N.of_nat fuel -> total_bytes (pieces fuel off rem) = rem.
Proof.
  induction fuel as [|fuel IH]; intros off rem Hf.
  { change (2 ^ N.of_nat 0) with 1 in Hf. replace rem with 0 by lia. reflexivity. }
  destruct (N.eq_dec rem 0) as [->|Hr]; [reflexivity|]. rewrite pieces_S by done.
  destruct (rem_facts rem Hr) as (H1 & H2 & H3).
  assert (Hf' : rem - 2 ^ N.log2 rem < 2 ^ N.of_nat fuel).
  { assert (N.log2 rem <= N.of_nat fuel).
    { rewrite Nat2N.inj_succ in Hf. apply N.log2_lt_pow2 in Hf; [clear -Hf; lia|lia]. }
    eapply N.lt_le_trans; [exact H2|]. apply N.pow_le_mono_r; [discriminate|exact H]. }
  cbn [total_bytes snd]. rewrite IH by done. clear -H1. revert H1. generalize (2 ^ N.log2 rem). intros. lia.
Qed.

Lemma inv_perm base heap spage lpage lim dir a l1 l2 f :
  Inv base heap spage lpage lim dir a l1 f -> l1 ≡ₚ l2 -> Inv base heap spage lpage lim dir a l2 f.
Proof.
  intros HI Hp. destruct HI. constructor; auto.
  - intros u. rewrite <- (cnt_perm base spage l1 l2 u Hp). apply inv_cov.
  - intros p H. apply inv_live. now rewrite Hp.
  - now rewrite <- (total_bytes_perm l1 l2 Hp).
  - now rewrite <- (total_bytes_perm l1 l2 Hp).
Qed.

Section Loops.
Context (base heap spage lpage : N).
Hypothesis Hsp1 : 1 <= spage.
Local Notation INV := (Inv base heap spage lpage (heap + 1) DirLeft).
Local Notation SAME := (same base heap spage lpage).

Lemma ka_loop_S op fuel a off rem : rem <> 0 -> rem mod 2 ^ spage = 0 ->
  ka_loop op (S fuel) a off rem =
  match ka_page op a off (N.log2 rem) with
  | Ok a => ka_loop op fuel a (off + 2 ^ N.log2 rem) (rem - 2 ^ N.log2 rem)
  | r => r
  end.
Proof.
  intros Hr Hm. cbn [ka_loop]. destruct (N.eqb_spec rem 0); [contradiction|].
  pose proof (log2_ge_mult spage rem Hr Hm) as Hl.
  destruct (N.eqb_spec (N.log2 rem) 0) as [E|_]; [clear -E Hl Hsp1; lia|].
  now rewrite clearbit_log2.
Qed.

Lemma fuel_next fuel rem : rem <> 0 -> rem < 2 ^ N.of_nat (S fuel) -> rem - 2 ^ N.log2 rem < 2 ^ N.of_nat fuel.
Proof.
  intros Hr Hf. destruct (rem_facts rem Hr) as (H1 & H2 & H3).
  assert (N.log2 rem <= N.of_nat fuel).
  { rewrite Nat2N.inj_succ in Hf. apply N.log2_lt_pow2 in Hf; [clear -Hf; lia|clear -Hr; lia]. }
  eapply N.lt_le_trans; [exact H2|]. apply N.pow_le_mono_r; [discriminate|exact H].
Qed.

(** Marking an extent page by page succeeds when its pages are free ... *)
Lemma loop_mark_ok fuel : forall a g live f off rem,
  INV g live f -> SAME a g -> rem < 2 ^ N.of_nat fuel -> rem mod 2 ^ spage = 0 ->
  off mod 2 ^ N.log2 rem = 0 ->
  (forall p, p ∈ pieces fuel off rem -> well_placed base heap spage lpage p /\ forall q, q ∈ live -> pages_disjoint p q) ->
  exists a' g', ka_loop kmark_from fuel a off rem = Ok a' /\
    INV g' (reverse (pieces fuel off rem) ++ live) f /\ SAME a' g' /\ ka_metric a' = ka_metric a.
Proof.
  induction fuel as [|fuel IH]; intros a g live f off rem HI HS Hf Hm Ha Hp.
  { change (2 ^ N.of_nat 0) with 1 in Hf. assert (rem = 0) as -> by (clear -Hf; lia).
    exists a, g. cbn. auto. }
  destruct (N.eq_dec rem 0) as [->|Hr]; [exists a, g; cbn; auto|].
  rewrite ka_loop_S by done. pose proof (pieces_S fuel off rem Hr) as EP. rewrite EP in *.
  pose proof (pieces_disjoint (S fuel) off rem Hf Ha) as D. rewrite EP in D. apply pairwise_cons in D as [D1 D2].
  destruct (Hp (off, N.log2 rem)) as [W Wd]; [left|].
  destruct (mark_ok _ _ _ _ _ _ g live f off (N.log2 rem) HI W Wd) as [g1 Hg1].
  destruct (page_mark_kv _ _ _ _ _ _ _ _ _ _ _ HI HS Hg1) as (a1 & Ha1 & HS1 & Hm1).
  rewrite Ha1. pose proof (mark_inv _ _ _ _ _ _ _ _ _ _ _ _ HI Hg1) as HI1.
  destruct (IH a1 g1 _ f (off + 2 ^ N.log2 rem) (rem - 2 ^ N.log2 rem) HI1 HS1) as (a' & g' & E & HI' & HS' & Hm').
  - now apply fuel_next.
  - now apply rem_mult.
  - now apply next_aligned.
  - intros p Hpp. destruct (Hp p) as [W' Wd']; [now right|]. split; [exact W'|].
    intros q Hq. apply elem_of_cons in Hq as [->|Hq]; [|now apply Wd'].
    apply pages_disjoint_sym. now apply D1.
  - exists a', g'. split; [exact E|]. split; [|split; [exact HS'|congruence]].
    rewrite reverse_cons, <- app_assoc. exact HI'.
Qed.

(** ... and only then. *)
Lemma loop_mark_inv fuel : forall a g live f off rem a',
  INV g live f -> SAME a g -> rem < 2 ^ N.of_nat fuel -> rem mod 2 ^ spage = 0 ->
  off mod 2 ^ N.log2 rem = 0 ->
  ka_loop kmark_from fuel a off rem = Ok a' ->
  exists g', INV g' (reverse (pieces fuel off rem) ++ live) f /\ SAME a' g' /\ ka_metric a' = ka_metric a.
Proof.
  induction fuel as [|fuel IH]; intros a g live f off rem a' HI HS Hf Hm Ha E.
  { change (2 ^ N.of_nat 0) with 1 in Hf. assert (rem = 0) as -> by (clear -Hf; lia).
    cbn in E. inversion E; subst a'. exists g. cbn. auto. }
  destruct (N.eq_dec rem 0) as [->|Hr]; [cbn in E; inversion E; subst a'; exists g; cbn; auto|].
  rewrite ka_loop_S in E by done. rewrite pieces_S by done.
  destruct (ka_page kmark_from a off (N.log2 rem)) as [a1| |] eqn:E1; try discriminate.
  destruct (page_kv_mark _ _ _ _ _ _ _ _ _ _ _ HI HS Ha E1) as (g1 & Hg1 & HS1).
  assert (Hm1 : ka_metric a1 = ka_metric a).
  { unfold ka_page in E1. destruct (_ <? _); [discriminate|]. destruct (negb _); [discriminate|].
    destruct (kmark_from _ _ _ _); inversion E1. reflexivity. }
  pose proof (mark_inv _ _ _ _ _ _ _ _ _ _ _ _ HI Hg1) as HI1.
  destruct (IH a1 g1 _ f _ _ a' HI1 HS1 (fuel_next _ _ Hr Hf) (rem_mult _ _ Hr Hm) (next_aligned _ _ Hr Ha) E)
    as (g' & HI' & HS' & Hm').
  exists g'. split; [|split; [exact HS'|congruence]].
  rewrite reverse_cons, <- app_assoc. exact HI'.
Qed.

Lemma loop_release fuel : forall a g l1 l2 f off rem,
  INV g (l1 ++ pieces fuel off rem ++ l2) f -> SAME a g -> rem < 2 ^ N.of_nat fuel -> rem mod 2 ^ spage = 0 ->
  exists a' g', ka_loop krelease_from fuel a off rem = Ok a' /\
    INV g' (l1 ++ l2) f /\ SAME a' g' /\ ka_metric a' = ka_metric a.
Proof.
  induction fuel as [|fuel IH]; intros a g l1 l2 f off rem HI HS Hf Hm.
  { change (2 ^ N.of_nat 0) with 1 in Hf. assert (rem = 0) as -> by (clear -Hf; lia).
    exists a, g. cbn. auto. }
  destruct (N.eq_dec rem 0) as [->|Hr]; [exists a, g; cbn; auto|].
  rewrite ka_loop_S by done. rewrite pieces_S in HI by done. cbn [app] in HI.
  destruct (page_release_kv _ _ _ _ _ _ _ _ _ _ _ HI HS) as (a1 & g1 & -> & HI1 & HS1 & Hm1).
  destruct (IH a1 g1 l1 l2 f (off + 2 ^ N.log2 rem) (rem - 2 ^ N.log2 rem) HI1 HS1) as (a' & g' & E & HI' & HS' & Hm').
  - now apply fuel_next.
  - now apply rem_mult.
  - exists a', g'. split; [exact E|]. split; [exact HI'|]. split; [exact HS'|congruence].
Qed.
End Loops.

(** * Extents *)
Lemma rounded_ceil spage size : rounded spage size (ceil_pow2 size spage).
Proof. split; [apply ceil_pow2_mult|]. split; [apply ceil_pow2_ge|apply ceil_pow2_lt]. Qed.
Lemma rounded_unique spage size r : rounded spage size r -> r = ceil_pow2 size spage.
Proof.
  intros (H1 & H2 & H3). destruct (rounded_ceil spage size) as (G1 & G2 & G3).
  apply N.mod_divide in H1 as [x ->]; [|apply pow2_nz]. apply N.mod_divide in G1 as [y Ey]; [|apply pow2_nz].
  rewrite Ey in *. f_equal. clear -H2 H3 G2 G3. revert H2 H3 G2 G3. generalize (2 ^ spage). intros P ? ? ? ?.
  destruct (N.lt_trichotomy x y) as [Hl|[->|Hl]]; [|reflexivity|]; exfalso.
  - assert (x + 1 <= y) by lia. nia.
  - assert (y + 1 <= x) by lia. nia.
Qed.

Lemma cont_fits spage size p : cont_pow2 spage size p -> p = alloc_pow2 spage size.
Proof. apply fits_unique. Qed.
Lemma cont_alloc spage size : cont_pow2 spage size (alloc_pow2 spage size).
Proof. apply alloc_pow2_fits. Qed.

Lemma ceil_le_cont spage size : 0 < size -> ceil_pow2 size spage <= 2 ^ alloc_pow2 spage size.
Proof.
  intros Hs. destruct (cont_alloc spage size) as (H1 & H2 & _).
  destruct (N.le_gt_cases (ceil_pow2 size spage) (2 ^ alloc_pow2 spage size)) as [?|Hgt]; [assumption|exfalso].
  pose proof (ceil_pow2_lt size spage) as H3. pose proof (ceil_pow2_mult size spage) as H4.
  assert (H5 : (2 ^ alloc_pow2 spage size) mod 2 ^ spage = 0).
  { apply (mod_pow2_le _ spage (alloc_pow2 spage size) H1). apply N.mod_same, pow2_nz. }
  apply N.mod_divide in H4 as [x Ex]; [|apply pow2_nz]. apply N.mod_divide in H5 as [y Ey]; [|apply pow2_nz].
  rewrite Ex, Ey in *. clear -Hgt H3 H2. revert Hgt H3 H2. generalize (2 ^ spage). intros P ? ? ?.
  assert (y + 1 <= x) by nia. nia.
Qed.

Definition ext_pieces (spage : N) (e : extent) : list page := pieces 64 (fst e) (ceil_pow2 (snd e) spage).
Definition all_pieces (spage : N) (l : list extent) : list page := concat (map (ext_pieces spage) l).

Lemma all_pieces_app spage l1 l2 : all_pieces spage (l1 ++ l2) = all_pieces spage l1 ++ all_pieces spage l2.
Proof. unfold all_pieces. now rewrite map_app, concat_app. Qed.
Lemma elem_all_pieces spage l p : p ∈ all_pieces spage l <-> exists e, e ∈ l /\ p ∈ ext_pieces spage e.
Proof.
  unfold all_pieces. rewrite elem_of_list_In, in_concat. split.
  - intros (x & Hx & Hp). apply in_map_iff in Hx as (e & <- & He). exists e. rewrite !elem_of_list_In. auto.
  - intros (e & He & Hp). exists (ext_pieces spage e). rewrite elem_of_list_In in He, Hp. split; [|exact Hp].
    apply in_map_iff. eauto.
Qed.
