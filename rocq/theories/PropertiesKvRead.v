(** C38: range reads of libblobd-kv values. *)
From stdpp Require Import base numbers list list_numbers option sets.
From Verif Require Import Util PageIOModel PageIOProofs PageIOWrite BuddyModel KvCodecModel KvAllocModel KvAllocSpec
  KvAllocProofs KvAllocInv PropertiesKvAlloc KvReadModel.
Open Scope N_scope.
Ltac Zify.zify_post_hook ::= idtac.

(** Specification: [v] is the value that the stored form [t] denotes on device
    [d]: kept in the entry, or found at an address. *)
Definition denotes (d : device) (t : odata) (v : list N) : Prop :=
  match t with
  | DInline i => i = v
  | DHeap size off => size = N.of_nat (length v) /\
      forall i b, v !! i = Some b -> d (off + N.of_nat i) = b
  end.
(** Bytes [start] (included) to [fin] (excluded) of [v]. *)
Definition byte_range (v : list N) (start fin : N) (out : list N) : Prop :=
  exists pre post, v = pre ++ out ++ post /\ N.of_nat (length pre) = start /\ N.of_nat (length out) = fin - start.

Lemma denotes_read d size off v : denotes d (DHeap size off) v -> dev_read d off size = v.
Proof.
  intros [-> H]. apply list_eq. intros i. unfold dev_read. rewrite list_lookup_fmap.
  destruct (v !! i) as [b|] eqn:E.
  - rewrite lookup_seq_lt by (pose proof (lookup_lt_Some _ _ _ E); lia). cbn. f_equal. apply (H i b E).
  - rewrite lookup_seq_ge by (apply lookup_ge_None in E; lia). reflexivity.
Qed.

Lemma byte_range_take v start fin : start <= fin -> fin <= N.of_nat (length v) ->
  byte_range v start fin (take (N.to_nat (fin - start)) (drop (N.to_nat start) v)).
Proof.
  intros H1 H2. exists (take (N.to_nat start) v), (drop (N.to_nat (fin - start)) (drop (N.to_nat start) v)).
  rewrite take_drop. rewrite take_drop. split; [reflexivity|]. rewrite !take_length, drop_length. lia.
Qed.

Theorem C38_range_read_returns_slice spage d t v start req_end :
  denotes d t v ->
  let size := N.of_nat (length v) in
  let fin := match req_end with Some e => e | None => size end in
  (start <= fin <= size ->
     exists out, kv_read_range spage d (Some t) start req_end = Some (inr (out, fin, size)) /\
                 byte_range v start fin out) /\
  (~ (start <= fin <= size) -> kv_read_range spage d (Some t) start req_end = Some (inl KvRange)).
Proof.
  intros Hd size fin. unfold kv_read_range.
  assert (Ef : forall s, s = size -> default s req_end = fin) by (intros s ->; unfold fin; destruct req_end; reflexivity).
  destruct t as [i|os off].
  - cbn in Hd. subst i. fold size. rewrite (Ef size eq_refl). split.
    + intros [H1 H2].
      destruct (N.ltb_spec fin start); [lia|]. destruct (N.ltb_spec size start); [lia|]. destruct (N.ltb_spec size fin); [lia|].
      cbn [orb]. eexists. split; [reflexivity|]. apply byte_range_take; assumption.
    + intros H. destruct (N.ltb_spec fin start); [reflexivity|]. destruct (N.ltb_spec size start); [reflexivity|].
      destruct (N.ltb_spec size fin); [reflexivity|]. exfalso. lia.
  - pose proof (denotes_read _ _ _ _ Hd) as Hr. destruct Hd as [-> Hd]. fold size in Hr |- *. rewrite (Ef size eq_refl). split.
    + intros [H1 H2].
      destruct (N.ltb_spec fin start); [lia|]. destruct (N.ltb_spec size start); [lia|]. destruct (N.ltb_spec size fin); [lia|].
      cbn [orb]. destruct (N.eqb_spec start fin) as [->|Hne].
      { cbn [orb]. eexists. split; [reflexivity|]. exists (take (N.to_nat fin) v), (drop (N.to_nat fin) v).
        cbn [app]. rewrite take_drop, take_length. unfold size in *. cbn [length]. repeat split; lia. }
      destruct (N.eqb_spec start size) as [->|_]; [lia|]. cbn [orb].
      assert (Hrd : kv_unaligned_read spage d (off + start) (fin - start) = Some (dev_read d (off + start) (fin - start))).
      { set (x := off + start). set (n := fin - start). assert (Hn : 0 < n) by (unfold n; lia).
        unfold kv_unaligned_read, od_read, aligned. rewrite !mod_pow2_spec.
        pose proof (floor_pow2_le x spage) as G1. pose proof (ceil_pow2_ge (x + n) spage) as G2.
        pose proof (ceil_pow2_mult (x + n) spage) as Hm.
        assert (G3 : 2 ^ spage <= ceil_pow2 (x + n) spage).
        { apply N.mod_divide in Hm as [q Hq]; [|apply pow2_nz]. rewrite Hq in *.
          assert (q <> 0) by (intros ->; clear -G2 Hn; lia). clear -H4. revert H4. generalize (2 ^ spage). intros; nia. }
        rewrite N.max_l by exact G3.
        destruct (N.ltb_spec (ceil_pow2 (x + n) spage) (floor_pow2 x spage)); [clear -G1 G2 H4; lia|].
        rewrite floor_pow2_mult. rewrite mod_sub_0; [|apply pow2_nz|exact Hm|apply floor_pow2_mult].
        cbn [N.eqb andb mbind option_bind]. rewrite dev_read_length, N2Nat.id.
        destruct (N.ltb_spec (ceil_pow2 (x + n) spage - floor_pow2 x spage) (x - floor_pow2 x spage + n)) as [Hx|_];
          [clear -G1 G2 Hx; lia|].
        rewrite dev_read_sub by (clear -G1 G2; lia). do 2 f_equal. clear -G1. lia. }
      rewrite Hrd. cbn [mbind option_bind]. eexists. split; [reflexivity|].
      rewrite <- (dev_read_sub d off size) by lia. rewrite Hr. apply byte_range_take; assumption.
    + intros H. destruct (N.ltb_spec fin start); [reflexivity|]. destruct (N.ltb_spec size start); [reflexivity|].
      destruct (N.ltb_spec size fin); [reflexivity|]. exfalso. lia.
Qed.
Print Assumptions C38_range_read_returns_slice.

Lemma size_on_dev spage size : 0 < size -> N.max (2 ^ spage) (ceil_pow2 size spage) = ceil_pow2 size spage.
Proof.
  intros Hs. apply N.max_r. pose proof (ceil_pow2_ge size spage) as H. pose proof (ceil_pow2_mult size spage) as Hm.
  apply N.mod_divide in Hm as [q Hq]; [|apply pow2_nz]. rewrite Hq in *. assert (q <> 0) by (intros ->; clear -H Hs; lia).
  clear -H0. revert H0. generalize (2 ^ spage). intros. nia.
Qed.

(** Storing a value of any size up to 16 MiB never panics; it fails only for
    larger values or a full heap; afterwards the stored form denotes the value
    and is held, and every value held before still denotes what it did. *)
Theorem C38_stored_value_is_readable base heap spage thr a0 a live total d data :
  9 <= spage <= 24 -> kv_alloc_new base heap spage 24 = Ok a0 -> kreaches a0 a live total ->
  let size := N.of_nat (length data) in
  (2 ^ 24 < size -> forall junk, kv_store_value spage thr a d data junk = Some (inl KvTooLarge)) /\
  (size <= 2 ^ 24 -> forall junk, N.of_nat (length junk) = N.max (2 ^ spage) (ceil_pow2 size spage) ->
     kv_store_value spage thr a d data junk = Some (inl KvOutOfSpace) \/
     exists t a' d', kv_store_value spage thr a d data junk = Some (inr (t, a', d')) /\
       denotes d' t data /\
       (forall e v, e ∈ live -> denotes d (DHeap (snd e) (fst e)) v -> denotes d' (DHeap (snd e) (fst e)) v) /\
       (forall x, ~ (base <= x < base + heap) -> d' x = d x) /\
       ((t = DInline data /\ a' = a) \/
        exists off total', t = DHeap size off /\ kreaches a0 a' ((off, size) :: live) total')).
Proof.
  intros [Hs1 Hs2] Hn Hr size. unfold kv_store_value. fold size. unfold object_size_max, kv_lpage_pow2. split.
  - intros H junk. destruct (N.ltb_spec (2 ^ 24) size); [reflexivity|lia].
  - intros H junk Hj. destruct (N.ltb_spec (2 ^ 24) size); [lia|].
    destruct (N.leb_spec size thr) as [Ht|Ht].
    { right. exists (DInline data), a, d. split; [reflexivity|]. split; [reflexivity|]. split; [auto|]. split; [auto|]. left; auto. }
    assert (Hsz : 0 < size) by lia.
    assert (L1 : 1 <= spage <= 24) by lia. assert (L2 : 24 <= 63) by lia.
    assert (Hp : alloc_pow2 spage size <= 24).
    { destruct (cont_alloc spage size) as (_ & _ & Hmin). apply Hmin; [exact Hs2|exact H]. }
    destruct (C37_allocate_fails_iff_nothing_fits base heap spage 24 a0 a live total size (alloc_pow2 spage size) L1 L2 Hn Hr)
      as [[(a' & off & E)|E] _]; [|apply cont_alloc|exact Hp| |]; [split; [exact Hsz|]; etransitivity; [exact H|discriminate]| |].
    2: { left. rewrite E. reflexivity. }
    right. rewrite E. rewrite (proj2 (N.eqb_eq _ _) Hj). cbn [negb].
    rewrite size_on_dev in Hj by exact Hsz.
    destruct (C37_new_extent_disjoint_from_held base heap spage 24 a0 a live total size a' off L1 L2 Hn Hr Hsz E) as [Hw Hd].
    pose proof (ceil_pow2_ge size spage) as Hc.
    assert (Hlen : length (data ++ drop (length data) junk) = length junk).
    { rewrite app_length, drop_length. unfold size in *. lia. }
    assert (Hoff : off mod 2 ^ spage = 0).
    { destruct Hw as (_ & (p & (Hp1 & _) & _ & Hal) & _). cbn [fst] in Hal.
      exact (BuddyInv.mod_pow2_le _ _ _ Hp1 Hal). }
    unfold od_write, aligned. rewrite Hlen, Hj, !mod_pow2_spec, Hoff, ceil_pow2_mult. cbn [N.eqb andb mbind option_bind].
    exists (DHeap size off), a', (dev_write d off (data ++ drop (length data) junk)).
    assert (Hin : forall x, off <= x < off + ceil_pow2 size spage -> extent_bytes spage (off, size) x).
    { intros x Hx. exists (ceil_pow2 size spage). split; [apply rounded_ceil|exact Hx]. }
    assert (Hout : forall x, ~ extent_bytes spage (off, size) x -> dev_write d off (data ++ drop (length data) junk) x = d x).
    { intros x Hx. apply dev_write_out. rewrite Hlen, Hj.
      destruct (N.lt_ge_cases x off); [left; assumption|]. right.
      destruct (N.le_gt_cases (off + ceil_pow2 size spage) x); [assumption|]. exfalso. apply Hx, Hin. lia. }
    split; [reflexivity|]. split; [|split; [|split]].
    + split; [reflexivity|]. intros i b Hi. apply dev_write_in; [lia|].
      replace (N.to_nat (off + N.of_nat i - off)) with i by lia. apply lookup_app_l_Some. exact Hi.
    + intros [o s] v He [Hs Hv]. cbn [fst snd] in *. split; [exact Hs|]. intros i b Hi. rewrite Hout; [exact (Hv i b Hi)|].
      intros Hx. apply (Hd (o, s) He (o + N.of_nat i)). split; [exact Hx|].
      exists (ceil_pow2 s spage). split; [apply rounded_ceil|]. cbn [fst snd].
      pose proof (ceil_pow2_ge s spage). pose proof (lookup_lt_Some _ _ _ Hi). lia.
    + intros x Hx. apply Hout. intros Hb. apply Hx. exact (proj2 (proj2 Hw) x Hb).
    + right. exists off, (total + ceil_pow2 size spage). split; [reflexivity|].
      assert (Esp : ka_spage a0 = spage).
      { unfold kv_alloc_new in Hn. destruct (negb _); [discriminate|]. destruct (negb _); [discriminate|].
        inversion Hn. reflexivity. }
      apply (kreaches_alloc a0 a live total size (ceil_pow2 size spage) a' off Hr Hsz); [rewrite Esp; apply rounded_ceil|exact E].
Qed.
Print Assumptions C38_stored_value_is_readable.

(** Non-vacuity: a 600-byte value stored on the heap, read from 500 to 600
    (crossing a 512-byte page), and an empty range. *)
Definition rx_data : list N := (fun i => N.of_nat i mod 256) <$> seq 0 600.
Definition rx := kv_store_value 9 7 kx_a0 (fun _ => 0) rx_data (replicate 1024 0).
Theorem C38_example :
  (match rx with
   | Some (inr (t, a, d)) =>
       bool_decide (t = DHeap 600 (2 ^ 24)) &&
       (match kv_read_range 9 d (Some t) 500 (Some 600) with
        | Some (inr (out, 600, 600)) => bool_decide (out = (fun i => N.of_nat i mod 256) <$> seq 500 100)
        | _ => false end) &&
       (match kv_read_range 9 d (Some t) 600 None with Some (inr ([], 600, 600)) => true | _ => false end) &&
       (match kv_read_range 9 d (Some t) 601 None with Some (inl KvRange) => true | _ => false end)
   | _ => false end) = true.
Proof. vm_compute. reflexivity. Qed.
