(** C08, C09, C10, C22: uploading the parts of an object and reading ranges.

    [ps] is the object's page list (see PageIOSpec.v); [locate ps i] is the
    device address of byte [i] of the object. *)
From stdpp Require Import base numbers list list_numbers option sets.
From Coq Require Import ZifyBool ZifyNat ZifyN.
From Verif Require Import Util LayoutModel LayoutProofs PageIOModel PageIOSpec PageIOProofs PageIOWrite PageIOSys.
Open Scope N_scope.
Ltac Zify.zify_post_hook ::= idtac.

(** A concrete object: two 4 KiB pages and tail pages of 1 KiB, 512, 256 bytes. *)
Definition ex_obj : obj := {| o_size := 9800; o_lpages := [8192; 24576]; o_tails := [1024; 40960; 512] |}.
Definition ex_ps : list (N * N) := [(8192, 12); (24576, 12); (1024, 10); (40960, 9); (512, 8)].
Lemma ex_object_pages f : object_pages f 8 12 ex_obj ex_ps.
Proof.
  constructor; try (destruct f; vm_compute; (reflexivity || congruence)).
  - destruct f; exists (snd (default (0, (0,0)) (calc_object_layout 8 12 (2 ^ 32) 9800))), [10; 9; 8];
      (split; [vm_compute; reflexivity|]); (split; [|split; vm_compute; reflexivity]);
      intros idx; refine (tps_rep_get _ [10; 9; 8] idx _);
      destruct (tps_push_all_rep tps_new [] [10; 9; 8] tps_rep_nil) as (t & Et & Ht);
      [cbn; lia|repeat constructor|vm_compute in Et|cbn; lia|repeat constructor|vm_compute in Et];
      inversion Et; subst t; exact Ht.
  - apply disjointb_ok. vm_compute. reflexivity.
  - intros a p H. repeat (apply elem_of_cons in H as [H|H]; [inversion H; reflexivity|]). set_solver.
Qed.

(** ** Reading *)

(** What a drained read stream must deliver: the bytes at the addresses of
    [start .. fin-1], in order, reading the device only inside the object's
    pages. *)
Definition delivers (d : device) (ps : list (N * N)) (start fin : N)
  (step : reader -> option (list N * (N * N)) * rcall) (c : rcall) : Prop :=
  exists fuel outs, drain step fuel c = Some (outs, RDone) /\
    length (concat outs.*1) = N.to_nat (fin - start) /\
    (forall i, start <= i < fin -> exists x, locate ps i = Some x /\ concat outs.*1 !! N.to_nat (i - start) = Some (d x)) /\
    Forall (fun '(_, (s, n)) => exists a p, (a, p) ∈ ps /\ a <= s /\ s + n <= a + 2 ^ p) outs.

Lemma slice_length d ps i n : length (slice_at d ps i n) = N.to_nat n.
Proof. unfold slice_at. now rewrite fmap_length, seq_length. Qed.

Lemma read_post_delivers f spage lpage o ps lc t d start fin step n c :
  pages_view f spage lpage o ps lc t -> start <= fin -> fin <= o_size o ->
  read_post d ps start fin (drain step n c) -> delivers d ps start fin step c.
Proof.
  intros V Hsf Hf (outs & E & Hc & Hr). exists n, outs. split; [exact E|]. rewrite Hc, slice_length.
  split; [reflexivity|]. split; [|exact Hr]. intros i Hi.
  destruct (locate_lt ps i) as (k & a & p & Ek & Hin).
  { pose proof (pv_total _ _ _ _ _ _ _ V). lia. }
  exists (a + (i - psum ps k)). split.
  - rewrite <- (locate_page ps k a p) by (try exact Ek; lia). f_equal. lia.
  - unfold slice_at. rewrite list_lookup_fmap, lookup_seq_lt by lia. cbn [fmap option_fmap option_map].
    f_equal. unfold byte_at. replace (start + N.of_nat (0 + N.to_nat (i - start))) with (psum ps k + (i - psum ps k)) by lia.
    rewrite (locate_page ps k a p) by (try exact Ek; lia). reflexivity.
Qed.

(** C08, read side: libblobd-lite. *)
Theorem C08_lite_read_returns_range :
  forall spage lpage o ps d start fin,
    object_pages Lite spage lpage o ps ->
    if (start <? default (o_size o) fin) && (default (o_size o) fin <=? o_size o)
    then delivers d ps start (default (o_size o) fin) (lite_read_step lpage d) (read_start Lite spage lpage o start fin)
    else read_start Lite spage lpage o start fin = RErr RangeOutOfBounds.
Proof.
  intros spage lpage o ps d start fin Hop.
  destruct (object_pages_view _ _ _ _ _ Hop) as (lc & t & V).
  unfold read_start. remember (default (o_size o) fin) as e eqn:Ee. rewrite (pv_calc _ _ _ _ _ _ _ V).
  destruct ((start <? e) && (e <=? o_size o)) eqn:Eb.
  - assert (start < e <= o_size o) by lia. cbn [read_check].
    replace ((e <=? start) || (o_size o <=? start) || (o_size o <? e)) with false by lia.
    destruct (read_start_idx_spec _ _ _ _ _ _ _ start V ltac:(lia) (op_limit _ _ _ _ _ Hop)) as (k & a & p & Ei & Ek & Hin).
    rewrite Ei. apply (read_post_delivers Lite spage lpage o ps lc t d start e _ (S (N.to_nat (e - start))) _ V); [lia|lia|].
    remember {| r_obj := o; r_lpage_count := lc; r_tails := t; r_idx := N.of_nat k; r_next := start; r_end := e |} as r eqn:Er.
    pose proof (lite_drain Lite spage lpage o ps lc t d V (N.to_nat (e - start)) r) as Hx. rewrite Er in Hx at 1 4 5.
    cbn [r_next r_end] in Hx. apply Hx; [subst r; cbn; lia|].
    subst r. repeat split; cbn [r_next r_end r_idx]; try lia. intros _. exists k, a, p. auto.
  - cbn [read_check]. replace ((e <=? start) || (o_size o <=? start) || (o_size o <? e)) with true by lia. reflexivity.
Qed.
Print Assumptions C08_lite_read_returns_range.

(** C22: libblobd-direct, for every positive stream buffer size; as long as the
    object stays committed ([true true]: both validity checks succeed). *)
Theorem C22_direct_read_returns_range :
  forall spage lpage o ps d start fin stream_buffer_size,
    object_pages Direct spage lpage o ps -> 0 < stream_buffer_size ->
    if (start <=? default (o_size o) fin) && (default (o_size o) fin <=? o_size o)
    then delivers d ps start (default (o_size o) fin)
           (direct_read_step spage lpage stream_buffer_size true true d) (read_start Direct spage lpage o start fin)
    else read_start Direct spage lpage o start fin = RErr RangeOutOfBounds.
Proof.
  intros spage lpage o ps d start fin sbs Hop Hs.
  destruct (object_pages_view _ _ _ _ _ Hop) as (lc & t & V).
  unfold read_start. remember (default (o_size o) fin) as e eqn:Ee. rewrite (pv_calc _ _ _ _ _ _ _ V).
  destruct ((start <=? e) && (e <=? o_size o)) eqn:Eb.
  - assert (start <= e <= o_size o) by lia. cbn [read_check].
    replace ((e <? start) || (o_size o <? start) || (o_size o <? e)) with false by lia.
    destruct ((start =? e) || (start =? o_size o)) eqn:E0.
    + assert (start = e) as -> by lia. exists 0%nat, []. cbn. split; [reflexivity|]. split; [lia|].
      split; [lia|constructor].
    + destruct (read_start_idx_spec _ _ _ _ _ _ _ start V ltac:(lia) (op_limit _ _ _ _ _ Hop)) as (k & a & p & Ei & Ek & Hin).
      rewrite Ei. apply (read_post_delivers Direct spage lpage o ps lc t d start e _ (S (N.to_nat (e - start))) _ V); [lia|lia|].
      remember {| r_obj := o; r_lpage_count := lc; r_tails := t; r_idx := N.of_nat k; r_next := start; r_end := e |} as r eqn:Er.
      pose proof (direct_drain Direct spage lpage o ps lc t d sbs V (op_aligned _ _ _ _ _ Hop) Hs (N.to_nat (e - start)) r) as Hx.
      rewrite Er in Hx at 1 4 5.
      cbn [r_next r_end] in Hx. apply Hx; [subst r; cbn; lia|].
      subst r. repeat split; cbn [r_next r_end r_idx]; try lia. intros _. exists k, a, p. auto.
  - cbn [read_check]. replace ((e <? start) || (o_size o <? start) || (o_size o <? e)) with true by lia. reflexivity.
Qed.
Print Assumptions C22_direct_read_returns_range.

(** Non-vacuity: a range crossing large and tail pages, with a small buffer. *)
Theorem C22_example :
  match drain (direct_read_step 8 12 300 true true (fun a => a mod 256)) 40 (read_start Direct 8 12 ex_obj 4000 (Some 9700)) with
  | Some (outs, RDone) => (length outs =? 21)%nat && (N.of_nat (length (concat outs.*1)) =? 5700)
  | _ => false
  end = true.
Proof. vm_compute. reflexivity. Qed.

(** With a stream buffer size of zero (the caller's choice, not checked) the
    direct read stream of a non-empty range yields empty chunks for ever. *)
Theorem C22_zero_stream_buffer_refuted :
  forall spage lpage o ps d start fin,
    object_pages Direct spage lpage o ps -> start < fin <= o_size o ->
    forall fuel, drain (direct_read_step spage lpage 0 true true d) fuel (read_start Direct spage lpage o start (Some fin)) = None.
Proof.
  intros spage lpage o ps d start fin Hop Hr.
  destruct (object_pages_view _ _ _ _ _ Hop) as (lc & t & V).
  unfold read_start. rewrite (pv_calc _ _ _ _ _ _ _ V). change (default (o_size o) (Some fin)) with fin. cbn [read_check].
  replace ((fin <? start) || (o_size o <? start) || (o_size o <? fin)) with false by lia.
  replace ((start =? fin) || (start =? o_size o)) with false by lia.
  destruct (read_start_idx_spec _ _ _ _ _ _ _ start V ltac:(lia) (op_limit _ _ _ _ _ Hop)) as (k & a & p & Ei & Ek & Hin).
  rewrite Ei. intros fuel. induction fuel as [|fuel IH]; [reflexivity|]. rewrite drain_S.
  unfold direct_read_step at 1. cbn [r_next r_end r_lpage_count r_tails r_obj r_idx negb].
  destruct (N.ltb_spec start fin); [|lia]. cbn [negb].
  rewrite (pv_page _ _ _ _ _ _ _ V k) by (eapply lookup_lt_Some; exact Ek). rewrite Ek.
  rewrite mod_pow2_spec, N.shiftl_1_l. rewrite N.min_0_l. rewrite N.min_0_l.
  pose proof (N.mod_lt start (2 ^ p) (pow2_nz _)) as Hml.
  destruct (N.eqb_spec 0 (2 ^ p - start mod 2 ^ p)) as [E0|_]; [lia|]. rewrite N.add_0_r.
  unfold unaligned_read. rewrite N.add_0_r.
  destruct (N.ltb_spec (N.of_nat (length (dev_read d (floor_pow2 (a + start mod 2 ^ p) spage)
      (N.max (ceil_pow2 (a + start mod 2 ^ p) spage) (2 ^ spage) - floor_pow2 (a + start mod 2 ^ p) spage))))
      (a + start mod 2 ^ p - floor_pow2 (a + start mod 2 ^ p) spage + 0)) as [Hp|Hp].
  { exfalso. rewrite dev_read_length, N2Nat.id, N.add_0_r in Hp.
    pose proof (ceil_pow2_ge (a + start mod 2 ^ p) spage) as Hge. clear -Hp Hge.
    remember (a + start mod 2 ^ p) as x. clear Heqx.
    remember (ceil_pow2 x spage) as ce. remember (floor_pow2 x spage) as fl. clear -Hp Hge. gpow. lia. }
  change (N.to_nat 0) with 0%nat. rewrite take_0. change (negb (N.of_nat (length (@nil N)) =? 0)) with false.
  cbn [negb]. rewrite IH. reflexivity.
Qed.
Print Assumptions C22_zero_stream_buffer_refuted.

(** ** Writing *)

(** C09, frame: whatever parts are being written concurrently, in whatever
    interleaving, with whatever streams (short, failing, too long), at every
    moment every changed device byte belongs to the object: to a byte of a part
    being written (lite), or to a page holding that part (direct, which pads the
    last page). *)
Theorem C09_writes_touch_only_their_pages :
  forall f spage lpage o ps d0 (reqs : list (N * N * list item)) es,
    object_pages f spage lpage o ps ->
    Forall (fun q => fst (fst q) + 2 ^ lpage < 2 ^ 64) reqs ->
    let s := sys_run f spage (d0, (fun '(offset, len, st) => write_start f spage lpage o offset len st) <$> reqs) es in
    forall x, fst s x <> d0 x ->
      exists offset len st, (offset, len, st) ∈ reqs /\
        match f with
        | Lite => exists i, in_part lpage (o_size o) offset i /\ locate ps i = Some x
        | Direct => exists i a p, in_part lpage (o_size o) offset i /\ locate ps i = Some a /\
                      (a, p) ∈ ps /\ in_page (a, p) x
        end.
Proof.
  intros f spage lpage o ps d0 reqs es Hop Hw s x Hx.
  assert (HF : FInv f spage lpage o ps ((fun q => fst (fst q)) <$> reqs) d0 s).
  { apply (FInv_run f spage lpage o ps Hop (fun _ => 0)). split; [|split].
    - cbn [snd]. rewrite !fmap_length. reflexivity.
    - intros i offset c Eo Ec. cbn [snd] in Ec. rewrite list_lookup_fmap in Ec. rewrite list_lookup_fmap in Eo.
      destruct (reqs !! i) as [[[off len] st]|] eqn:Er; [|discriminate]. cbn in Eo, Ec.
      inversion Eo; inversion Ec; subst. apply (start_frame f spage lpage o ps Hop).
      rewrite Forall_forall in Hw. apply (Hw _ (elem_of_list_lookup_2 _ _ _ Er)).
    - intros y Hy. cbn in Hy. congruence. }
  destruct HF as (_ & _ & HF). destruct (HF x Hx) as (offset & Hin & Ht).
  apply elem_of_list_fmap in Hin as ([[off len] st] & -> & Hin).
  exists off, len, st. split; [exact Hin|]. exact Ht.
Qed.
Print Assumptions C09_writes_touch_only_their_pages.

(** C09, placement: a write call that returns success has stored exactly the
    stream's bytes at the part's place; the stream was complete and of the
    declared length, which is the length of the part. *)
Theorem C09_successful_write_is_in_place :
  forall f spage lpage o ps d0 offset len stream vjs d,
    object_pages f spage lpage o ps -> offset + 2 ^ lpage < 2 ^ 64 ->
    call_run f spage (d0, write_start f spage lpage o offset len stream) vjs = (d, Returned WOk) ->
    no_fail stream /\ N.of_nat (length (stream_bytes stream)) = len /\
    offset + len = N.min (offset + 2 ^ lpage) (o_size o) /\
    (forall i, in_part lpage (o_size o) offset i ->
       exists x b, locate ps i = Some x /\ stream_bytes stream !! N.to_nat (i - offset) = Some b /\ d x = b).
Proof.
  intros f spage lpage o ps d0 offset len stream vjs d Hop Hw Hrun.
  set (want := fun i => default 0 (stream_bytes stream !! N.to_nat (i - offset))).
  assert (HS : SInv f spage lpage o ps want [(offset, len, stream)] d0 (d, [Returned WOk])).
  { assert (E : sys_run f spage (d0, [write_start f spage lpage o offset len stream])
        ((fun vj => {| e_call := 0; e_valid := fst vj; e_junk := snd vj |}) <$> vjs) = (d, [Returned WOk])).
    { assert (G : forall vjs s c, sys_run f spage (s, [c])
         ((fun vj => {| e_call := 0; e_valid := fst vj; e_junk := snd vj |}) <$> vjs)
         = let '(s', c') := call_run f spage (s, c) vjs in (s', [c'])).
      { clear. induction vjs as [|[v j] vjs IH]; intros s c; [reflexivity|].
        rewrite fmap_cons, run_cons. cbn [fst snd].
        destruct (call_step f spage v j s c) as [s' c'] eqn:Ecs. rewrite <- IH.
        unfold sys_run. cbn [fold_left]. f_equal.
        unfold sys_step. cbn [snd fst e_call e_valid e_junk lookup list_lookup]. rewrite Ecs. reflexivity. }
      rewrite G, Hrun. reflexivity. }
    rewrite <- E. apply (SInv_run f spage lpage o ps Hop want).
    apply (SInv_start f spage lpage o ps Hop want [(offset, len, stream)]). constructor; [|constructor]. split; [exact Hw|].
    intros i b Eb Hi. unfold want. replace (N.to_nat (offset + N.of_nat i - offset)) with i by lia. rewrite Eb. reflexivity. }
  destruct HS as (_ & HS & _). specialize (HS 0%nat offset len stream (Returned WOk) eq_refl eq_refl).
  cbn [call_ok fst] in HS. destruct HS as (H1 & H2 & H3 & H4).
  split; [exact H2|]. split; [exact H1|]. split; [exact H3|].
  intros i [Hi1 Hi2]. rewrite <- H3 in Hi2.
  destruct (object_pages_view _ _ _ _ _ Hop) as (lc & t & V).
  destruct (locate_lt ps i) as (k & a & p & Ek & Hin).
  { pose proof (pv_total _ _ _ _ _ _ _ V). lia. }
  destruct (lookup_lt_is_Some_2 (stream_bytes stream) (N.to_nat (i - offset))) as [b Eb]; [lia|].
  specialize (H4 (i - offset) ltac:(lia)). replace (offset + (i - offset)) with i in H4 by lia.
  unfold byte_at, want in H4. rewrite Eb in H4. cbn [default] in H4.
  assert (El : locate ps i = Some (a + (i - psum ps k))).
  { rewrite <- (locate_page ps k a p) by (try exact Ek; lia). f_equal. lia. }
  rewrite El in H4. cbn in H4. exists (a + (i - psum ps k)), b. auto.
Qed.
Print Assumptions C09_successful_write_is_in_place.

(** C08 and C22, end to end: [data] is uploaded by any number of concurrent
    write calls (retries and duplicates included), interleaved in any way, each
    delivering bytes of [data] at its offset; once every byte belongs to a part
    for which some call succeeded, reading any accepted range delivers exactly
    that slice of [data]. *)
Definition uploads_from (data : list N) (q : N * N * list item) : Prop :=
  let '(offset, len, stream) := q in
  forall i b, stream_bytes stream !! i = Some b -> N.of_nat i < len ->
    data !! (N.to_nat offset + i)%nat = Some b.
Definition uploaded (lpage size : N) (reqs : list (N * N * list item)) (calls : list wcall) : Prop :=
  forall i, i < size -> exists k offset len stream,
    reqs !! k = Some (offset, len, stream) /\ calls !! k = Some (Returned WOk) /\ in_part lpage size offset i.

Lemma upload_content f spage lpage o ps d0 data reqs es :
  object_pages f spage lpage o ps -> N.of_nat (length data) = o_size o ->
  Forall (fun q => fst (fst q) + 2 ^ lpage < 2 ^ 64) reqs -> Forall (uploads_from data) reqs ->
  let s := sys_run f spage (d0, (fun '(offset, len, st) => write_start f spage lpage o offset len st) <$> reqs) es in
  uploaded lpage (o_size o) reqs (snd s) ->
  forall i x, i < o_size o -> locate ps i = Some x -> data !! N.to_nat i = Some (fst s x).
Proof.
  intros Hop Hlen Hw Hup s Hall i x Hi Hx.
  set (want := fun i => default 0 (data !! N.to_nat i)).
  assert (HS : SInv f spage lpage o ps want reqs d0 s).
  { apply (SInv_run f spage lpage o ps Hop want). apply (SInv_start f spage lpage o ps Hop want).
    rewrite Forall_forall in *. intros [[off len] st] Hin. split; [exact (Hw _ Hin)|].
    intros j b Eb Hj. unfold want. specialize (Hup _ Hin j b Eb Hj).
    replace (N.to_nat (off + N.of_nat j)) with (N.to_nat off + j)%nat by lia. rewrite Hup. reflexivity. }
  destruct HS as (_ & HS & _). destruct (Hall i Hi) as (k & off & len & st & Eq & Ec & Hp1 & Hp2).
  specialize (HS _ _ _ _ _ Eq Ec). cbn [call_ok] in HS. destruct HS as (_ & _ & H3 & H4).
  rewrite <- H3 in Hp2. specialize (H4 (i - off) ltac:(lia)). replace (off + (i - off)) with i in H4 by lia.
  unfold byte_at, want in H4. rewrite Hx in H4. cbn in H4.
  destruct (lookup_lt_is_Some_2 data (N.to_nat i)) as [b Eb]; [lia|]. rewrite Eb in H4 |- *. cbn in H4. congruence.
Qed.

Lemma delivers_slice d ps data start fin size step c :
  N.of_nat (length data) = size -> fin <= size -> start <= fin ->
  (forall i x, i < size -> locate ps i = Some x -> data !! N.to_nat i = Some (d x)) ->
  delivers d ps start fin step c ->
  exists fuel outs, drain step fuel c = Some (outs, RDone) /\
    concat outs.*1 = take (N.to_nat (fin - start)) (drop (N.to_nat start) data).
Proof.
  intros Hl Hf Hsf Hd (fuel & outs & E & Hlen & Hat & _). exists fuel, outs. split; [exact E|].
  apply list_eq. intros j. destruct (decide (j < N.to_nat (fin - start))%nat) as [Hj|Hj].
  - destruct (Hat (start + N.of_nat j) ltac:(lia)) as (x & Hx & Ex).
    replace (N.to_nat (start + N.of_nat j - start)) with j in Ex by lia. rewrite Ex.
    rewrite lookup_take by lia. rewrite lookup_drop. rewrite <- (Hd (start + N.of_nat j) x ltac:(lia) Hx). f_equal. lia.
  - rewrite !lookup_ge_None_2; [reflexivity| |lia]. rewrite take_length, drop_length. lia.
Qed.

Theorem C08_lite_read_after_upload :
  forall spage lpage o ps d0 data reqs es start fin,
    object_pages Lite spage lpage o ps -> N.of_nat (length data) = o_size o ->
    Forall (fun q => fst (fst q) + 2 ^ lpage < 2 ^ 64) reqs -> Forall (uploads_from data) reqs ->
    let s := sys_run Lite spage (d0, (fun '(offset, len, st) => write_start Lite spage lpage o offset len st) <$> reqs) es in
    uploaded lpage (o_size o) reqs (snd s) ->
    start < default (o_size o) fin <= o_size o ->
    exists fuel outs,
      drain (lite_read_step lpage (fst s)) fuel (read_start Lite spage lpage o start fin) = Some (outs, RDone) /\
      concat outs.*1 = take (N.to_nat (default (o_size o) fin - start)) (drop (N.to_nat start) data).
Proof.
  intros spage lpage o ps d0 data reqs es start fin Hop Hlen Hw Hup s Hall Hr.
  pose proof (C08_lite_read_returns_range spage lpage o ps (fst s) start fin Hop) as H.
  replace ((start <? default (o_size o) fin) && (default (o_size o) fin <=? o_size o)) with true in H by lia.
  eapply delivers_slice; [exact Hlen|lia|lia| |exact H].
  exact (upload_content Lite spage lpage o ps d0 data reqs es Hop Hlen Hw Hup Hall).
Qed.
Print Assumptions C08_lite_read_after_upload.

Theorem C22_direct_read_after_upload :
  forall spage lpage o ps d0 data reqs es start fin stream_buffer_size,
    object_pages Direct spage lpage o ps -> N.of_nat (length data) = o_size o ->
    Forall (fun q => fst (fst q) + 2 ^ lpage < 2 ^ 64) reqs -> Forall (uploads_from data) reqs ->
    let s := sys_run Direct spage (d0, (fun '(offset, len, st) => write_start Direct spage lpage o offset len st) <$> reqs) es in
    uploaded lpage (o_size o) reqs (snd s) ->
    start <= default (o_size o) fin <= o_size o -> 0 < stream_buffer_size ->
    exists fuel outs,
      drain (direct_read_step spage lpage stream_buffer_size true true (fst s)) fuel
        (read_start Direct spage lpage o start fin) = Some (outs, RDone) /\
      concat outs.*1 = take (N.to_nat (default (o_size o) fin - start)) (drop (N.to_nat start) data).
Proof.
  intros spage lpage o ps d0 data reqs es start fin sbs Hop Hlen Hw Hup s Hall Hr Hs.
  pose proof (C22_direct_read_returns_range spage lpage o ps (fst s) start fin sbs Hop Hs) as H.
  replace ((start <=? default (o_size o) fin) && (default (o_size o) fin <=? o_size o)) with true in H by lia.
  eapply delivers_slice; [exact Hlen|lia|lia| |exact H].
  exact (upload_content Direct spage lpage o ps d0 data reqs es Hop Hlen Hw Hup Hall).
Qed.
Print Assumptions C22_direct_read_after_upload.

(** Non-vacuity: the 9800-byte object uploaded in three parts, the second
    interleaved with the third, ends up fully uploaded. *)
Definition ex_data : list N := (fun i => N.of_nat i mod 251) <$> seq 0 (N.to_nat 9800).
Definition ex_part (offset len : N) : N * N * list item :=
  (offset, len, [Data (take (N.to_nat 700) (drop (N.to_nat offset) ex_data));
                 Data (take (N.to_nat (len - 700)) (drop (N.to_nat (offset + 700)) ex_data))]).
Definition ex_reqs := [ex_part 0 4096; ex_part 4096 4096; ex_part 8192 1608].
Definition ex_events : list event :=
  map (fun i => {| e_call := i; e_valid := true; e_junk := fun _ => 99 |}) [2; 1; 2; 2; 1; 0; 2; 2; 1; 1; 0; 0; 0; 2]%nat.
Theorem upload_example f :
  snd (sys_run f 8 (fun _ => 0, (fun '(offset, len, st) => write_start f 8 12 ex_obj offset len st) <$> ex_reqs) ex_events)
  = [Returned WOk; Returned WOk; Returned WOk].
Proof. destruct f; vm_compute; reflexivity. Qed.

(** C09 relies on [offset + large page size] not overflowing 64 bits; the code
    (release profile) does not check it.  With the last large-page-aligned
    offset of the 64-bit range the length check passes, and the object's tail
    pages are overwritten although the part lies far outside the object. *)
Theorem C09_offset_overflow_refuted :
  exists spage lpage o ps d0 offset len stream vjs i x,
    object_pages Lite spage lpage o ps /\ offset < 2 ^ 64 /\
    (forall j, ~ in_part lpage (o_size o) offset j) /\
    i < o_size o /\ locate ps i = Some x /\
    fst (call_run Lite spage (d0, write_start Lite spage lpage o offset len stream) vjs) x <> d0 x.
Proof.
  exists 8, 12, ex_obj, ex_ps, (fun _ => 0), (2 ^ 64 - 4096), 4096, [Data (repeat 7 1024)], [(true, fun _ => 0)], 8192, 1024.
  split; [apply ex_object_pages|]. split; [vm_compute; reflexivity|].
  split. { unfold in_part, ex_obj. cbn [o_size]. intros j [H1 H2]. lia. }
  split; [reflexivity|]. split; [vm_compute; reflexivity|]. vm_compute. discriminate.
Qed.
Print Assumptions C09_offset_overflow_refuted.

(** ** C10.  [len] is a legal length for the part at [offset]. *)
Definition part_request (lpage size offset len : N) : Prop :=
  offset mod 2 ^ lpage = 0 /\ offset + 2 ^ lpage < 2 ^ 64 /\ size < 2 ^ 64 /\ offset <= size /\
  offset + len = N.min (offset + 2 ^ lpage) size.

Lemma part_request_check lpage size offset len :
  part_request lpage size offset len -> write_check lpage size offset len = None.
Proof.
  intros (Hm & Hw & Hs & Hos & Hl). unfold write_check. rewrite is_multiple_of_pow2_spec, Hm. cbn [N.eqb negb].
  destruct (N.ltb_spec (2 ^ lpage) len); [lia|]. unfold u64_add.
  rewrite (N.mod_small (offset + len)) by lia. rewrite (N.mod_small (offset + 2 ^ lpage)) by lia.
  destruct (N.ltb_spec size (offset + len)); [lia|].
  destruct (N.eqb_spec (offset + len) (N.min (offset + 2 ^ lpage) size)); [reflexivity|lia].
Qed.

Lemma start_running f spage lpage o ps offset len stream :
  object_pages f spage lpage o ps -> part_request lpage (o_size o) offset len ->
  exists w, write_start f spage lpage o offset len stream = Running w /\
    SI f spage ps (o_size o) offset w /\ w_len w = len /\ w_stream w = stream /\ w_written w = 0 /\ w_buf w = [] /\ w_page w = 0%nat.
Proof.
  intros Hop Hq. pose proof (part_request_check _ _ _ _ Hq) as Hc.
  destruct (object_pages_view _ _ _ _ _ Hop) as (lc & t & V).
  destruct Hq as (_ & Hw & _).
  destruct (targets_spec _ _ _ _ _ _ _ _ _ V (op_limit _ _ _ _ _ Hop) Hw Hc) as (ts & Ets & Hts & Hl).
  unfold write_start. rewrite Hc, Ets. eexists. split; [reflexivity|]. split; [split; [exact Hts|reflexivity]|].
  cbn. auto.
Qed.

(** [returns r]: with enough steps (and the object staying writable) the call
    returns [r], whatever the padding bytes are. *)
Definition returns (f : flavour) (spage : N) (c : wcall) (r : wresult) : Prop :=
  exists n, forall d vjs, (n <= length vjs)%nat -> Forall (fun vj => fst vj = true) vjs ->
    snd (call_run f spage (d, c) vjs) = Returned r.
(** [never_returns]: after any number of steps the call is still running. *)
Definition never_returns (f : flavour) (spage : N) (c : wcall) : Prop :=
  forall d vjs, Forall (fun vj => fst vj = true) vjs ->
    exists w, snd (call_run f spage (d, c) vjs) = Running w.

Theorem C10_exact_stream_succeeds :
  forall f spage lpage o ps offset len stream,
    object_pages f spage lpage o ps -> part_request lpage (o_size o) offset len ->
    no_fail stream -> no_empty stream -> N.of_nat (length (stream_bytes stream)) = len ->
    returns f spage (write_start f spage lpage o offset len stream) WOk.
Proof.
  intros f spage lpage o ps offset len stream Hop Hq Hnf Hne Hl.
  destruct (start_running f spage lpage o ps offset len stream Hop Hq) as (w & -> & HS & E1 & E2 & E3 & E4 & E5).
  exists (S (measure w)). intros d vjs Hn Hv.
  apply (run_to f spage WOk (Qexact f spage ps (o_size o) offset)) with (n := S (measure w)); try assumption; try lia.
  - intros w' junk d' HQ. apply (Qexact_step f spage ps (o_size o) offset). exact HQ.
  - split; [exact HS|]. unfold rest. rewrite E1, E2, E3, E4. cbn [app]. split; [exact Hnf|]. split; [exact Hne|]. lia.
Qed.
Print Assumptions C10_exact_stream_succeeds.

(** Whatever the request and the stream, a call that returns an error says why:
    the request is not a whole part of the object (and then nothing was
    written), or the stream failed or has another length than announced. *)
Theorem C10_rejections_have_a_reason :
  forall f spage lpage o ps offset len stream d vjs d' r,
    object_pages f spage lpage o ps -> offset + 2 ^ lpage < 2 ^ 64 -> Forall (fun vj => fst vj = true) vjs ->
    call_run f spage (d, write_start f spage lpage o offset len stream) vjs = (d', Returned r) ->
    (exists e, r = WErr e /\ part_error lpage (o_size o) offset len e /\ d' = d) \/
    (valid_part lpage (o_size o) offset len /\ (r = WOk \/ stream_fault stream len r)).
Proof.
  intros f spage lpage o ps offset len stream d vjs d' r Hop Hw Hv E. unfold write_start in E.
  destruct (write_check lpage (o_size o) offset len) as [e|] eqn:Ec.
  - left. exists e. assert (G : forall vjs d, call_run f spage (d, Returned (WErr e)) vjs = (d, Returned (WErr e))).
    { clear. induction vjs as [|vj vjs IH]; intros d; [reflexivity|]. cbn. apply IH. }
    rewrite G in E. injection E as <- <-. split; [reflexivity|]. split; [now apply check_error|reflexivity].
  - right. split; [exact (write_check_ok _ _ _ _ Hw Ec)|].
    destruct (object_pages_view _ _ _ _ _ Hop) as (lc & t & V).
    destruct (targets_spec _ _ _ _ _ _ _ _ _ V (op_limit _ _ _ _ _ Hop) Hw Ec) as (ts & Ets & Hts & Hl). rewrite Ets in E.
    assert (Hd : r = WOk \/ r <> WOk) by (destruct r; [left; reflexivity|right; discriminate|right; discriminate]).
    destruct Hd as [|Hr]; [auto|]. right.
    eapply (Qall_run f spage ps (o_size o) offset stream len vjs); [exact Hv| |exact E|exact Hr].
    split; [split; [exact Hts|reflexivity]|]. split; [reflexivity|]. split; [reflexivity|auto].
Qed.
Print Assumptions C10_rejections_have_a_reason.

Theorem C10_overlong_stream_rejected :
  forall f spage lpage o ps offset len stream,
    object_pages f spage lpage o ps -> part_request lpage (o_size o) offset len ->
    no_empty stream -> len < N.of_nat (length (stream_bytes stream)) ->
    returns f spage (write_start f spage lpage o offset len stream) (WErr DataStreamLengthMismatch).
Proof.
  intros f spage lpage o ps offset len stream Hop Hq Hne Hl.
  destruct (start_running f spage lpage o ps offset len stream Hop Hq) as (w & -> & HS & E1 & E2 & E3 & E4 & E5).
  exists (S (measure w)). intros d vjs Hn Hv.
  apply (run_to f spage _ (Qlong f spage ps (o_size o) offset)) with (n := S (measure w)); try assumption; try lia.
  - intros w' junk d' HQ. apply (Qlong_step f spage ps (o_size o) offset). exact HQ.
  - split; [exact HS|]. unfold rest. rewrite E1, E2, E3, E4. cbn [app length]. split; [exact Hne|]. lia.
Qed.
Print Assumptions C10_overlong_stream_rejected.

Theorem C10_failing_stream_rejected :
  forall f spage lpage o ps offset len stream,
    object_pages f spage lpage o ps -> part_request lpage (o_size o) offset len ->
    no_empty stream -> Fail ∈ stream -> N.of_nat (length (stream_bytes stream)) <= len ->
    returns f spage (write_start f spage lpage o offset len stream) (WErr DataStreamError).
Proof.
  intros f spage lpage o ps offset len stream Hop Hq Hne Hf Hl.
  destruct (start_running f spage lpage o ps offset len stream Hop Hq) as (w & -> & HS & E1 & E2 & E3 & E4 & E5).
  exists (S (measure w)). intros d vjs Hn Hv.
  apply (run_to f spage _ (Qfail f spage ps (o_size o) offset)) with (n := S (measure w)); try assumption; try lia.
  - intros w' junk d' HQ. apply (Qfail_step f spage ps (o_size o) offset). exact HQ.
  - split; [exact HS|]. unfold rest. rewrite E1, E2, E3, E4. cbn [app length]. split; [exact Hne|]. split; [lia|]. exact Hf.
Qed.
Print Assumptions C10_failing_stream_rejected.

(** [i] is the first byte of one of the object's pages. *)
Definition starts_page (ps : list (N * N)) (i : N) : Prop :=
  exists a p, (a, p) ∈ ps /\ locate ps i = Some a.

Lemma psum_starts ps k a p : ps !! k = Some (a, p) -> starts_page ps (psum ps k).
Proof.
  intros E. exists a, p. split; [eapply elem_of_list_lookup_2; exact E|].
  rewrite <- (N.add_0_r (psum ps k)). rewrite (locate_page _ _ _ _ _ E) by apply pow2_pos. f_equal. lia.
Qed.

(** The statement's page boundaries are the prefix sums of the targets. *)
Lemma boundary_iff f spage ps size offset len ts total :
  disjoint_pages ps -> targets_ok f spage ps size offset len ts -> total < len ->
  (starts_page ps (offset + total) <-> exists j, total = asum (take j ts)).
Proof.
  intros Hdis Hts Hl. split.
  - intros (a & p & Hin & Hloc).
    (* find the target containing [total] *)
    assert (exists j amt ad, ts !! j = Some (amt, ad) /\ asum (take j ts) <= total < asum (take j ts) + amt) as (j & amt & ad & Ej & Hj).
    { rewrite <- (to_sum _ _ _ _ _ _ _ Hts) in Hl. clear -Hl. revert total Hl. induction ts as [|[am ad] ts IH]; intros total Hl.
      - rewrite asum_nil in Hl. lia.
      - rewrite asum_cons in Hl. cbn [fst] in Hl. destruct (N.lt_ge_cases total am).
        + exists 0%nat, am, ad. cbn [take]. rewrite asum_nil. split; [reflexivity|]. lia.
        + destruct (IH (total - am) ltac:(lia)) as (j & am2 & ad2 & Ej & Hj). exists (S j), am2, ad2.
          split; [exact Ej|]. cbn [take]. rewrite asum_cons. cbn [fst]. lia. }
    exists j. destruct (to_page _ _ _ _ _ _ _ Hts _ _ _ Ej) as (Hamt & k & p' & Ek & Hk & Hp & _).
    assert (Hl2 : locate ps (offset + total) = Some (ad + (total - asum (take j ts)))).
    { rewrite <- (locate_page ps k ad p') by (try exact Ek; lia). f_equal. lia. }
    rewrite Hl2 in Hloc. inversion Hloc as [Ha].
    apply elem_of_list_lookup in Hin as [k2 Ek2].
    destruct (decide (k = k2)) as [<-|Hne].
    + rewrite Ek in Ek2. inversion Ek2. lia.
    + exfalso. apply (Hdis k k2 _ _ a Hne Ek Ek2); unfold in_page; cbn [fst snd]; [lia|]. pose proof (pow2_pos p). lia.
  - intros [j ->]. destruct (ts !! j) as [[amt ad]|] eqn:Ej.
    + destruct (to_page _ _ _ _ _ _ _ Hts _ _ _ Ej) as (Hamt & k & p' & Ek & Hk & _). rewrite <- Hk.
      eapply psum_starts. exact Ek.
    + apply lookup_ge_None_1 in Ej. rewrite take_ge in Hl by exact Ej. rewrite (to_sum _ _ _ _ _ _ _ Hts) in Hl. lia.
Qed.

(** A stream that ends early exactly on a page boundary is rejected ... *)
Theorem C10_truncated_at_page_boundary_rejected :
  forall f spage lpage o ps offset len stream,
    object_pages f spage lpage o ps -> part_request lpage (o_size o) offset len ->
    no_fail stream -> N.of_nat (length (stream_bytes stream)) < len ->
    starts_page ps (offset + N.of_nat (length (stream_bytes stream))) ->
    returns f spage (write_start f spage lpage o offset len stream) (WErr DataStreamLengthMismatch).
Proof.
  intros f spage lpage o ps offset len stream Hop Hq Hnf Hl Hb.
  destruct (start_running f spage lpage o ps offset len stream Hop Hq) as (w & -> & HS & E1 & E2 & E3 & E4 & E5).
  exists (S (measure w)). intros d vjs Hn Hv.
  apply (run_to f spage _ (Qbound f spage ps (o_size o) offset)) with (n := S (measure w)); try assumption; try lia.
  - intros w' junk d' HQ. apply (Qbound_step f spage ps (o_size o) offset). exact HQ.
  - split; [exact HS|]. unfold rest. rewrite E1, E2, E3, E4. cbn [app length]. split; [exact Hnf|]. split; [lia|].
    rewrite N.add_0_l. apply (boundary_iff f spage ps (o_size o) offset len); [exact (op_disjoint _ _ _ _ _ Hop)| |exact Hl|exact Hb].
    rewrite <- E1. apply HS.
Qed.
Print Assumptions C10_truncated_at_page_boundary_rejected.

(** ... but whenever a stream ends early anywhere else, the write call never
    returns: it spins for ever (in lite while holding the bucket's read lock).
    This refutes the property for every such stream, not just for one. *)
Theorem C10_truncated_stream_refuted :
  forall f spage lpage o ps offset len stream,
    object_pages f spage lpage o ps -> part_request lpage (o_size o) offset len ->
    no_fail stream -> N.of_nat (length (stream_bytes stream)) < len ->
    ~ starts_page ps (offset + N.of_nat (length (stream_bytes stream))) ->
    never_returns f spage (write_start f spage lpage o offset len stream).
Proof.
  intros f spage lpage o ps offset len stream Hop Hq Hnf Hl Hb.
  destruct (start_running f spage lpage o ps offset len stream Hop Hq) as (w & -> & HS & E1 & E2 & E3 & E4 & E5).
  intros d vjs Hv. apply (Qhang_run f spage ps (o_size o) offset); [|exact Hv].
  split; [exact HS|]. unfold rest. rewrite E1, E2, E3, E4. cbn [app length]. split; [exact Hnf|]. split; [lia|].
  intros j Ej. apply Hb. apply (boundary_iff f spage ps (o_size o) offset len (w_targets w)); [exact (op_disjoint _ _ _ _ _ Hop)| |exact Hl|].
  - rewrite <- E1. apply HS.
  - exists j. lia.
Qed.
Print Assumptions C10_truncated_stream_refuted.

(** Its hypotheses hold for the example object: 100 bytes of the second part. *)
Theorem C10_truncated_example f :
  never_returns f 8 (write_start f 8 12 ex_obj 4096 4096 [Data (repeat 1 100)]).
Proof.
  apply (C10_truncated_stream_refuted f 8 12 ex_obj ex_ps); [apply ex_object_pages| | | |].
  - unfold part_request. cbn [o_size ex_obj]. repeat split; vm_compute; congruence.
  - unfold no_fail. set_solver.
  - vm_compute. reflexivity.
  - intros (a & p & Hin & Hloc). vm_compute in Hloc. inversion Hloc; subst a.
    repeat (apply elem_of_cons in Hin as [Hin|Hin]; [inversion Hin|]). set_solver.
Qed.

(** A complete stream followed by one empty chunk makes the call panic (index
    out of bounds), instead of succeeding. *)
Theorem C10_trailing_empty_chunk_refuted :
  exists spage lpage o ps offset len stream,
    object_pages Direct spage lpage o ps /\ part_request lpage (o_size o) offset len /\
    no_fail stream /\ N.of_nat (length (stream_bytes stream)) = len /\
    snd (call_run Direct spage (fun _ => 0, write_start Direct spage lpage o offset len stream)
           (repeat (true, fun _ => 0) 2)) = Returned WPanic.
Proof.
  exists 8, 12, ex_obj, ex_ps, 4096, 4096, [Data (repeat 1 (N.to_nat 4096)); Data []].
  split; [apply ex_object_pages|]. split; [unfold part_request; cbn [o_size ex_obj]; repeat split; vm_compute; congruence|].
  split; [intros H; apply elem_of_cons in H as [H|H]; [discriminate H|]; apply elem_of_cons in H as [H|H]; [discriminate H|]; inversion H|].
  split; vm_compute; reflexivity.
Qed.
Print Assumptions C10_trailing_empty_chunk_refuted.
