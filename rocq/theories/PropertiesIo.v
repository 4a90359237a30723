(** Property C62: what the operations of a direct partition ask of its device. *)
From Coq Require Import ZifyBool ZifyNat ZifyN.
From stdpp Require Import base numbers list_numbers option gmap sets functions list.
From Verif Require Import Util Bytes BuddyModel BuddySpec BuddyInv LayoutModel PageIOModel PageIOSpec PageIOProofs PageIOWrite TuplesModel TuplesSpec.
From Verif Require Import DirectModel DirectBase DirectSpec DirectSeqSpec DirectInv DirectTup DirectAlloc DirectSteps DirectDev DirectRel DirectSim DirectRec DirectSys DirectDrive PropertiesShare.
From Verif Require PropertiesTuples.
Open Scope N_scope.
Ltac Zify.zify_post_hook ::= idtac.

(** ** Specification *)
(** The call at [p] asks for the device range [off, off + len): a write of a
    metadata record or of a page of data (create_object.rs:92, write_object.rs:137-158),
    or a read of a page (read_object.rs:43-58, 128-163). *)
Inductive accesses (c : dcfg) (h : shared) : pc -> N -> N -> Prop :=
| acc_write p off len : in_flight c p = Some (off, len) -> accesses c h p off len
| acc_read r sbs rd ob data off len e :
    h_objs h !! r = Some ob ->
    direct_read_step (dc_spage c) (dc_lpage c) sbs (b_state ob =? ds_committed) (b_state ob =? ds_committed) (h_dev h) rd = (Some (data, (off, len)), e) ->
    accesses c h (PRead r sbs rd) off len.
(** The range is made of whole small pages of the heap. *)
Definition proper_access (c : dcfg) (off len : N) : Prop :=
  (2 ^ dc_spage c | off) /\ (2 ^ dc_spage c | len) /\ 0 < len /\ dc_base c <= off /\ off + len <= dc_base c + dc_heap c.

(** ** Pages of objects *)
Definition placed_objs (c : dcfg) (h : shared) : Prop :=
  forall r ob pg, h_objs h !! r = Some ob -> pg ∈ dpages c (b_meta ob) -> well_placed (dc_base c) (dc_heap c) (dc_spage c) (dc_lpage c) pg.

Lemma held_placed c h ps lk pg : AInv c h ps lk -> pg ∈ held c h ps -> well_placed (dc_base c) (dc_heap c) (dc_spage c) (dc_lpage c) pg.
Proof. intros [[f HI] _ _] Hp. eapply live_well_placed; [exact HI|]. apply elem_of_app. auto. Qed.

Lemma step_new_objs c o h p h' p' v : pstepR c o h p h' p' v -> forall r ob', h_objs h' !! r = Some ob' ->
  (exists r0 ob, h_objs h !! r0 = Some ob /\ b_meta ob' = b_meta ob) \/
  (exists m msize moff id k, p = PCreate4 m msize moff id k /\ b_meta ob' = m).
Proof.
  intros St r ob' E.
  assert (Hset : forall r0 ob0 ob1, h_objs h !! r0 = Some ob0 -> b_meta ob1 = b_meta ob0 -> h_objs (set_obj h r0 ob1) !! r = Some ob' ->
    exists r0 ob, h_objs h !! r0 = Some ob /\ b_meta ob' = b_meta ob).
  { intros r0 ob0 ob1 E0 Em E1. cbn in E1. destruct (decide (r0 = r)) as [<-|Hne].
    - rewrite list_lookup_insert in E1 by (eapply lookup_lt_Some, E0). injection E1 as <-. eauto.
    - rewrite list_lookup_insert_ne in E1 by exact Hne. eauto. }
  destruct St; cbn [h_inc h_com h_objs set_alloc set_dev set_tup set_com set_inc bump use_id] in E; try solve [left; eauto]; try (left; eapply Hset; [| |exact E]; [eassumption|reflexivity]).
  all: cbn [add_obj set_objs h_objs] in E; apply lookup_app_Some in E as [E|[_ E]]; [left; eauto|]; apply list_lookup_singleton_Some in E as [_ <-].
  - right. do 5 eexists. split; reflexivity.
  - left. eauto.
Qed.

Lemma placed_step c y l y' z lk zz : cfg_ok c -> Good c y z lk zz -> dstep c y l y' -> placed_objs c (y_sh y) -> placed_objs c (y_sh y').
Proof.
  intros Hc [(qs & sp & Hp1 & Hp2 & HS & HT & HA & HR)] St HP.
  destruct St as [y op|y i p o h' p' v Hi Hid Hlt Htm Hs|y i p addr len f Hi Hf|y t' Ht]; try exact HP.
  intros r ob' pg E Hpg. cbn [y_sh] in E. apply pstep_R in Hs. destruct (step_new_objs _ _ _ _ _ _ _ Hs _ _ E) as [(r0 & ob & E0 & Em)|(m & msize & moff & id & k & -> & Em)].
  - rewrite Em in Hpg. eapply HP; eassumption.
  - eapply held_placed; [exact HA|]. apply elem_of_app. right. apply elem_of_list_bind. eexists. split; [|eapply elem_of_list_lookup_2, Hi].
    cbn [pc_pages]. apply elem_of_app. left. rewrite <- Em. exact Hpg.
Qed.
Lemma placed_steps c pages y0 ls y : cfg_ok c -> fresh_partition c pages y0 -> dsteps c y0 ls y -> valid_calls (dc_lpage c) ls -> placed_objs c (y_sh y).
Proof.
  intros Hc Hf Hs. induction Hs as [|y0 ls y1 l y2 Hs IH St]; intros Hv.
  - intros r ob pg E. rewrite (fp_objs _ _ _ Hf) in E. discriminate.
  - assert (Hv1 : valid_calls (dc_lpage c) ls) by (intros i op H; eapply Hv, elem_of_app; eauto).
    pose proof (fresh_good _ _ _ (ck_pages _ Hc) Hf) as HG. destruct (good_steps _ _ _ _ _ Hc Hv1 HG Hs) as (ls' & z' & lk & zz & _ & _ & HG' & _).
    eapply placed_step; [exact Hc|exact HG'|exact St|]. apply IH; assumption.
Qed.

(** Accesses to whole small pages inside a well-placed page. *)
Lemma pow_divide a b : a <= b -> (2 ^ a | 2 ^ b).
Proof. intros H. exists (2 ^ (b - a)). rewrite <- N.pow_add_r. f_equal. lia. Qed.
Lemma placed_divide c pg : well_placed (dc_base c) (dc_heap c) (dc_spage c) (dc_lpage c) pg -> (2 ^ dc_spage c | fst pg).
Proof.
  intros ((H1 & _) & H2 & _). apply N.mod_divide in H2; [|apply pow2_nz]. etransitivity; [|exact H2]. apply pow_divide, H1.
Qed.
Lemma proper_in c pg off len : well_placed (dc_base c) (dc_heap c) (dc_spage c) (dc_lpage c) pg -> 0 < len ->
  (2 ^ dc_spage c | off) -> (2 ^ dc_spage c | len) -> fst pg <= off -> off + len <= fst pg + 2 ^ snd pg -> proper_access c off len.
Proof.
  intros (_ & _ & H3) Hl Ho Hle H1 H2. split; [exact Ho|]. split; [exact Hle|]. split; [exact Hl|].
  assert (A : in_heap (dc_base c) (dc_heap c) off) by (apply H3; unfold page_bytes; clear -H1 H2 Hl; lia).
  assert (B : in_heap (dc_base c) (dc_heap c) (off + len - 1)) by (apply H3; unfold page_bytes; clear -H1 H2 Hl; lia).
  unfold in_heap in A, B. clear -A B Hl. lia.
Qed.
Lemma padded_multiple spage n : (2 ^ spage | N.max (2 ^ spage) (ceil_pow2 n spage)) /\ 0 < N.max (2 ^ spage) (ceil_pow2 n spage).
Proof.
  pose proof (pow2_pos spage) as Hp. split; [|clear -Hp; lia].
  destruct (N.max_spec (2 ^ spage) (ceil_pow2 n spage)) as [[_ ->]|[_ ->]]; [|reflexivity].
  apply N.mod_divide; [apply pow2_nz|apply ceil_pow2_mult].
Qed.

Lemma read_range c o ps lc t rd sbs v1 v2 d data off len e :
  pages_view Direct (dc_spage c) (dc_lpage c) o ps lc t -> RInv ps o lc t rd -> 0 < sbs ->
  direct_read_step (dc_spage c) (dc_lpage c) sbs v1 v2 d rd = (Some (data, (off, len)), e) ->
  exists a p x n, (a, p) ∈ ps /\ 0 < n /\ a <= x /\ x + n <= a + 2 ^ p /\ off = floor_pow2 x (dc_spage c) /\ len = ceil_pow2 (x + n) (dc_spage c) - off.
Proof.
  intros V (Ho & Hlc & Ht & Hle & Hk) Hsbs. unfold direct_read_step.
  destruct (N.ltb_spec (r_next rd) (r_end rd)) as [Hlt|Hge]; cbn [negb]; [|discriminate].
  destruct (Hk Hlt) as (k & a & p & Ek & E & Hin). rewrite Ho, Hlc, Ht, Ek.
  rewrite (pv_page _ _ _ _ _ _ _ V k) by (eapply lookup_lt_Some; exact E). rewrite E.
  rewrite mod_pow2_spec, N.shiftl_1_l.
  rewrite (mod_within _ (psum ps k) _ (pow2_nz _) (psum_aligned _ _ _ _ (pv_nonincr _ _ _ _ _ _ _ V) E) Hin).
  set (x := a + (r_next rd - psum ps k)). set (n := N.min (N.min sbs (r_end rd - r_next rd)) (2 ^ p - (r_next rd - psum ps k))).
  assert (Hn : 0 < n /\ x + n <= a + 2 ^ p) by (subst n x; clear -Hsbs Hlt Hin; lia).
  destruct v1; cbn [negb]; [|discriminate]. rewrite unaligned_read_spec by (clear -Hn; lia).
  destruct (negb _); [discriminate|]. destruct v2; cbn [negb]; [|discriminate]. intros H. injection H as _ <- <- _.
  exists a, p, x, n. split; [eapply elem_of_list_lookup_2, E|]. split; [apply Hn|]. split; [subst x; clear; lia|]. split; [apply Hn|]. auto.
Qed.

Lemma access_proper c y z lk zz i p off len : cfg_ok c -> Good c y z lk zz -> placed_objs c (y_sh y) ->
  y_procs y !! i = Some p -> accesses c (y_sh y) p off len -> proper_access c off len.
Proof.
  intros Hc [(qs & sp & Hp1 & Hp2 & HS & HT & HA & HR)] HP Hi Hacc. pose proof (elem_of_list_lookup_2 _ _ _ Hi) as Hin.
  assert (Hrel : exists s, pc_rel c (y_sh y) (z_state z) p s).
  { rewrite Hp1 in Hin. apply elem_of_list_fmap in Hin as ([p' s] & -> & Hin). exists s. eapply (rl_pcs _ _ _ _ HR), Hin. }
  destruct Hrel as [s Hrel]. destruct Hacc as [p off len Hif|r sbs rd ob data off len e E Hst].
  - pose proof (rel_flight _ _ _ _ _ Hrel) as Hfl. destruct p; try discriminate Hif.
    + cbn [in_flight] in Hif. injection Hif as <- <-. pose proof (a_pcs _ _ _ _ HA _ Hin) as (_ & -> & Hle).
      destruct (metadata_exponent (dc_spage c) (msize_of m) (msize_pos m)) as (_ & _ & Hsz & _).
      destruct (padded_multiple (dc_spage c) (msize_of m)) as [Hm Hm0]. fold (metadata_page_size (dc_spage c) (msize_of m)) in Hm, Hm0.
      assert (Hpg : well_placed (dc_base c) (dc_heap c) (dc_spage c) (dc_lpage c) (moff, alloc_pow2 (dc_spage c) (msize_of m))).
      { eapply held_placed; [exact HA|]. apply elem_of_app. right. apply elem_of_list_bind. eexists. split; [|exact Hin]. cbn [pc_pages]. apply elem_of_app. right. constructor. }
      eapply (proper_in c _ _ _ Hpg); [exact Hm0|apply (placed_divide _ _ Hpg)|exact Hm|reflexivity|]. cbn [fst snd]. clear -Hsz. lia.
    + cbn [in_flight] in Hif. destruct (w_targets w !! w_page w) as [[amt a2]|] eqn:Et; [|discriminate]. cbn in Hif. injection Hif as <- <-.
      destruct Hfl as (ob2 & Eo2 & Ht & Hpart & Hoff).
      destruct (to_page _ _ _ _ _ _ _ Ht _ _ _ Et) as (H0 & k & p & Ek & Hk & Ha & Hpad & _).
      pose proof (HP _ _ _ Eo2 (elem_of_list_lookup_2 _ _ _ Ek)) as Hpg.
      destruct (padded_multiple (dc_spage c) amt) as [Hm Hm0].
      eapply (proper_in c _ _ _ Hpg); [exact Hm0|apply (placed_divide _ _ Hpg)|exact Hm|reflexivity|]. cbn [fst snd]. apply N.add_le_mono_l. exact (proj2 Hpad).
  - destruct s; cbn [pc_rel] in Hrel; try contradiction. destruct Hrel as (-> & Hsbs & ob2 & E2 & _ & _ & Hnx & Hen & _ & Hv).
    assert (ob2 = ob) as -> by congruence. destruct Hv as [Heq|(lc & t & V & HI)].
    + exfalso. unfold direct_read_step in Hst. rewrite Hnx, Hen, Heq, N.ltb_irrefl in Hst. discriminate Hst.
    + destruct (read_range _ _ _ _ _ _ _ _ _ _ _ _ _ _ V HI Hsbs Hst) as (a & p & x & n & Hel & Hn & Hax & Hxn & -> & ->).
      pose proof (HP _ _ _ E Hel) as Hpg. pose proof (placed_divide _ _ Hpg) as Hdiv. cbn [fst] in Hdiv.
      assert (Hdp : (2 ^ dc_spage c | a + 2 ^ p)) by (apply N.divide_add_r; [exact Hdiv|apply pow_divide, (proj1 Hpg)]).
      pose proof (floor_within a p (dc_spage c) x (proj2 (N.mod_divide _ _ (pow2_nz _)) Hdiv) (proj1 (proj1 Hpg)) Hax) as Hf.
      pose proof (ceil_within (a + 2 ^ p) (dc_spage c) (x + n) (proj2 (N.mod_divide _ _ (pow2_nz _)) Hdp) Hxn) as Hcl.
      pose proof (floor_pow2_le x (dc_spage c)) as Hfl. pose proof (ceil_pow2_ge (x + n) (dc_spage c)) as Hcg.
      assert (D1 : (2 ^ dc_spage c | floor_pow2 x (dc_spage c))) by (apply N.mod_divide; [apply pow2_nz|apply floor_pow2_mult]).
      assert (D2 : (2 ^ dc_spage c | ceil_pow2 (x + n) (dc_spage c))) by (apply N.mod_divide; [apply pow2_nz|apply ceil_pow2_mult]).
      apply (proper_in c _ _ _ Hpg); cbn [fst snd]; [clear -Hn Hfl Hcg; lia|exact D1|apply N.divide_sub_r; assumption|exact Hf|].
      clear -Hcl Hfl Hcg. lia.
Qed.

(** * C62 *)
(** In every state of every history of a formatted partition, with any number of
    calls under way, each device access that a call asks for is made of whole small
    pages of the partition's heap: it is aligned as direct I/O demands, it is not
    empty, and it ends inside the partition. *)
Theorem C62_device_accesses_are_aligned_and_inside_the_heap : forall c pages y0 ls y i p off len,
  cfg_ok c -> fresh_partition c pages y0 -> dsteps c y0 ls y -> valid_calls (dc_lpage c) ls ->
  y_procs y !! i = Some p -> accesses c (y_sh y) p off len -> proper_access c off len.
Proof.
  intros c pages y0 ls y i p off len Hc Hf Hs Hv Hi Ha. pose proof (fresh_good _ _ _ (ck_pages _ Hc) Hf) as HG.
  destruct (good_steps _ _ _ _ _ Hc Hv HG Hs) as (ls' & z' & lk & zz & _ & _ & HG' & _).
  eapply access_proper; [exact Hc|exact HG'|eapply placed_steps; eassumption|exact Hi|exact Ha].
Qed.

(** ** Nothing else of the device is touched *)
Lemma dev_write_agree d1 d2 off data x : d1 x = d2 x -> dev_write d1 off data x = dev_write d2 off data x.
Proof. intros H. unfold dev_write. destruct (off <=? x); [|exact H]. destruct (data !! _); cbn; auto. Qed.
Lemma dev_read_agree d1 d2 off len : (forall x, off <= x < off + len -> d1 x = d2 x) -> dev_read d1 off len = dev_read d2 off len.
Proof.
  intros H. unfold dev_read. apply list_fmap_ext. intros i k Hk. apply lookup_seq in Hk as [-> Hk]. apply H. clear -Hk. lia.
Qed.
Lemma read_step_agree spage lpage sbs v1 v2 d d' rd :
  (forall data off len e, direct_read_step spage lpage sbs v1 v2 d rd = (Some (data, (off, len)), e) -> forall x, off <= x < off + len -> d' x = d x) ->
  direct_read_step spage lpage sbs v1 v2 d' rd = direct_read_step spage lpage sbs v1 v2 d rd.
Proof.
  unfold direct_read_step. intros H. destruct (negb (r_next rd <? r_end rd)); [reflexivity|].
  destruct (read_page _ _ _ _ _) as [[addr pow2]|]; [|reflexivity]. destruct v1; cbn [negb] in *; [|reflexivity].
  remember (N.min (N.min sbs (r_end rd - r_next rd)) (N.shiftl 1 pow2 - mod_pow2 (r_next rd) pow2)) as n eqn:En. clear En.
  remember (addr + mod_pow2 (r_next rd) pow2) as off eqn:Eo. clear Eo. unfold unaligned_read in *.
  remember (floor_pow2 off spage) as a eqn:Ea. remember (N.max (ceil_pow2 (off + n) spage) (2 ^ spage) - a) as l eqn:El. clear Ea El.
  rewrite !dev_read_length in *. destruct (N.of_nat (N.to_nat l) <? off - a + n); [reflexivity|].
  rewrite !take_length, !drop_length, !dev_read_length in *. destruct (negb _); [reflexivity|]. destruct v2; cbn [negb] in *; [|reflexivity].
  rewrite (dev_read_agree d' d a l); [reflexivity|]. intros x Hx. eapply H; [reflexivity|exact Hx].
Qed.
Lemma step_reads c o h p h' p' v d : pstep c o h p = Some (h', p', v) ->
  (forall off len x, accesses c h p off len -> off <= x < off + len -> d x = h_dev h x) ->
  exists d', pstep c o (set_dev h d) p = Some (set_dev h' d', p', v) /\ forall x, d x = h_dev h x -> d' x = h_dev h' x.
Proof.
  intros St Hag.
  assert (Hsame : h_dev h' = h_dev h -> pstep c o (set_dev h d) p = Some (set_dev h' d, p', v) ->
    exists d', pstep c o (set_dev h d) p = Some (set_dev h' d', p', v) /\ forall x, d x = h_dev h x -> d' x = h_dev h' x).
  { intros E1 E2. exists d. split; [exact E2|]. intros x Hx. rewrite E1. exact Hx. }
  destruct p as [op| | | | | | | | | | | | | | | | | | |r sbs rd|] eqn:Ep.
  all: try (apply Hsame; revert St; unfold pstep, find_committed, poll, ret, go; cbn [set_dev set_alloc set_tup set_objs set_inc set_com bump use_id h_alloc h_tup h_objs h_inc h_com h_dev];
    repeat case_match; intros; simplify_eq; try reflexivity; fail).
  - cbn [pstep] in *. unfold go in *. injection St as <- <- <-. cbn [set_dev h_dev]. eexists. split; [reflexivity|]. intros x Hx. now apply dev_write_agree.
  - clear Hsame. cbn [pstep] in *. unfold write_continue in *. cbn [set_dev h_dev] in *.
    destruct (_ <? _); [discriminate|]. destruct (w_targets w !! w_page w) as [[amt a]|]; [|discriminate]. destruct (_ <? _).
    + unfold go in *. injection St as <- <- <-. exists d. auto.
    + cbn [negb] in *. unfold go in *. injection St as <- <- <-. eexists. split; [reflexivity|]. intros x Hx. cbn [set_dev h_dev]. now apply dev_write_agree.
  - clear Hsame. cbn [pstep] in *. cbn [set_dev h_dev h_objs] in *. destruct (h_objs h !! r) as [ob|] eqn:E; [|discriminate].
    rewrite (read_step_agree _ _ _ _ _ (h_dev h) d).
    + destruct (direct_read_step _ _ _ _ _ _ _) as [[[data rng]|] [| | |]]; injection St as <- <- <-; exists d; auto.
    + intros data off len e He x Hx. eapply Hag; [|exact Hx]. eapply acc_read; eassumption.
Qed.

(** And these accesses are all that the operations do with the device: the bytes that
    a step of the partition changes are among those that some call is asking to
    write, and how a call goes on and what it answers depend on no byte outside what
    it asks for - if the device [d] has the same bytes there, the same step is taken
    with the same outcome, and leaves equal bytes wherever there were equal ones. *)
Theorem C62_nothing_else_of_the_device_matters :
  (forall c pages y0 ls y l y' x, cfg_ok c -> fresh_partition c pages y0 -> dsteps c y0 ls y -> valid_calls (dc_lpage c) ls -> dstep c y l y' ->
     h_dev (y_sh y') x <> h_dev (y_sh y) x ->
     exists i p off len, y_procs y !! i = Some p /\ accesses c (y_sh y) p off len /\ off <= x < off + len) /\
  (forall c o h p h' p' v d, pstep c o h p = Some (h', p', v) ->
     (forall off len x, accesses c h p off len -> off <= x < off + len -> d x = h_dev h x) ->
     exists d', pstep c o (set_dev h d) p = Some (set_dev h' d', p', v) /\ forall x, d x = h_dev h x -> d' x = h_dev h' x).
Proof.
  split; [|exact step_reads]. intros c pages y0 ls y l y' x Hc Hf Hs Hv St Hx. pose proof (fresh_good _ _ _ (ck_pages _ Hc) Hf) as HG.
  destruct (good_steps _ _ _ _ _ Hc Hv HG Hs) as (ls' & z' & lk & zz & _ & _ & [(qs & sp & Hp1 & Hp2 & HS & HT & HA & HR)] & _).
  destruct St as [y op|y i p o h' p' v Hi Ho1 Ho2 Ho3 Hst|y i p addr len v Hi Hif|y t' Ht]; cbn [y_sh] in Hx; try now contradiction Hx.
  - pose proof Hi as Hi'. rewrite Hp1, list_lookup_fmap in Hi'. destruct (qs !! i) as [[p0 s]|] eqn:Eq; [|discriminate]. injection Hi' as ->.
    pose proof (delete_Permutation qs i _ Eq) as Hpm.
    assert (Hpm1 : y_procs y ≡ₚ p :: (delete i qs).*1) by (rewrite Hp1; exact (fmap_Permutation fst _ _ Hpm)).
    pose proof (AInv_perm _ _ _ _ _ Hpm1 HA) as HA'. pose proof (Rel_perm _ _ _ _ _ Hpm HR) as HR'.
    apply pstep_R in Hst. destruct (step_dev _ _ _ _ _ _ _ _ _ _ _ HA' HR' Hst) as [Hd|(addr & len & Hif & Hd)]; [congruence|].
    exists i, p, addr, len. split; [exact Hi|]. split; [now constructor|]. now apply Hd.
  - cbn [set_dev h_dev] in Hx. destruct (addr <=? x) eqn:E1, (x <? addr + len) eqn:E2; cbn in Hx; try congruence.
    apply N.leb_le in E1. apply N.ltb_lt in E2. exists i, p, addr, len. split; [exact Hi|]. split; [now constructor|]. auto.
Qed.

(** ** A run *)
(** An object of 700 bytes is stored and is being read from byte 600; a second one is
    being written, and a third one's metadata. *)
Definition c62_run : list ev :=
  do_create 0 [97] 700 1 2 ++ [ECall (OWrite 1 0 700 [Data (replicate 700 5)])] ++ steps 1 (replicate 7 2)
  ++ [ECall (OCommit 1 false)] ++ steps 2 [2; 2; 2; 2; 3] ++ [EFlush] ++ steps 2 [3; 3]
  ++ do_create 3 [98] 600 3 4 ++ [ECall (OWrite 3 0 600 [Data (replicate 600 7)])] ++ steps 4 [4; 4; 4; 4]
  ++ [ECall (OCreate [99] 9)] ++ steps 5 [4; 4]
  ++ [ECall (ORead [97] None 600 (Some 650) 100)] ++ steps 6 [5].
Definition read_range_of (c : dcfg) (h : shared) (p : pc) : option (N * N) :=
  match p with
  | PRead r sbs rd =>
      match h_objs h !! r with
      | Some ob => match fst (direct_read_step (dc_spage c) (dc_lpage c) sbs (b_state ob =? ds_committed) (b_state ob =? ds_committed) (h_dev h) rd) with
                   | Some (_, rng) => Some rng | None => None end
      | None => None
      end
  | _ => None
  end.
Lemma read_range_of_accesses c h p off len : read_range_of c h p = Some (off, len) -> accesses c h p off len.
Proof.
  destruct p; try discriminate. cbn [read_range_of]. destruct (h_objs h !! r) as [ob|] eqn:E; [|discriminate].
  destruct (direct_read_step _ _ _ _ _ _ _) as [[[data [o n]]|] e] eqn:Er; [|discriminate]. cbn [fst]. intros H. injection H as -> ->.
  eapply acc_read; eassumption.
Qed.
Definition c62_labels : list label :=
  [LCall 0 (OCreate [97] 700); LVis 0 (VRet (RCreated 1)); LCall 1 (OWrite 1 0 700 [Data (replicate 700 5)]); LVis 1 (VRet RWritten);
   LCall 2 (OCommit 1 false); LVis 2 (VRet (RCommitted (Some 2))); LCall 3 (OCreate [98] 600); LVis 3 (VRet (RCreated 3));
   LCall 4 (OWrite 3 0 600 [Data (replicate 600 7)]); LCall 5 (OCreate [99] 9); LCall 6 (ORead [97] None 600 (Some 650) 100);
   LVis 6 (VRet (RReading 2 700 600 650))].
Definition c62_facts (y : dsys) (ls : list label) : list (option (N * N)) * list (option (N * N)) :=
  (in_flight (ex_cfg 10 8192) <$> y_procs y, read_range_of (ex_cfg 10 8192) (y_sh y) <$> y_procs y).
Definition c62_found : list (option (N * N)) * list (option (N * N)) :=
  ([None; None; None; None; Some (6144, 1024); Some (5120, 512); None], [None; None; None; None; None; None; Some (8704, 512)]).
Lemma c62_runs : option_map (fun r => (visible (snd r), c62_facts (fst r) (snd r))) (ex_run 10 8192 c62_run) = Some (c62_labels, c62_found).
Proof. vm_compute. reflexivity. Qed.
Theorem C62_example : exists c pages y0 ls y p4 p5 p6,
  cfg_ok c /\ fresh_partition c pages y0 /\ dsteps c y0 ls y /\ valid_calls (dc_lpage c) ls /\ visible ls = c62_labels /\
  y_procs y !! 4%nat = Some p4 /\ accesses c (y_sh y) p4 6144 1024 /\
  y_procs y !! 5%nat = Some p5 /\ accesses c (y_sh y) p5 5120 512 /\
  y_procs y !! 6%nat = Some p6 /\ accesses c (y_sh y) p6 8704 512.
Proof.
  destruct (ex_run_shows 10 8192 c62_run c62_facts c62_labels c62_found c62_runs) as (y0 & y & ls & H1 & H2 & H3 & H4).
  apply pair_equal_spec in H4 as [F1 F2].
  assert (E : forall (f : pc -> option (N * N)) l i x, f <$> y_procs y = l -> l !! i = Some (Some x) -> exists p, y_procs y !! i = Some p /\ f p = Some x).
  { intros f l i x <- E. rewrite list_lookup_fmap in E. destruct (y_procs y !! i) as [p|]; [|discriminate]. injection E as E. eauto. }
  destruct (E _ _ 4%nat _ F1 eq_refl) as (p4 & P4 & Q4). destruct (E _ _ 5%nat _ F1 eq_refl) as (p5 & P5 & Q5). destruct (E _ _ 6%nat _ F2 eq_refl) as (p6 & P6 & Q6).
  exists (ex_cfg 10 8192), (PropertiesTuples.ex_pages 1), y0, ls, y, p4, p5, p6. split; [constructor; cbn; lia|]. split; [exact H1|]. split; [exact H2|].
  split; [apply valid_calls_ok; rewrite H3; vm_compute; reflexivity|]. split; [exact H3|].
  split; [exact P4|]. split; [now constructor|]. split; [exact P5|]. split; [now constructor|]. split; [exact P6|]. now apply read_range_of_accesses.
Qed.
Print Assumptions C62_device_accesses_are_aligned_and_inside_the_heap.
Print Assumptions C62_nothing_else_of_the_device_matters.
Print Assumptions C62_example.
