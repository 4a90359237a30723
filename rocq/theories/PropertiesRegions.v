(** C16: regions of the device. *)
From stdpp Require Import base numbers list list_numbers option gmap sets fin_sets.
From Coq Require Import ZifyBool ZifyNat ZifyN.
From Verif Require Import Util BuddyModel BuddySpec BuddyProofs BuddyInv PropertiesAlloc RegionModel.
Open Scope N_scope.
Ltac Zify.zify_post_hook ::= idtac.

Definition region_byte (r : region) (b : N) : Prop := fst r <= b < fst r + snd r.
Definition region_inside (r : region) (device_size : N) : Prop := forall b, region_byte r b -> b < device_size.
Definition regions_disjoint (r s : region) : Prop := forall b, ~ (region_byte r b /\ region_byte s b).

(** ** Direct: for every configuration the loader accepts *)
Theorem C16_direct_regions_inside_and_disjoint (reserved lpage partition_len : N) (r : direct_regions) :
  partition_len < 2 ^ 64 ->
  direct_layout reserved lpage partition_len = Some r ->
  region_inside (dr_tuples r) partition_len /\ region_inside (dr_heap r) partition_len /\
  regions_disjoint (dr_tuples r) (dr_heap r) /\ reserved <= snd (dr_tuples r).
Proof.
  intros H64 E. unfold direct_layout in E.
  destruct (N.leb_spec (ceil_pow2 reserved lpage + ceil_pow2 reserved lpage) (floor_pow2 partition_len lpage)) as [Hle|]; [|discriminate].
  apply (inj Some) in E. subst r. unfold region_inside, regions_disjoint, region_byte. cbn [dr_tuples dr_heap fst snd].
  pose proof (floor_pow2_le partition_len lpage) as Hf. pose proof (ceil_pow2_ge reserved lpage) as Hc.
  remember (ceil_pow2 reserved lpage) as C. remember (floor_pow2 partition_len lpage) as F.
  assert (Hs : u64_sub F C = F - C).
  { unfold u64_sub. replace (2 ^ 64 + F - C) with ((F - C) + 1 * 2 ^ 64) by lia.
    rewrite N.mod_add by discriminate. apply N.mod_small. lia. }
  rewrite Hs. clear Hs HeqC HeqF. repeat split; intros; lia.
Qed.

(** ... and so does every page any allocation history of that heap hands out. *)
Theorem C16_direct_pages_inside (reserved spage lpage partition_len : N) (r : direct_regions) dir a0 a live failed p :
  partition_len < 2 ^ 64 -> spage <= lpage ->
  direct_layout reserved lpage partition_len = Some r ->
  allocator_new (fst (dr_heap r)) (snd (dr_heap r)) spage lpage (2 ^ 32) dir = Ok a0 ->
  reaches a0 a live failed -> p ∈ live ->
  (forall b, page_bytes p b -> b < partition_len) /\
  (forall b, page_bytes p b -> ~ region_byte (dr_tuples r) b).
Proof.
  intros H64 Hsl E Hn Hr Hp.
  destruct (C16_direct_regions_inside_and_disjoint _ _ _ _ H64 E) as (_ & Hin & Hd & _).
  destruct (C01_live_pages_disjoint_and_well_placed _ _ _ _ _ _ _ _ _ _ Hsl Hn Hr) as (_ & Hw & _).
  destruct (Hw p Hp) as (_ & _ & Hb). split.
  - intros b Hpb. apply Hin. apply (Hb b Hpb).
  - intros b Hpb Ht. apply (Hd b). split; [exact Ht|]. apply (Hb b Hpb).
Qed.

Theorem C16_direct_instance :
  direct_layout (2 ^ 20 * 3) 24 (2 ^ 30 + 5) = Some {| dr_tuples := (0, 2 ^ 24); dr_heap := (2 ^ 24, 2 ^ 30 - 2 ^ 24) |}.
Proof. vm_compute. reflexivity. Qed.

(** ** Lite *)
(** Buckets, journal and heap never overlap; the journal has at least 32 MiB;
    and if what is left of the device after the reserved space is a whole number
    of large pages, all regions are inside the device.  Missing: device sizes
    that are not (refuted below). *)
Theorem C16_lite_regions_partial (bucket_count_log2 lpage device_size : N) (r : lite_regions) :
  device_size < 2 ^ 64 ->
  lite_layout bucket_count_log2 lpage device_size = Some r ->
  regions_disjoint (lr_buckets r) (lr_journal r) /\ regions_disjoint (lr_buckets r) (lr_heap r) /\
  regions_disjoint (lr_journal r) (lr_heap r) /\ 2 ^ 25 <= snd (lr_journal r) /\
  snd (lr_buckets r) = 5 * 2 ^ bucket_count_log2 /\
  (fst (lr_heap r) <= device_size -> (device_size - fst (lr_heap r)) mod 2 ^ lpage = 0 ->
     region_inside (lr_buckets r) device_size /\ region_inside (lr_journal r) device_size /\
     region_inside (lr_heap r) device_size).
Proof.
  intros H64 E. unfold lite_layout in E.
  destruct ((12 <=? bucket_count_log2) && (bucket_count_log2 <=? 48)); [|discriminate].
  apply (inj Some) in E. subst r. cbn [lr_buckets lr_journal lr_heap fst snd].
  pose proof (ceil_pow2_ge (0 + 2 ^ bucket_count_log2 * 5 + 1024 * 1024 * 32) lpage) as Hh.
  remember (ceil_pow2 (0 + 2 ^ bucket_count_log2 * 5 + 1024 * 1024 * 32) lpage) as heap eqn:Eh. clear Eh.
  remember (2 ^ bucket_count_log2) as bc. clear Heqbc.
  unfold regions_disjoint, region_inside, region_byte. cbn [fst snd].
  split; [intros b; lia|]. split; [intros b; lia|]. split; [intros b; lia|]. split; [change (2 ^ 25) with 33554432; lia|]. split; [lia|].
  intros Hd Hm.
  assert (Hs : u64_sub device_size heap = device_size - heap).
  { unfold u64_sub. replace (2 ^ 64 + device_size - heap) with ((device_size - heap) + 1 * 2 ^ 64) by lia.
    rewrite N.mod_add by discriminate. apply N.mod_small. lia. }
  rewrite Hs. assert (Hc : ceil_pow2 (device_size - heap) lpage = device_size - heap).
  { rewrite ceil_pow2_spec. rewrite Hm. cbn. apply N.div_exact in Hm; [|apply N.pow_nonzero; discriminate]. lia. }
  rewrite Hc. rewrite (N.mod_small (device_size - heap)) by lia.
  repeat split; intros b; lia.
Qed.

Theorem C16_lite_instance :
  option_map (fun r => (lr_buckets r, lr_journal r, lr_heap r)) (lite_layout 12 24 (2 ^ 30))
  = Some ((0, 20480), (20480, 50311168), (50331648, 2 ^ 30 - 50331648)).
Proof. vm_compute. reflexivity. Qed.

Definition ex_r0 : Allocator :=
  match allocator_new 50331648 16777216 23 24 (2 ^ 64) DirLeft with Ok a => a | _ => ex_a0 end.
(** The heap is rounded up: a device one byte larger than the
    reserved space gets a heap that ends almost one large page beyond the device, and the allocator does hand out a
    page there. *)
Theorem C16_lite_heap_beyond_device_refuted :
  exists device_size r a0 a live p, device_size < 2 ^ 64 /\
    lite_layout 12 24 device_size = Some r /\
    allocator_new (fst (lr_heap r)) (snd (lr_heap r)) 23 24 (2 ^ 64) DirLeft = Ok a0 /\
    reaches a0 a live 0 /\ p ∈ live /\ exists b, page_bytes p b /\ device_size <= b.
Proof.
  destruct (lite_layout 12 24 (50331648 + 1)) as [r|] eqn:El; [|vm_compute in El; discriminate].
  assert (Hr : lr_heap r = (50331648, 16777216)) by (vm_compute in El; injection El as <-; reflexivity).
  exists (50331648 + 1), r, ex_r0, (fst (allocate ex_r0 (2 ^ 24))), [(50331648, 24)], (50331648, 24).
  split; [reflexivity|]. split; [exact El|]. rewrite Hr. cbn [fst snd]. split; [vm_compute; reflexivity|].
  split.
  - apply (reaches_alloc ex_r0 ex_r0 [] 0 (2 ^ 24) 24); [apply reaches_init| |vm_compute; reflexivity].
    split; [vm_compute; congruence|]. split; [vm_compute; congruence|]. intros q _ Hq.
    apply N.pow_le_mono_r_iff in Hq; [exact Hq|reflexivity].
  - split; [apply elem_of_list_singleton; reflexivity|]. exists (50331648 + 1). unfold page_bytes. cbn [fst snd].
    split; [|reflexivity]. split; vm_compute; congruence.
Qed.

(** A device smaller than the reserved space is accepted too (the subtraction
    wraps around). *)
Theorem C16_lite_tiny_device_refuted :
  exists r, lite_layout 12 24 4096 = Some r /\ ~ region_inside (lr_journal r) 4096.
Proof.
  eexists. split; [vm_compute; reflexivity|]. intros H. specialize (H 20480). cbn in H.
  assert (region_byte (20480, 50311168) 20480) as Hb by (split; vm_compute; congruence). specialize (H Hb). vm_compute in H. discriminate.
Qed.

(** ** KV *)
(** Everything is inside the device and the index is disjoint from the rest,
    and the log's state page is disjoint from the heap and the log's data.
    Missing: heap against log data, which is false (next theorem). *)
Theorem C16_kv_regions_partial (spage device_len log_buffer_size reserved : N) (r : kv_regions) :
  kv_layout spage device_len log_buffer_size reserved = Some r ->
  region_inside (kr_tuples r) device_len /\ region_inside (kr_heap r) device_len /\
  region_inside (kr_log_data r) device_len /\ region_inside (kr_log_state r) device_len /\
  regions_disjoint (kr_tuples r) (kr_heap r) /\ regions_disjoint (kr_tuples r) (kr_log_state r) /\
  regions_disjoint (kr_heap r) (kr_log_state r) /\ regions_disjoint (kr_log_data r) (kr_log_state r).
Proof.
  intros E. unfold kv_layout, checked_sub in E.
  destruct ((9 <=? spage) && (spage <=? 24)); [|discriminate].
  destruct (log_buffer_size <=? 1024 * 1024 * 64); [discriminate|].
  pose proof (floor_pow2_le device_len spage) as Hf. remember (floor_pow2 device_len spage) as F. clear HeqF.
  destruct (N.leb_spec (2 ^ spage) F); cbn [mbind option_bind] in E; [|discriminate].
  remember (2 ^ spage) as S. clear HeqS. remember (ceil_pow2 reserved 24) as T. clear HeqT.
  destruct (N.leb_spec log_buffer_size (F - S)); cbn [mbind option_bind] in E; [|discriminate].
  destruct (N.leb_spec T (F - S)); cbn [mbind option_bind] in E; [|discriminate].
  pose proof (floor_pow2_le (F - S - T) 24) as Hh. remember (floor_pow2 (F - S - T) 24) as H'. clear HeqH'.
  destruct (H' <=? 1024 * 1024 * 64); [discriminate|]. apply (inj Some) in E. subst r.
  unfold region_inside, regions_disjoint, region_byte. cbn [kr_tuples kr_heap kr_log_data kr_log_state fst snd].
  repeat split; intros; lia.
Qed.

(** The heap's end is computed from the log's state page instead of its data:
    in every accepted configuration the last 64 MiB or so of the heap are also
    the last bytes of the log. *)
Theorem C16_kv_heap_overlaps_log_refuted (spage device_len log_buffer_size reserved : N) (r : kv_regions) :
  kv_layout spage device_len log_buffer_size reserved = Some r ->
  ~ regions_disjoint (kr_heap r) (kr_log_data r).
Proof.
  intros E. unfold kv_layout, checked_sub in E.
  destruct ((9 <=? spage) && (spage <=? 24)); [|discriminate].
  destruct (N.leb_spec log_buffer_size (1024 * 1024 * 64)) as [|Hlog]; [discriminate|].
  remember (floor_pow2 device_len spage) as F. clear HeqF.
  destruct (N.leb_spec (2 ^ spage) F); cbn [mbind option_bind] in E; [|discriminate].
  remember (2 ^ spage) as S. clear HeqS. remember (ceil_pow2 reserved 24) as T. clear HeqT.
  destruct (N.leb_spec log_buffer_size (F - S)); cbn [mbind option_bind] in E; [|discriminate].
  destruct (N.leb_spec T (F - S)); cbn [mbind option_bind] in E; [|discriminate].
  pose proof (floor_pow2_gt (F - S - T) 24) as Hh. pose proof (floor_pow2_le (F - S - T) 24) as Hle.
  remember (floor_pow2 (F - S - T) 24) as H'. clear HeqH'.
  destruct (N.leb_spec H' (1024 * 1024 * 64)) as [|Hbig]; [discriminate|]. apply (inj Some) in E. subst r.
  intros Hd. apply (Hd (T + H' - 1)). unfold region_byte. cbn [kr_heap kr_log_data fst snd].
  change (2 ^ 24) with 16777216 in Hh. lia.
Qed.
Theorem C16_kv_instance :
  option_map (fun r => (kr_heap r, kr_log_data r)) (kv_layout 12 (2 ^ 30) (2 ^ 27) 1000)
  = Some ((2 ^ 24, 1040187392), (939520000, 2 ^ 27)).
Proof. vm_compute. reflexivity. Qed.

Print Assumptions C16_direct_regions_inside_and_disjoint.
Print Assumptions C16_direct_pages_inside.
Print Assumptions C16_lite_regions_partial.
Print Assumptions C16_lite_heap_beyond_device_refuted.
Print Assumptions C16_lite_tiny_device_refuted.
Print Assumptions C16_kv_regions_partial.
Print Assumptions C16_kv_heap_overlaps_log_refuted.
