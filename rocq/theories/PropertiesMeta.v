(** C07: the on-device object record of libblobd-lite. *)
From stdpp Require Import base numbers list list_numbers option.
From Coq Require Import ZifyBool ZifyNat ZifyN.
From Verif Require Import Util Bytes LayoutModel MetaModel MetaSpec MetaProofs.
Open Scope N_scope.
Ltac Zify.zify_post_hook ::= idtac.

(** The number of bytes the record needs. *)
Definition record_bytes (r : create_req) : N :=
  39 + N.of_nat (length (cr_key r)) + 6 * N.of_nat (length (cr_lpages r))
  + 6 * N.of_nat (length (cr_tails r)) + N.of_nat (length (cr_assoc r)).

Lemma fmap_be n raw off v b : buf_read raw off n = Some b -> b = be_bytes (N.to_nat n) v -> v < 256 ^ n ->
  be_val <$> buf_read raw off n = Some v.
Proof. intros -> -> H. cbn. f_equal. apply be_val_bytes. rewrite N2Nat.id. exact H. Qed.

(** A record that fits a large page is built, occupies the page size recorded
    in it, and reads back as what was asked for: incomplete, linked to nothing. *)
Theorem C07_created_record_decodes (spage lpage : N) (r : create_req) :
  spage <= lpage -> valid_req spage lpage r -> record_bytes r <= 2 ^ lpage ->
  exists raw pow2, create_record spage lpage r = Some (CrRecord raw pow2) /\
    N.of_nat (length raw) = record_bytes r /\
    spage <= pow2 <= lpage /\ N.of_nat (length raw) <= 2 ^ pow2 /\
    (pow2 = spage \/ 2 ^ (pow2 - 1) < N.of_nat (length raw)) /\
    decodes spage lpage raw r st_incomplete 0 pow2.
Proof.
  intros Hsl Hv Hfit. destruct Hv as [Hk Ha Hs Hi Hc Hp (t & Ht & Etc)].
  destruct (create_record_fields spage lpage r _ t Ht Hk Ha eq_refl (eq_sym Etc) Hsl) as (raw & pow2 & E & Hpw & Hl & Hlow & F).
  { rewrite Etc. unfold record_bytes in Hfit. offg. lia. }
  exists raw, pow2. split; [exact E|]. split.
  { rewrite (rf_len _ _ _ _ _ F), Etc. unfold record_bytes. offg. lia. }
  split; [exact Hpw|]. split; [exact Hl|]. split; [exact Hlow|].
  assert (Hkl : meta_key_len raw = Some (N.of_nat (length (cr_key r)))).
  { unfold meta_key_len. rewrite (rf_key_len _ _ _ _ _ F). cbn [fmap option_fmap option_map]. f_equal.
    apply be_val_bytes. exact Hk. }
  assert (Hsz : meta_size raw = Some (cr_size r)).
  { unfold meta_size. rewrite (rf_size _ _ _ _ _ F). cbn [fmap option_fmap option_map]. f_equal.
    apply be_val_bytes. exact Hs. }
  assert (Hly : meta_layout spage lpage raw = Some (N.of_nat (length (cr_lpages r)), t)).
  { unfold meta_layout. rewrite Hsz. cbn [mbind option_bind]. exact Ht. }
  assert (Hal : meta_assoc_data_len spage lpage raw = Some (N.of_nat (length (cr_assoc r)))).
  { unfold meta_assoc_data_len. rewrite Hkl, Hly. cbn [mbind option_bind]. rewrite (rf_assoc_len _ _ _ _ _ F).
    cbn [fmap option_fmap option_map]. f_equal. apply be_val_bytes. exact Ha. }
  split.
  - unfold meta_state. rewrite (rf_state _ _ _ _ _ F). reflexivity.
  - unfold meta_size_pow2. rewrite (rf_pow2 _ _ _ _ _ F). cbn. f_equal. unfold be_val. cbn. lia.
  - unfold meta_next. rewrite (rf_next _ _ _ _ _ F). reflexivity.
  - unfold meta_created_ms. rewrite (rf_created _ _ _ _ _ F). cbn [fmap option_fmap option_map]. f_equal.
    apply be_val_bytes. exact Hc.
  - exact Hsz.
  - unfold meta_id. rewrite (rf_id _ _ _ _ _ F). cbn [fmap option_fmap option_map]. f_equal.
    apply be_val_bytes. exact Hi.
  - unfold meta_key. rewrite Hkl. cbn [mbind option_bind]. apply (rf_key _ _ _ _ _ F).
  - intros i p Ei. unfold meta_lpage. rewrite Hkl. cbn [mbind option_bind]. rewrite (rf_lpages _ _ _ _ _ F i p Ei).
    cbn [fmap option_fmap option_map]. f_equal. apply be_val_bytes. apply Hp. apply elem_of_app. left. eapply elem_of_list_lookup_2, Ei.
  - intros i p Ei. unfold meta_tail_page. rewrite Hkl, Hly. cbn [mbind option_bind]. rewrite (rf_tails _ _ _ _ _ F i p Ei).
    cbn [fmap option_fmap option_map]. f_equal. apply be_val_bytes. apply Hp. apply elem_of_app. right. eapply elem_of_list_lookup_2, Ei.
  - unfold meta_assoc_data. rewrite Hkl, Hly, Hal. cbn [mbind option_bind]. apply (rf_assoc _ _ _ _ _ F).
Qed.

(** A record that does not fit a large page is refused, not truncated. *)
Theorem C07_oversized_record_refused (spage lpage : N) (r : create_req) :
  valid_req spage lpage r -> 2 ^ lpage < record_bytes r ->
  create_record spage lpage r = Some CrTooLarge.
Proof.
  intros [Hk Ha Hs Hi Hc Hp (t & Ht & Etc)] Hbig. unfold create_record.
  destruct (N.leb_spec (2 ^ 16) (N.of_nat (length (cr_key r)))); [lia|]. rewrite Ht. cbn [mbind option_bind].
  destruct (N.leb_spec (2 ^ 16) (N.of_nat (length (cr_assoc r)))); [lia|]. rewrite Etc.
  match goal with |- (if ?a <? ?b then _ else _) = _ => destruct (N.ltb_spec a b) as [|Hx] end; [reflexivity|].
  exfalso. unfold record_bytes in Hbig. revert Hx. offg. lia.
Qed.

(** Changing the state or the next link in place changes nothing else. *)
Theorem C07_updates_touch_one_field (spage lpage : N) (raw raw' : list N) (r : create_req) (state next pow2 : N) :
  decodes spage lpage raw r state next pow2 ->
  (forall state', state' = st_incomplete \/ state' = st_committed ->
     set_state raw state' = Some raw' -> decodes spage lpage raw' r state' next pow2) /\
  (forall next', next' < 2 ^ 48 ->
     set_next raw next' = Some raw' -> decodes spage lpage raw' r state next' pow2).
Proof.
  intros [D1 D2 D3 D4 D5 D6 D7 D8 D9 D10]. split.
  - intros state' Hst E. unfold set_state in E.
    assert (Ho : forall off len, 1 <= off -> buf_read raw' off len = buf_read raw off len).
    { intros off len Ho. apply (buf_read_other _ _ _ _ _ _ E). right. cbn [length]. offg. lia. }
    assert (Hk : meta_key_len raw' = meta_key_len raw) by (unfold meta_key_len; rewrite Ho by (offg; lia); reflexivity).
    assert (Hs : meta_size raw' = meta_size raw) by (unfold meta_size; rewrite Ho by (offg; lia); reflexivity).
    assert (Hl : meta_layout spage lpage raw' = meta_layout spage lpage raw) by (unfold meta_layout; rewrite Hs; reflexivity).
    split.
    + unfold meta_state. rewrite (buf_read_same' _ _ _ _ 1 E eq_refl). cbn [mbind option_bind].
      destruct Hst as [->| ->]; reflexivity.
    + unfold meta_size_pow2 in *. rewrite Ho by (offg; lia). exact D2.
    + unfold meta_next in *. rewrite Ho by (offg; lia). exact D3.
    + unfold meta_created_ms in *. rewrite Ho by (offg; lia). exact D4.
    + rewrite Hs. exact D5.
    + unfold meta_id in *. rewrite Ho by (offg; lia). exact D6.
    + unfold meta_key in *. rewrite Hk. destruct (meta_key_len raw); [|exact D7]. cbn [mbind option_bind] in *.
      rewrite Ho by (offg; lia). exact D7.
    + intros i p Hi. specialize (D8 i p Hi). unfold meta_lpage in *. rewrite Hk. destruct (meta_key_len raw); [|exact D8].
      cbn [mbind option_bind] in *. rewrite Ho by (offg; lia). exact D8.
    + intros i p Hi. specialize (D9 i p Hi). unfold meta_tail_page in *. rewrite Hk, Hl. destruct (meta_key_len raw); [|exact D9].
      cbn [mbind option_bind] in *. destruct (meta_layout spage lpage raw) as [[lc t]|]; [|exact D9]. cbn [mbind option_bind] in *. rewrite Ho by (offg; lia). exact D9.
    + unfold meta_assoc_data, meta_assoc_data_len in *. rewrite Hk, Hl. destruct (meta_key_len raw); [|exact D10].
      cbn [mbind option_bind] in *. destruct (meta_layout spage lpage raw) as [[lc t]|]; [|exact D10]. cbn [mbind option_bind] in *.
      rewrite Ho by (offg; lia).
      destruct (be_val <$> buf_read raw (off_assoc_data_len n lc (tps_len t)) 2); [|exact D10]. cbn [mbind option_bind] in *.
      rewrite Ho by (offg; lia). exact D10.
  - intros next' Hn E. unfold set_next in E.
    assert (Ho : forall off len, off + len <= 2 \/ 8 <= off -> buf_read raw' off len = buf_read raw off len).
    { intros off len Ho. apply (buf_read_other _ _ _ _ _ _ E). rewrite be_bytes_length. offg. lia. }
    assert (Hk : meta_key_len raw' = meta_key_len raw) by (unfold meta_key_len; rewrite Ho by (offg; lia); reflexivity).
    assert (Hs : meta_size raw' = meta_size raw) by (unfold meta_size; rewrite Ho by (offg; lia); reflexivity).
    assert (Hl : meta_layout spage lpage raw' = meta_layout spage lpage raw) by (unfold meta_layout; rewrite Hs; reflexivity).
    split.
    + unfold meta_state in *. rewrite Ho by (offg; lia). exact D1.
    + unfold meta_size_pow2 in *. rewrite Ho by (offg; lia). exact D2.
    + unfold meta_next. rewrite (buf_read_same' _ _ _ _ 6 E) by (rewrite be_bytes_length; reflexivity).
      cbn [fmap option_fmap option_map]. f_equal. apply be_val_bytes. exact Hn.
    + unfold meta_created_ms in *. rewrite Ho by (offg; lia). exact D4.
    + rewrite Hs. exact D5.
    + unfold meta_id in *. rewrite Ho by (offg; lia). exact D6.
    + unfold meta_key in *. rewrite Hk. destruct (meta_key_len raw); [|exact D7]. cbn [mbind option_bind] in *.
      rewrite Ho by (offg; lia). exact D7.
    + intros i p Hi. specialize (D8 i p Hi). unfold meta_lpage in *. rewrite Hk. destruct (meta_key_len raw); [|exact D8].
      cbn [mbind option_bind] in *. rewrite Ho by (offg; lia). exact D8.
    + intros i p Hi. specialize (D9 i p Hi). unfold meta_tail_page in *. rewrite Hk, Hl. destruct (meta_key_len raw); [|exact D9].
      cbn [mbind option_bind] in *. destruct (meta_layout spage lpage raw) as [[lc t]|]; [|exact D9]. cbn [mbind option_bind] in *. rewrite Ho by (offg; lia). exact D9.
    + unfold meta_assoc_data, meta_assoc_data_len in *. rewrite Hk, Hl. destruct (meta_key_len raw); [|exact D10].
      cbn [mbind option_bind] in *. destruct (meta_layout spage lpage raw) as [[lc t]|]; [|exact D10]. cbn [mbind option_bind] in *.
      rewrite Ho by (offg; lia).
      destruct (be_val <$> buf_read raw (off_assoc_data_len n lc (tps_len t)) 2); [|exact D10]. cbn [mbind option_bind] in *.
      rewrite Ho by (offg; lia). exact D10.
Qed.

(** Non-trivial instance: 512-byte small pages, 4 KiB large pages, a 5000-byte
    object under key "ab" with associated data. *)
Definition ex_req : create_req :=
  {| cr_key := [97; 98]; cr_size := 5000; cr_assoc := [1; 2; 3]; cr_id := 2 ^ 100 + 5; cr_created_ms := 1700000000000;
     cr_lpages := [40960]; cr_tails := [8192] |}.
Theorem C07_instance : valid_req 9 12 ex_req /\ record_bytes ex_req <= 2 ^ 12.
Proof.
  split; [|vm_compute; congruence].
  split; [vm_compute; reflexivity|vm_compute; reflexivity|vm_compute; reflexivity|vm_compute; reflexivity|vm_compute; reflexivity| |].
  - intros p Hp. repeat (apply elem_of_cons in Hp as [->|Hp]; [vm_compute; reflexivity|]). inversion Hp.
  - eexists. split; [vm_compute; reflexivity|]. vm_compute. reflexivity.
Qed.
Theorem C07_instance_record :
  match create_record 9 12 ex_req with Some (CrRecord raw p) => (length raw, p, set_state raw st_committed ≫= meta_state) | _ => (0%nat, 0, None) end
  = (56%nat, 9, Some st_committed).
Proof. vm_compute. reflexivity. Qed.

(** The size field has 40 bits and nothing checks it: every accepted object of
    1 TiB or more gets a record that says a different size. *)
Theorem C07_size_beyond_40_bits_refuted :
  exists spage lpage r raw pow2, spage <= lpage /\
    N.of_nat (length (cr_key r)) < 2 ^ 16 /\ cr_size r = 2 ^ 40 + 7 /\
    create_record spage lpage r = Some (CrRecord raw pow2) /\ meta_size raw = Some 7.
Proof.
  set (r := {| cr_key := [97]; cr_size := 2 ^ 40 + 7; cr_assoc := []; cr_id := 1; cr_created_ms := 1;
     cr_lpages := replicate (N.to_nat 65536) 0; cr_tails := [0] |}).
  destruct (calc_object_layout 9 24 (2 ^ 64) (cr_size r)) as [[lc t]|] eqn:El; [|vm_compute in El; discriminate].
  assert (Hlc : lc = 65536 /\ tps_len t = 1) by (vm_compute in El; injection El as <- <-; split; reflexivity).
  destruct Hlc as [-> Htc].
  destruct (create_record_fields 9 24 r _ t El) as (raw & pow2 & E & _ & _ & _ & F).
  - vm_compute. reflexivity.
  - vm_compute. reflexivity.
  - cbn [cr_lpages r]. rewrite replicate_length. lia.
  - rewrite Htc. reflexivity.
  - lia.
  - rewrite Htc. vm_compute. congruence.
  - exists 9, 24, r, raw, pow2. split; [lia|]. split; [vm_compute; reflexivity|]. split; [reflexivity|]. split; [exact E|].
    unfold meta_size. rewrite (rf_size _ _ _ _ _ F). vm_compute. reflexivity.
Qed.

Print Assumptions C07_created_record_decodes.
Print Assumptions C07_oversized_record_refused.
Print Assumptions C07_updates_touch_one_field.
Print Assumptions C07_size_beyond_40_bits_refuted.
