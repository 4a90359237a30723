(** C29, C30: the index pages of libblobd-kv. *)
From stdpp Require Import base numbers list list_numbers option sets.
From Coq Require Import ZifyBool ZifyNat ZifyN.
From Verif Require Import Util Bytes KvCodecModel KvCodecSpec KvCodecProofs.
Open Scope N_scope.
Ltac Zify.zify_post_hook ::= idtac.

(** C29.  A page of any size, holding whatever bytes before, is written with any
    list of entries that fits; reading it back gives the list. *)
Theorem C29_index_page_round_trip junk ts :
  Forall valid_pair ts -> Forall (fun e => fst e <> KLit []) ts -> (pairs_size ts <= length junk)%nat ->
  exists page, bundle_serialise junk ts = Some page /\ length page = length junk /\ bundle_read page = Some ts.
Proof.
  intros Hv Hn. apply bundle_roundtrip; [exact Hv|]. eapply Forall_impl; [exact Hn|]. intros [k d] H. cbn in *.
  destruct k as [h|[|x l]]; [exact I|congruence|exact I].
Qed.
(** One byte too many and no page is written. *)
Theorem C29_overfull_page_refused junk ts :
  Forall valid_pair ts -> (length junk < pairs_size ts)%nat -> bundle_serialise junk ts = None.
Proof. apply bundle_overflow. Qed.
(** Every API key is one of the keys above; keys up to 32 bytes are kept as they
    are, longer ones by their hash, and two API keys share an entry key only if
    their hashes collide. *)
Theorem C29_api_keys blake : (forall raw, length (blake raw) = 32%nat /\ Forall is_byte (blake raw)) ->
  forall raw, Forall is_byte raw ->
    valid_key (key_from_raw blake raw) /\
    key_hash blake (key_from_raw blake raw) = blake raw /\
    (raw <> [] -> key_from_raw blake raw <> KLit []) /\
    (forall raw', key_from_raw blake raw = key_from_raw blake raw' -> raw = raw' \/ blake raw = blake raw').
Proof.
  intros Hb raw Hr. unfold key_from_raw. destruct (N.leb_spec (N.of_nat (length raw)) 32).
  - split; [cbn; split; [lia|exact Hr]|]. split; [reflexivity|]. split; [congruence|].
    intros raw' E. destruct (_ <=? _); [left; congruence|discriminate].
  - split; [cbn; apply Hb|]. split; [reflexivity|]. split; [discriminate|].
    intros raw' E. destruct (_ <=? _); [discriminate|right; congruence].
Qed.

(** The page an entry is kept in is one of the index's pages, and depends only on
    the API key: an entry read back from a page (which holds only the hash of a
    long key) is looked for in the same page. *)
Theorem C29_page_of_key blake count : (forall raw, length (blake raw) = 32%nat /\ Forall is_byte (blake raw)) ->
  forall raw, 0 < count ->
    exists i, i < count /\ bundle_index (blake raw) count = Some i /\
      bundle_index (key_hash blake (key_from_raw blake raw)) count = Some i.
Proof.
  intros Hb raw H0. destruct (Hb raw) as [Hl _].
  assert (key_hash blake (key_from_raw blake raw) = blake raw) as ->.
  { unfold key_from_raw. destruct (_ <=? _); reflexivity. }
  unfold bundle_index, buf_read. rewrite Hl. destruct (N.eqb_spec count 0) as [->|Hne]; [lia|].
  eexists. split; [|split; reflexivity]. now apply N.mod_lt.
Qed.

(** C30.  Full statement: for every list of entries with distinct keys that fits
    the page, every entry is found again.  It fails for the empty key: its length
    byte is the end-of-page marker, so every entry stored after it is lost. *)
Theorem C30_empty_key_hides_others_refuted :
  exists junk ts page k d, Forall valid_pair ts /\ NoDup (fst <$> ts) /\ (pairs_size ts <= length junk)%nat /\
    bundle_serialise junk ts = Some page /\ (k, d) ∈ ts /\ k <> KLit [] /\ bundle_read page = Some [].
Proof.
  exists (replicate 512 0), [(KLit [], DInline [1]); (KLit [97], DInline [2; 3])].
  destruct (bundle_serialise (replicate 512 0) [(KLit [], DInline [1]); (KLit [97], DInline [2; 3])]) as [page|] eqn:E; [|vm_compute in E; discriminate E].
  exists page, (KLit [97]), (DInline [2; 3]).
  split; [repeat constructor; cbn; lia|]. split; [apply (bool_decide_unpack _); vm_compute; exact I|]. split; [vm_compute; lia|]. split; [reflexivity|].
  split; [right; left|]. split; [discriminate|]. vm_compute in E. apply (inj Some) in E. subst page. vm_compute. reflexivity.
Qed.
(** Wherever the empty key comes in the list, exactly the entries before it are
    found again, so the empty key itself is never found in a page. *)
Theorem C30_entries_before_empty_key_partial junk ts1 d ts2 :
  Forall valid_pair (ts1 ++ (KLit [], d) :: ts2) -> Forall (fun e => fst e <> KLit []) ts1 ->
  (pairs_size (ts1 ++ (KLit [], d) :: ts2) <= length junk)%nat ->
  exists page, bundle_serialise junk (ts1 ++ (KLit [], d) :: ts2) = Some page /\ bundle_read page = Some ts1.
Proof.
  intros Hv Hn Hs. unfold bundle_serialise. rewrite entries_enc by exact Hv. cbn [mbind option_bind].
  pose proof (pairs_size_enc _ Hv) as Ls. rewrite Ls.
  destruct (N.ltb_spec (N.of_nat (length junk)) (N.of_nat (pairs_size (ts1 ++ (KLit [], d) :: ts2)))); [lia|].
  assert (forall tail, bundle_read (concat (eenc <$> (ts1 ++ (KLit [], d) :: ts2)) ++ tail) = Some ts1) as Hrd.
  { intros tail. unfold bundle_read. rewrite fmap_app, fmap_cons, concat_app. cbn [concat]. rewrite <- app_assoc. apply bundle_deser_enc.
    - apply Forall_app in Hv. apply Hv.
    - eapply Forall_impl; [exact Hn|]. intros [k e] H0. cbn in *. destruct k as [h|[|x l]]; [exact I|congruence|exact I].
    - right. reflexivity.
    - rewrite app_length, pairs_size_enc by (apply Forall_app in Hv; apply Hv). pose proof (len_le_size ts1). lia. }
  destruct (_ <? _).
  - eexists. split; [reflexivity|]. apply Hrd.
  - eexists. split; [reflexivity|]. specialize (Hrd []). rewrite app_nil_r in Hrd. exact Hrd.
Qed.

(** The hypotheses are met: a page filled to the last byte with a literal key, a
    hashed key, short and long inline values and an address. *)
Definition ex_kv_entries : list (okey * odata) :=
  [(KLit [97; 98], DInline []); (KHash (replicate 32 7), DHeap (2 ^ 24) (512 * 12345)); (KLit [0], DInline (replicate 127 255))].
Theorem C29_example : Forall valid_pair ex_kv_entries /\ Forall (fun e => fst e <> KLit []) ex_kv_entries /\
  pairs_size ex_kv_entries = 179%nat /\
  (bundle_serialise (replicate 179 9) ex_kv_entries ≫= bundle_read) = Some ex_kv_entries /\
  bundle_serialise (replicate 178 9) ex_kv_entries = None.
Proof.
  split; [repeat constructor; cbn; try lia; try reflexivity|]. split; [repeat constructor; discriminate|].
  repeat split; vm_compute; reflexivity.
Qed.

Print Assumptions C29_index_page_round_trip.
Print Assumptions C29_overfull_page_refused.
Print Assumptions C29_api_keys.
Print Assumptions C29_page_of_key.
Print Assumptions C30_empty_key_hides_others_refuted.
Print Assumptions C30_entries_before_empty_key_partial.
