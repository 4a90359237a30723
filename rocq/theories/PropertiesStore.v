(** C64: the stores the benchmark compares blobd with keep the contract of the [Store]
    trait, and where they do not. *)
From Coq Require Import ZifyBool ZifyNat ZifyN.
From stdpp Require Import base numbers option gmap functions sorting list.
From Verif Require Import Util Bytes TokenModel TokenProofs StoreModel StoreSpec StoreProofs StoreS3.
Open Scope N_scope.
Ltac Zify.zify_post_hook ::= idtac.

(** ** What holds *)
(** RocksDB ([limit = None]) and kv ([limit = Some OBJECT_SIZE_MAX]). *)
Theorem C64_rocksdb_and_kv_keep_the_contract_partial : forall limit,
  keeps_contract (map_store limit) ∅ whole_chunk (map_ok limit).
Proof. intros limit. apply map_contract. Qed.

Theorem C64_files_keep_the_contract_partial : forall c, reads_some c ->
  keeps_contract (fs_store c) fs_empty whole_chunk (fs_ok c).
Proof. intros c H. now apply fs_contract. Qed.

Theorem C64_s3_keeps_the_contract_partial : forall c, 0 < sc_part c -> sc_min c <= sc_part c ->
  keeps_contract (s3_store c) s3_empty (sc_part c) (s3_ok c).
Proof. intros c H1 H2. now apply s3_contract. Qed.

(** Two keys never share a file, and no file is a directory of another. *)
Theorem C64_each_key_has_its_own_file : forall c k k', Forall is_byte k -> Forall is_byte k' -> k <> k' -> k <> [] ->
  fs_path c k <> fs_path c k' /\ ~ (exists n, take n (removelast (fs_path c k')) = fs_path c k).
Proof.
  intros c k k' Hb Hb' Hne Hk. split.
  - intros E. apply Hne. now apply (fs_path_inj c).
  - intros [n E]. apply (path_no_dir c k Hk). exists k', n. rewrite <- E, path_parent. reflexivity.
Qed.

(** An upload to S3 that is not committed cannot be seen. *)
Theorem C64_s3_uploads_are_not_seen : forall c, 0 < sc_part c -> sc_min c <= sc_part c ->
  forall h s F key tok size parts, runs (s3_store c) s3_empty h s -> follows (sc_part c) (s3_wide c) h F ->
    F key = KUpload tok size parts ->
    (forall out, s3_store c s (SoInspect key) out -> out = None) /\ (forall start fin out, s3_store c s (SoRead key start fin) out -> out = None).
Proof.
  intros c H1 H2 h s F key tok size parts Hr Hf HF. pose proof (proj2 (s3_answers c H1 H2) h s F Hr Hf key) as Hk. rewrite HF in Hk.
  destruct Hk as (_ & _ & _ & Hno & _). split; [intros out Ho|intros start fin out Ho]; inversion Ho; subst; rewrite Hno; reflexivity.
Qed.

(** ** What does not *)
(** In a map store what was written can be read before the commit. *)
Theorem C64_map_store_publishes_at_once : forall limit h m F key tok size parts data,
  runs (map_store limit) ∅ h m -> follows whole_chunk (map_ok limit) h F -> F key = KUpload tok size parts -> parts !! 0 = Some data ->
  map_store limit m (SoRead key 0 None) (Some (AnData data, m)).
Proof.
  intros limit h m F key tok size parts data Hr Hf HF Hd. pose proof (proj2 (map_contract limit) h m F Hr Hf key) as Hk. rewrite HF in Hk. destruct Hk as (_ & _ & Hm).
  rewrite Hd in Hm. unfold map_store. cbn [map_call]. rewrite Hm. cbn [mbind option_bind default from_option id].
  destruct (N.leb_spec 0 (blen data)); [|lia]. rewrite N.leb_refl. cbn [andb]. rewrite N.sub_0_r. unfold bytes_from, blen. rewrite Nat2N.id. change (N.to_nat 0) with 0%nat. rewrite drop_0, firstn_all. reflexivity.
Qed.
(** So it is with files. *)
Theorem C64_files_publish_at_once : forall c, reads_some c -> forall h s F key tok size parts data,
  runs (fs_store c) fs_empty h s -> follows whole_chunk (fs_ok c) h F -> F key = KUpload tok size parts -> parts !! 0 = Some data ->
  forall out, fs_store c s (SoRead key 0 None) out -> out = Some (AnData data, s).
Proof.
  intros c Hs h s F key tok size parts data Hr Hf HF Hd out Ho. pose proof (fi_keys _ _ _ (proj2 (fs_contract c Hs) h s F Hr Hf) key) as Hk. rewrite HF in Hk.
  destruct Hk as (_ & _ & Hm & _ & _). rewrite Hd in Hm. cbn [default from_option id] in Hm.
  inversion Ho as [| | | |k1 s1 f1 Hno|k1 s1 e1 f1 Hf1 Hbk|k1 s1 e1 f1 r Hf1 Hle Hrd|]; subst; [congruence|cbn in Hbk; lia|]. assert (f1 = data) as -> by congruence. cbn [default from_option id] in *.
  rewrite (reading_right _ _ _ _ _ _ Hs Hrd); [|lia|lia|left; lia]. cbn [fmap option_fmap option_map]. rewrite N.sub_0_r. unfold bytes_from, blen. rewrite Nat2N.id. change (N.to_nat 0) with 0%nat. rewrite drop_0, firstn_all. reflexivity.
Qed.
(** Beginning an upload over a stored object destroys the object. *)
Theorem C64_files_lost_when_replaced : forall c, reads_some c -> forall h s F key d size tok s',
  runs (fs_store c) fs_empty h s -> follows whole_chunk (fs_ok c) h F -> F key = KStored d ->
  fs_store c s (SoCreate key size) (Some (AnToken tok, s')) -> forall out, fs_store c s' (SoInspect key) out -> out = Some (AnSize 0, s').
Proof.
  intros c Hs h s F key d size tok s' _ _ _ Hc out Ho. inversion Hc as [k1 z1 p Ek Ex| | | | | | |]; subst. destruct (existsb _ _) in Ex; [discriminate|]. cbn zeta in Ex.
  destruct (_ || _) in Ex; [discriminate|]. injection Ex as <- <-. inversion Ho; subst. cbn [fs_files]. rewrite lookup_insert. reflexivity.
Qed.

(** An S3 range that ends before the object does has a byte too many. *)
Theorem C64_s3_ranges_one_byte_long : forall c, 0 < sc_part c -> sc_min c <= sc_part c ->
  forall h s F key d start e, runs (s3_store c) s3_empty h s -> follows (sc_part c) (s3_wide c) h F -> F key = KStored d -> start <= e < blen d ->
    forall out, s3_store c s (SoRead key start (Some e)) out ->
      out = Some (AnData (bytes_from d start (e - start + 1)), s) /\ length (bytes_from d start (e - start + 1)) = S (length (bytes_from d start (e - start))).
Proof.
  intros c H1 H2 h s F key d start e Hr Hf HF He out Ho. pose proof (proj2 (s3_answers c H1 H2) h s F Hr Hf key) as Hk. rewrite HF in Hk. destruct Hk as (_ & Hd & _).
  split.
  - inversion Ho; subst. rewrite Hd. cbn [mbind option_bind]. unfold s3_get. cbn [default from_option id]. destruct (N.ltb_spec e start); [lia|]. destruct (N.leb_spec (blen d) start); [lia|].
    cbn [mbind option_bind]. replace (N.min e (blen d - 1)) with e by lia. reflexivity.
  - unfold bytes_from, blen in *. rewrite !take_length, !drop_length. lia.
Qed.
(** And none at all can be read of an empty object, nor from the end of another. *)
Theorem C64_s3_nothing_at_the_end : forall c, 0 < sc_part c -> sc_min c <= sc_part c ->
  forall h s F key d fin, runs (s3_store c) s3_empty h s -> follows (sc_part c) (s3_wide c) h F -> F key = KStored d -> blen d <= default (2 ^ 64 - 1) fin ->
    forall out, s3_store c s (SoRead key (blen d) fin) out -> out = None.
Proof.
  intros c H1 H2 h s F key d fin Hr Hf HF He out Ho. pose proof (proj2 (s3_answers c H1 H2) h s F Hr Hf key) as Hk. rewrite HF in Hk. destruct Hk as (_ & Hd & _).
  inversion Ho; subst. rewrite Hd. cbn [mbind option_bind]. unfold s3_get. destruct (N.ltb_spec (default (2 ^ 64 - 1) fin) (blen d)); [lia|]. rewrite N.leb_refl. reflexivity.
Qed.
(** The upload of an empty object to S3 cannot be committed. *)
Theorem C64_s3_no_empty_objects : forall c s key tok s' out, s3_store c s (SoCreate key 0) (Some (AnToken tok, s')) -> s3_store c s' (SoCommit key tok) out -> out = None.
Proof.
  intros c s key tok s' out Hc Ho. inversion Hc as [k1 z1 id F1 F2 Ek Ex| | | | |]; subst. inversion Ho; subst. cbn [s3_inflight]. rewrite F2. reflexivity.
Qed.
(** On the map stores it can, and then there is no such object. *)
Theorem C64_map_store_loses_empty_objects : forall limit m key tok m1 m2, m !! key = None ->
  map_store limit m (SoCreate key 0) (Some (AnToken tok, m1)) -> map_store limit m1 (SoCommit key tok) (Some (AnUnit, m2)) ->
  forall out, map_store limit m2 (SoInspect key) out -> out = None.
Proof.
  intros limit m key tok m1 m2 Hm Hc Hd out Ho. unfold map_store in *. cbn [map_call] in *. injection Hc as -> ->. injection Hd as <-. rewrite Hm in Ho. exact Ho.
Qed.

(** A range of a file that is read in more than one go, ends before the file and not
    with a whole buffer, is never answered. *)
Lemma reading_over c f len cap pos rem r : reads_whole c cap -> 0 < cap < len -> fs_reading c f len pos rem r -> rem <= len -> rem mod cap <> 0 -> pos + rem < blen f -> r = None.
Proof.
  intros Hw Hcap. induction 1 as [pos|pos rem Hr Hp|pos rem n Hr Hp Hm Hn|pos rem n r Hr Hp Hm Hn Hrd IH]; intros Hle Hmod Hin.
  - rewrite N.mod_0_l in Hmod by lia. congruence.
  - reflexivity.
  - reflexivity.
  - apply Hw in Hm. destruct (N.lt_ge_cases rem cap) as [Hlt|Hge]; [lia|]. assert (n = cap) as -> by lia. rewrite IH; [reflexivity|lia| |lia].
    intros E. apply Hmod. replace rem with (rem - cap + 1 * cap) by lia. rewrite N.mod_add by lia. exact E.
Qed.
Theorem C64_long_ranges_of_files_fail : forall c cap, reads_some c -> reads_whole c cap -> 0 < cap ->
  forall h s F key d start e, runs (fs_store c) fs_empty h s -> follows whole_chunk (fs_ok c) h F -> F key = KStored d ->
    start <= e < blen d -> cap < e - start -> (e - start) mod cap <> 0 -> forall out, fs_store c s (SoRead key start (Some e)) out -> out = None.
Proof.
  intros c cap Hs Hw Hcap h s F key d start e Hr Hf HF He Hlong Hmod out Ho. pose proof (fi_keys _ _ _ (proj2 (fs_contract c Hs) h s F Hr Hf) key) as Hk. rewrite HF in Hk. destruct Hk as (_ & Hm).
  inversion Ho as [| | | |k1 s1 f1 Hno|k1 s1 e1 f1 Hf1 Hbk|k1 s1 e1 f1 r Hf1 Hle Hrd|]; subst; [reflexivity|reflexivity|]. assert (f1 = d) as -> by congruence. cbn [default from_option id] in *.
  rewrite (reading_over _ _ _ cap _ _ _ Hw (conj Hcap Hlong) Hrd); [reflexivity|lia|exact Hmod|lia].
Qed.
(** A range past the end of a file is not refused: the reader spins. *)
Lemma reading_past c f len pos rem r : reads_some c -> fs_reading c f len pos rem r -> rem <= len -> pos <= blen f -> blen f < pos + rem -> r = None.
Proof.
  intros Hs. induction 1 as [pos|pos rem Hr Hp|pos rem n Hr Hp Hm Hn|pos rem n r Hr Hp Hm Hn Hrd IH]; intros Hrl Hle Hin; [lia|reflexivity|reflexivity|].
  destruct (rs_le _ Hs _ _ Hm) as [_ Hn2]; [lia|]. rewrite IH; [reflexivity| | |]; lia.
Qed.
Theorem C64_files_read_past_the_end : forall c, reads_some c ->
  forall h s F key d start e, runs (fs_store c) fs_empty h s -> follows whole_chunk (fs_ok c) h F -> F key = KStored d -> start <= blen d < e ->
    forall out, fs_store c s (SoRead key start (Some e)) out -> out = None.
Proof.
  intros c Hs h s F key d start e Hr Hf HF He out Ho. pose proof (fi_keys _ _ _ (proj2 (fs_contract c Hs) h s F Hr Hf) key) as Hk. rewrite HF in Hk. destruct Hk as (_ & Hm).
  inversion Ho as [| | | |k1 s1 f1 Hno|k1 s1 e1 f1 Hf1 Hbk|k1 s1 e1 f1 r Hf1 Hle Hrd|]; subst; [reflexivity|reflexivity|]. assert (f1 = d) as -> by congruence. cbn [default from_option id] in *.
  rewrite (reading_past _ _ _ _ _ _ Hs Hrd); [reflexivity|lia|lia|lia].
Qed.
(** No file for the empty key, nor for one of more than 191 bytes. *)
Theorem C64_keys_without_a_file : forall c s key size, key = [] \/ (191 < length key)%nat ->
  forall out, fs_store c s (SoCreate key size) out -> out = None.
Proof.
  intros c s key size Hk out Ho. inversion Ho; subst. destruct (existsb _ _); [reflexivity|]. cbn zeta.
  assert (Hx : bool_decide (b64_encode key = []) || (255 <? blen (b64_encode key)) = true).
  { destruct Hk as [->|Hk]; [reflexivity|]. apply orb_true_iff. right. apply N.ltb_lt. unfold blen.
    assert (Hl : forall n l, (length l <= n)%nat -> (4 * length l <= 3 * length (b64_encode l))%nat).
    { clear. induction n as [|n IH]; intros l H; destruct l as [|a [|b [|d t]]]; cbn [b64_encode length] in *; try lia. specialize (IH t ltac:(lia)). lia. }
    specialize (Hl _ key (le_n _)). lia. }
  rewrite <- orb_assoc, Hx, orb_true_r. reflexivity.
Qed.

(** ** Examples *)
Global Instance sans_dec : EqDecision sans. Proof. solve_decision. Defined.
Definition allowed_b (chunk : N) (st : kstate) (op : sop) : bool :=
  match op, st with
  | SoCreate key size, KAbsent => forallb (fun b => b <? 256) key && (size <? 2 ^ 64)
  | SoWrite _ tok off data, KUpload tok' size parts => (tok =? tok') && bool_decide (off ∈ tiles chunk size) && bool_decide (parts !! off = None) && (blen data =? N.min chunk (size - off))
  | SoCommit _ tok, KUpload tok' size parts => (tok =? tok') && forallb (fun off => bool_decide (is_Some (parts !! off))) (tiles chunk size)
  | SoInspect _, KStored _ | SoDelete _, KStored _ => true
  | SoRead _ start fin, KStored data => (start <=? default (blen data) fin) && (default (blen data) fin <=? blen data)
  | _, _ => false
  end.
Lemma allowed_b_ok chunk st op : allowed_b chunk st op = true -> allowed chunk st op.
Proof.
  destruct op, st; cbn [allowed_b allowed]; try discriminate; try (intros _; exact I); rewrite ?andb_true_iff.
  - intros [H1 H2]. split; [|now apply N.ltb_lt]. apply Forall_forall. intros b Hb. rewrite forallb_forall in H1. apply elem_of_list_In in Hb. specialize (H1 b Hb). now apply N.ltb_lt in H1.
  - intros (((H1 & H2) & H3) & H4). apply N.eqb_eq in H1, H4. apply bool_decide_eq_true in H2, H3. auto.
  - intros (H1 & H2). apply N.eqb_eq in H1. split; [exact H1|]. intros o Ho. rewrite forallb_forall in H2. apply elem_of_list_In in Ho. specialize (H2 o Ho). now apply bool_decide_eq_true in H2.
  - intros (H1 & H2). apply N.leb_le in H1, H2. auto.
Qed.
Fixpoint ends (chunk : N) (okb : kstate -> sop -> bool) (F : list N -> kstate) (h : list (sop * sans)) : option (list N -> kstate) :=
  match h with
  | [] => Some F
  | (op, ans) :: h' => if allowed_b chunk (F (op_key op)) op && okb (F (op_key op)) op then ends chunk okb (<[op_key op := next chunk (F (op_key op)) op ans]> F) h' else None
  end.
Lemma ends_follows chunk (ok : kstate -> sop -> Prop) okb : (forall st op, okb st op = true -> ok st op) -> forall h h0 F F', follows chunk ok h0 F -> ends chunk okb F h = Some F' -> follows chunk ok (h0 ++ h) F'.
Proof.
  intros Hok. induction h as [|[op ans] h IH]; intros h0 F F' Hf He; cbn [ends] in He.
  - injection He as <-. now rewrite app_nil_r.
  - destruct (_ && _) eqn:E in He; [|discriminate]. apply andb_true_iff in E as [E1 E2]. rewrite cons_middle, app_assoc. eapply IH; [|exact He]. constructor; [exact Hf|now apply allowed_b_ok|now apply Hok].
Qed.
Fixpoint does {S} (exec : S -> sop -> option (sans * S)) (s : S) (h : list (sop * sans)) : option S :=
  match h with [] => Some s | (op, ans) :: h' => '(a, s') ← exec s op; if bool_decide (a = ans) then does exec s' h' else None end.
Lemma does_runs {S} (A : adapter S) exec s0 : (forall s op x, exec s op = Some x -> A s op (Some x)) -> forall h h0 s s', runs A s0 h0 s -> does exec s h = Some s' -> runs A s0 (h0 ++ h) s'.
Proof.
  intros Hx. induction h as [|[op ans] h IH]; intros h0 s s' Hr Hd; cbn [does] in Hd.
  - injection Hd as <-. now rewrite app_nil_r.
  - destruct (exec s op) as [[a s1]|] eqn:E; [|discriminate]. cbn [mbind option_bind] in Hd. destruct (bool_decide (a = ans)) eqn:Ea; [|discriminate]. apply bool_decide_eq_true in Ea as ->.
    rewrite cons_middle, app_assoc. eapply IH; [|exact Hd]. econstructor; [exact Hr|]. now apply Hx.
Qed.

(** Two keys, one of whose objects is replaced by a smaller one. *)
Definition k1 : list N := [1; 2]. Definition k2 : list N := [255].
Definition ex_whole : list (sop * sans) :=
  [(SoCreate k1 4, AnToken 0); (SoCreate k2 2, AnToken 0); (SoWrite k1 0 0 [10; 11; 12; 13], AnUnit); (SoCommit k1 0, AnUnit);
   (SoRead k1 1 (Some 3), AnData [11; 12]); (SoWrite k2 0 0 [20; 21], AnUnit); (SoInspect k1, AnSize 4); (SoDelete k1, AnUnit);
   (SoCommit k2 0, AnUnit); (SoCreate k1 1, AnToken 0); (SoWrite k1 0 0 [9], AnUnit)].
Definition map_okb (limit : option N) (st : kstate) (op : sop) : bool :=
  match op with SoCreate _ size => (0 <? size) && match limit with Some x => size <=? x | None => true end | _ => true end.
Lemma map_okb_ok limit st op : map_okb limit st op = true -> map_ok limit st op.
Proof. destruct op; cbn; auto. rewrite andb_true_iff. intros [H1 H2]. split; [now apply N.ltb_lt|]. destruct limit; [now apply N.leb_le|exact I]. Qed.
Theorem C64_map_example : exists m F, runs (map_store (Some 1000)) ∅ ex_whole m /\ follows whole_chunk (map_ok (Some 1000)) ex_whole F /\
  F k2 = KStored [20; 21] /\ (exists parts, F k1 = KUpload 0 1 parts /\ parts !! 0 = Some [9]) /\ m !! k2 = Some [20; 21].
Proof.
  destruct (ends whole_chunk (map_okb (Some 1000)) (fun _ => KAbsent) ex_whole) as [F|] eqn:EF; [|exfalso; vm_compute in EF; discriminate].
  destruct (does (map_call (Some 1000)) ∅ ex_whole) as [m|] eqn:Em; [|exfalso; vm_compute in Em; discriminate].
  exists m, F. split; [|split; [|split; [|split]]].
  - eapply (does_runs (map_store (Some 1000)) (map_call (Some 1000)) ∅ (fun s op x E => eq_sym E) _ []); [constructor|exact Em].
  - eapply (ends_follows _ _ _ (map_okb_ok (Some 1000)) _ []); [constructor|exact EF].
  - apply (f_equal (fmap (fun F => F k2))) in EF. vm_compute in EF. symmetry. injection EF as E. exact E.
  - apply (f_equal (fmap (fun F => F k1))) in EF. cbn [fmap option_fmap option_map] in EF. eexists. split; [vm_compute in EF; symmetry; injection EF as E; exact E|reflexivity].
  - apply (f_equal (fmap (fun m => m !! k2))) in Em. vm_compute in Em. symmetry. injection Em as E. exact E.
Qed.

(** Files two directories down; the hash is a stand-in. *)
Definition ex_fs : fscfg := {| fc_prefix := [[47; 109]]; fc_tiering := 2; fc_hash := fun k => k ++ [7; 7; 7]; fc_may := fun m n => n = N.min m 2 |}.
Lemma ex_fs_reads : reads_some ex_fs /\ reads_whole ex_fs 2.
Proof. split; [constructor|]. - intros m _. eexists. reflexivity. - intros m n -> H. lia. - intros m n H. exact H. Qed.
Fixpoint reading_fn (fuel : nat) (cap : N) (f : list N) (len pos rem : N) : option (list N) :=
  match fuel with
  | O => None
  | S fuel' => if rem =? 0 then Some [] else if blen f <=? pos then None else
      let n := N.min (N.min len (blen f - pos)) cap in if rem <? n then None else (fun l => bytes_from f pos n ++ l) <$> reading_fn fuel' cap f len (pos + n) (rem - n)
  end.
Lemma reading_fn_ok fuel : forall cap c f len pos rem l, (forall m n, n = N.min m cap -> fc_may c m n) -> reading_fn fuel cap f len pos rem = Some l -> fs_reading c f len pos rem (Some l).
Proof.
  induction fuel as [|fuel IH]; intros cap c f len pos rem l Hc H; [discriminate|]. cbn [reading_fn] in H. destruct (N.eqb_spec rem 0) as [->|H0]; [injection H as <-; constructor|].
  destruct (N.leb_spec (blen f) pos) as [|Hp]; [discriminate|]. cbn zeta in H. destruct (N.ltb_spec rem (N.min (N.min len (blen f - pos)) cap)) as [|Hn]; [discriminate|].
  destruct (reading_fn fuel cap f len _ _) as [l'|] eqn:E; [|discriminate]. cbn in H. injection H as <-.
  change (fs_reading c f len pos rem ((fun l => bytes_from f pos (N.min (N.min len (blen f - pos)) cap) ++ l) <$> Some l')). eapply fr_more; [lia|exact Hp|apply Hc; reflexivity|exact Hn|]. eapply IH; [exact Hc|exact E].
Qed.
Definition fs_exec (s : fsst) (op : sop) : option (sans * fsst) :=
  let c := ex_fs in
  match op with
  | SoCreate key size =>
      let p := fs_path c key in
      if existsb (fun d => bool_decide (is_Some (fs_files s !! d))) (upto (removelast p)) then None
      else let dirs := fs_dirs s ∪ list_to_set (upto (removelast p)) in
           if bool_decide (p ∈ dirs) || bool_decide (b64_encode key = []) || (255 <? blen (b64_encode key)) then None
           else Some (AnToken 0, {| fs_files := <[p := []]> (fs_files s); fs_dirs := dirs |})
  | SoWrite key tok off data => f ← fs_files s !! fs_path c key; Some (AnUnit, {| fs_files := <[fs_path c key := file_write f off data]> (fs_files s); fs_dirs := fs_dirs s |})
  | SoCommit key tok => Some (AnUnit, s)
  | SoInspect key => f ← fs_files s !! fs_path c key; Some (AnSize (blen f), s)
  | SoRead key start fin => f ← fs_files s !! fs_path c key;
      if start <=? default (blen f) fin then l ← reading_fn 100 2 f (default (blen f) fin - start) start (default (blen f) fin - start); Some (AnData l, s) else None
  | SoDelete key => if bool_decide (is_Some (fs_files s !! fs_path c key)) then Some (AnUnit, {| fs_files := base.delete (fs_path c key) (fs_files s); fs_dirs := fs_dirs s |}) else None
  end.
Lemma fs_exec_ok s op x : fs_exec s op = Some x -> fs_store ex_fs s op (Some x).
Proof.
  destruct op as [key size|key tok off data|key tok|key|key start fin|key]; cbn [fs_exec]; cbn zeta; intros E.
  - rewrite <- E. apply fc_create.
  - rewrite <- E. apply fc_write.
  - rewrite <- E. apply fc_commit.
  - rewrite <- E. apply fc_inspect.
  - destruct (fs_files s !! fs_path ex_fs key) as [f|] eqn:Ef; [|discriminate]. cbn [mbind option_bind] in E. destruct (N.leb_spec start (default (blen f) fin)) as [Hle|]; [|discriminate].
    destruct (reading_fn _ _ _ _ _ _) as [l|] eqn:El; [|discriminate]. cbn [mbind option_bind] in E. rewrite <- E.
    change (fs_store ex_fs s (SoRead key start fin) ((fun l => (AnData l, s)) <$> Some l)). eapply fc_read; [exact Ef|exact Hle|]. eapply reading_fn_ok; [|exact El]. intros m n H. exact H.
  - rewrite <- E. apply fc_delete.
Qed.
Definition fs_okb (st : kstate) (op : sop) : bool :=
  match op, st with
  | SoCreate key _, _ => negb (bool_decide (key = [])) && (length key <=? 191)%nat
  | SoRead _ start fin, KStored d => (default (blen d) fin =? blen d) || (default (blen d) fin - start <=? 2)
  | _, _ => true
  end.
Lemma fs_okb_ok st op : fs_okb st op = true -> fs_ok ex_fs st op.
Proof.
  destruct op, st; cbn [fs_okb fs_ok]; auto; rewrite ?andb_true_iff, ?orb_true_iff.
  1-3: intros [H1 H2]; apply negb_true_iff, bool_decide_eq_false in H1; apply Nat.leb_le in H2; auto.
  intros [H|H]; [left; now apply N.eqb_eq|right]. exists 2. split; [apply ex_fs_reads|now apply N.leb_le].
Qed.
Theorem C64_files_example : exists s F, runs (fs_store ex_fs) fs_empty ex_whole s /\ follows whole_chunk (fs_ok ex_fs) ex_whole F /\
  F k2 = KStored [20; 21] /\ fs_files s !! fs_path ex_fs k2 = Some [20; 21] /\ length (fs_path ex_fs k2) = 4%nat /\ reads_some ex_fs.
Proof.
  destruct (ends whole_chunk fs_okb (fun _ => KAbsent) ex_whole) as [F|] eqn:EF; [|exfalso; vm_compute in EF; discriminate].
  destruct (does fs_exec fs_empty ex_whole) as [s|] eqn:Em; [|exfalso; vm_compute in Em; discriminate].
  exists s, F. split; [|split; [|split; [|split; [|split]]]].
  - eapply (does_runs _ fs_exec fs_empty fs_exec_ok _ []); [constructor|exact Em].
  - eapply (ends_follows _ _ _ fs_okb_ok _ []); [constructor|exact EF].
  - apply (f_equal (fmap (fun F => F k2))) in EF. vm_compute in EF. symmetry. injection EF as E. exact E.
  - apply (f_equal (fmap (fun s => fs_files s !! fs_path ex_fs k2))) in Em. vm_compute in Em. symmetry. injection Em as E. exact E.
  - reflexivity.
  - apply ex_fs_reads.
Qed.
(** A range of three bytes of that store's files, of a file of five, is never answered. *)
Theorem C64_long_range_example : forall s out, fs_files s !! fs_path ex_fs k1 = Some [1; 2; 3; 4; 5] -> fs_store ex_fs s (SoRead k1 0 (Some 3)) out -> out = None.
Proof.
  intros s out Hm Ho. inversion Ho as [| | | |q1 s1 f1 Hno|q1 s1 e1 f1 Hf1 Hbk|q1 s1 e1 f1 r Hf1 Hle Hrd|]; subst; [reflexivity|reflexivity|]. assert (f1 = [1; 2; 3; 4; 5]) as -> by congruence.
  cbn [default from_option id] in Hrd. rewrite (reading_over _ _ (3 - 0) 2 _ _ _ (proj2 ex_fs_reads) ltac:(split; reflexivity) Hrd); [reflexivity|lia|vm_compute; discriminate|vm_compute; reflexivity].
Qed.

(** S3 with parts of three bytes, written last first. *)
Definition ex_s3 : s3cfg := {| sc_part := 3; sc_min := 2; sc_parts := 10; sc_etag := fun d => N.of_nat (length d) |}.
Definition ex_parts : list (sop * sans) :=
  [(SoCreate k1 7, AnToken 0); (SoWrite k1 0 6 [7], AnUnit); (SoWrite k1 0 0 [1; 2; 3], AnUnit); (SoCreate k2 2, AnToken 1);
   (SoWrite k1 0 3 [4; 5; 6], AnUnit); (SoWrite k2 1 0 [20; 21], AnUnit); (SoCommit k1 0, AnUnit); (SoInspect k1, AnSize 7); (SoRead k1 2 None, AnData [3; 4; 5; 6; 7]);
   (SoRead k1 6 (Some 7), AnData [7])].
Definition s3_fresh (s : s3st) : N := if bool_decide (s3_uploads s !! 0 = None) then 0 else 1.
Definition s3_exec (s : s3st) (op : sop) : option (sans * s3st) :=
  let c := ex_s3 in
  match op with
  | SoCreate key size => let id := s3_fresh s in if bool_decide (s3_uploads s !! id = None) && bool_decide (s3_inflight s !! id = None) then
      Some (AnToken id, {| s3_objects := s3_objects s; s3_uploads := <[id := (b64_encode key, ∅)]> (s3_uploads s); s3_inflight := s3_inflight s |}) else None
  | SoWrite key id off data =>
      let n := off / sc_part c + 1 in
      if negb (off mod sc_part c =? 0) then None
       else if sc_parts c <? n then None
       else '(k, parts) ← s3_uploads s !! id;
            if negb (bool_decide (k = b64_encode key)) then None
            else let '(k', etags) := default (b64_encode key, ∅) (s3_inflight s !! id) in
                 match etags !! n with
                 | Some _ => None
                 | None => Some (AnUnit, {| s3_objects := s3_objects s; s3_uploads := <[id := (k, <[n := data]> parts)]> (s3_uploads s);
                                            s3_inflight := <[id := (k', <[n := sc_etag c data]> etags)]> (s3_inflight s) |})
                 end
  | SoCommit key id =>
      '(k, etags) ← s3_inflight s !! id;
       '(k', parts) ← s3_uploads s !! id;
       if negb (bool_decide (k = k')) then None
       else d ← s3_complete c parts (merge_sort by_number (map_to_list etags));
            Some (AnUnit, {| s3_objects := <[k := d]> (s3_objects s); s3_uploads := base.delete id (s3_uploads s); s3_inflight := base.delete id (s3_inflight s) |})
  | SoInspect key => d ← s3_objects s !! b64_encode key; Some (AnSize (blen d), s)
  | SoRead key start fin => d ← s3_objects s !! b64_encode key; l ← s3_get d start (default (2 ^ 64 - 1) fin); Some (AnData l, s)
  | SoDelete key => Some (AnUnit, {| s3_objects := base.delete (b64_encode key) (s3_objects s); s3_uploads := s3_uploads s; s3_inflight := s3_inflight s |})
  end.
Lemma s3_exec_ok s op x : s3_exec s op = Some x -> s3_store ex_s3 s op (Some x).
Proof.
  destruct op as [key size|key tok off data|key tok|key|key start fin|key]; cbn [s3_exec]; cbn zeta; intros E.
  - destruct (_ && _) eqn:Eb in E; [|discriminate]. apply andb_true_iff in Eb as [E1 E2]. apply bool_decide_eq_true in E1, E2. rewrite <- E. now apply sc_create.
  - rewrite <- E. apply sc_write.
  - rewrite <- E. apply sc_commit.
  - rewrite <- E. apply sc_inspect.
  - rewrite <- E. apply sc_read.
  - rewrite <- E. apply sc_delete.
Qed.
Definition s3_okb (st : kstate) (op : sop) : bool :=
  match op, st with
  | SoCreate _ size, _ => (0 <? size) && (size <=? sc_parts ex_s3 * sc_part ex_s3)
  | SoRead _ start fin, KStored d => (default (blen d) fin =? blen d) && (start <? blen d)
  | _, _ => true
  end.
Lemma s3_okb_ok st op : s3_okb st op = true -> s3_ok ex_s3 st op.
Proof.
  destruct op, st; cbn [s3_okb s3_ok]; auto; rewrite ?andb_true_iff.
  1-3: intros [H1 H2]; apply N.ltb_lt in H1; apply N.leb_le in H2; auto.
  intros [H1 H2]. split; [now apply N.eqb_eq|now apply N.ltb_lt].
Qed.
Theorem C64_s3_example : exists s F, runs (s3_store ex_s3) s3_empty ex_parts s /\ follows (sc_part ex_s3) (s3_ok ex_s3) ex_parts F /\
  F k1 = KStored [1; 2; 3; 4; 5; 6; 7] /\ (exists parts, F k2 = KUpload 1 2 parts) /\ s3_objects s !! b64_encode k1 = Some [1; 2; 3; 4; 5; 6; 7] /\ s3_objects s !! b64_encode k2 = None.
Proof.
  destruct (ends (sc_part ex_s3) s3_okb (fun _ => KAbsent) ex_parts) as [F|] eqn:EF; [|exfalso; vm_compute in EF; discriminate].
  destruct (does s3_exec s3_empty ex_parts) as [s|] eqn:Em; [|exfalso; vm_compute in Em; discriminate].
  exists s, F. split; [|split; [|split; [|split; [|split]]]].
  - eapply (does_runs _ s3_exec s3_empty s3_exec_ok _ []); [constructor|exact Em].
  - eapply (ends_follows _ _ _ s3_okb_ok _ []); [constructor|exact EF].
  - apply (f_equal (fmap (fun F => F k1))) in EF. vm_compute in EF. symmetry. injection EF as E. exact E.
  - apply (f_equal (fmap (fun F => F k2))) in EF. cbn [fmap option_fmap option_map] in EF. eexists. vm_compute in EF. symmetry. injection EF as E. exact E.
  - apply (f_equal (fmap (fun s => s3_objects s !! b64_encode k1))) in Em. vm_compute in Em. symmetry. injection Em as E. exact E.
  - apply (f_equal (fmap (fun s => s3_objects s !! b64_encode k2))) in Em. vm_compute in Em. symmetry. injection Em as E. exact E.
Qed.

Print Assumptions C64_rocksdb_and_kv_keep_the_contract_partial.
Print Assumptions C64_files_keep_the_contract_partial.
Print Assumptions C64_s3_keeps_the_contract_partial.
Print Assumptions C64_s3_example.
