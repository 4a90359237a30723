(** C39, C40, C44: access tokens, commit receipts, tokens of the clients. *)
From stdpp Require Import base numbers list list_numbers option.
From Coq Require Import ZifyBool ZifyNat ZifyN.
From Verif Require Import Util Bytes PageIOModel PageIOWrite TokenModel TokenProofs TokenSpec.
Open Scope N_scope.
Ltac Zify.zify_post_hook ::= idtac.

(** A keyed hash yields 32 bytes. *)
Definition is_mac (mac : list N -> list N) : Prop :=
  forall m, length (mac m) = 32%nat /\ Forall is_byte (mac m).

(** * C39 *)
(** A string is accepted for an action exactly if it is a token issued for
    that action with an expiry after the present; every other string, in
    particular every malformed one, is rejected.  With authentication
    disabled everything is accepted. *)
Theorem C39_token_accepted_iff_issued_and_unexpired mac now tok a :
  is_mac mac ->
  (verify_auth mac true now tok a = true <->
   exists expires, expires < 2 ^ 64 /\ now < expires /\ tok = auth_token_new mac a expires)
  /\ verify_auth mac false now tok a = true.
Proof.
  intros H. split; [|reflexivity]. unfold verify_auth. cbn [negb orb].
  apply auth_verify_iff; intros m; apply H.
Qed.

(** A token issued for action [a] until [e] is accepted for action [b] at time
    [now] exactly if the actions are equal (same kind, same key, same size)
    and [now] is before [e].  The only assumption about the keyed hash is that
    the two messages concerned do not collide. *)
Theorem C39_token_grants_exactly_its_action mac a b e now :
  is_mac mac -> valid_action a -> valid_action b -> e < 2 ^ 64 ->
  (mac (auth_msg a e) = mac (auth_msg b e) -> auth_msg a e = auth_msg b e) ->
  (verify_auth mac true now (auth_token_new mac a e) b = true <-> a = b /\ now < e).
Proof.
  intros H Va Vb He Hc.
  rewrite (proj1 (C39_token_accepted_iff_issued_and_unexpired mac now (auth_token_new mac a e) b H)).
  split.
  - intros (e' & He' & Hn & E). unfold auth_token_new in E.
    apply b64_encode_inj in E; [|apply Forall_app_2; [apply be_bytes_byte|apply H]..].
    apply app_inj_1 in E as [E1 E2]; [|rewrite !be_bytes_length; reflexivity].
    apply be_bytes_inj in E1; [|assumption..]. subst e'.
    apply Hc, auth_msg_inj in E2 as [-> _]; try assumption. split; [reflexivity|exact Hn].
  - intros [-> Hn]. exists e. repeat split; assumption.
Qed.

(** * C40 *)
Lemma parse_uint_lt l v t : Forall is_byte l -> parse_uint l = Some (v, t) -> v < 2 ^ 64 /\ Forall is_byte t.
Proof.
  intros Hb H. destruct l as [|b l]; [discriminate|]. apply Forall_cons_1 in Hb as [Hb Hl].
  unfold parse_uint in H.
  assert (S : forall n, (n <= 8)%nat -> (if (length l <? n)%nat then None else Some (be_val (take n l), drop n l)) = Some (v, t) ->
    v < 2 ^ 64 /\ Forall is_byte t).
  { intros n Hn E. destruct (length l <? n)%nat eqn:EL; [discriminate|]. apply Nat.ltb_ge in EL.
    injection E as <- <-. split; [|apply Forall_drop, Hl].
    pose proof (be_val_lt (take n l) ltac:(apply Forall_take, Hl)) as B.
    rewrite take_length, Nat.min_l in B by exact EL.
    eapply N.lt_le_trans; [exact B|]. change (2 ^ 64) with (256 ^ 8). apply N.pow_le_mono_r; [discriminate|]. clear -Hn. lia. }
  destruct (b <? 128) eqn:E1.
  { injection H as <- <-. split; [|exact Hl]. apply N.ltb_lt in E1. eapply N.lt_trans; [exact E1|reflexivity]. }
  destruct (b =? 204); [apply (S 1%nat); [lia|exact H]|].
  destruct (b =? 205); [apply (S 2%nat); [lia|exact H]|].
  destruct (b =? 206); [apply (S 4%nat); [lia|exact H]|].
  destruct (b =? 207); [apply (S 8%nat); [lia|exact H]|discriminate].
Qed.
Lemma parse_pair_valid l it v : Forall is_byte l -> parse_pair l = Some (it, v) -> valid_itoken it /\ v < 2 ^ 64.
Proof.
  intros Hb H. unfold parse_pair in H.
  repeat (case_match; try discriminate).
  match type of H with context [drop 16 ?l] => rename l into t end.
  assert (Ht : Forall is_byte t) by (repeat (apply Forall_cons_1 in Hb as [_ Hb]); exact Hb).
  destruct (parse_uint (drop 16 t)) as [[pp tt]|] eqn:E1; [|discriminate]. cbn [mbind option_bind] in H.
  destruct (parse_uint tt) as [[qq tt2]|] eqn:E2; [|discriminate]. cbn [mbind option_bind fst] in H.
  apply (inj Some) in H. apply (inj2 pair) in H as [<- <-].
  apply parse_uint_lt in E1 as [Hp Ht']; [|apply Forall_drop, Ht].
  apply parse_uint_lt in E2 as [Hq _]; [|exact Ht'].
  split; [split; [|exact Hp]|exact Hq]. cbn [it_object].
  match goal with H : (length t <? 16)%nat = false |- _ => apply Nat.ltb_ge in H; rename H into EL end.
  pose proof (be_val_lt (take 16 t) ltac:(apply Forall_take, Ht)) as B.
  rewrite take_length, Nat.min_l in B by exact EL. exact B.
Qed.

Section Commit.
  Variable mac : list N -> list N.
  Variable auth : bool.
  Variable lpage : N.
  Hypothesis Hmac : is_mac mac.

  Lemma history_prefix tr e : e ∈ tr -> history mac auth lpage tr ->
    exists tr1 tr2, tr = tr1 ++ e :: tr2 /\ history mac auth lpage tr1 /\ succeeds mac auth lpage tr1 e /\ honest mac auth lpage tr1 e.
  Proof using.
    intros He H. revert He. induction H as [|tr e' H IH Hs Ho]; intros He; [apply elem_of_nil in He as []|].
    apply elem_of_app in He as [He|He].
    - destruct (IH He) as (tr1 & tr2 & -> & H1 & H2 & H3). exists tr1, (tr2 ++ [e']).
      rewrite <- app_assoc. repeat split; assumption.
    - apply elem_of_list_singleton in He. subst e'. exists tr, []. repeat split; assumption.
  Qed.

  Lemma created_unique tr it s1 s2 : history mac auth lpage tr -> Created it s1 ∈ tr -> Created it s2 ∈ tr -> s1 = s2.
  Proof using.
    induction 1 as [|tr e H IH Hs Ho]; intros H1 H2; [apply elem_of_nil in H1 as []|].
    apply elem_of_app in H1 as [H1|H1], H2 as [H2|H2].
    - exact (IH H1 H2).
    - apply elem_of_list_singleton in H2. subst e. destruct Hs as [Hs _]. destruct (Hs _ H1).
    - apply elem_of_list_singleton in H1. subst e. destruct Hs as [Hs _]. destruct (Hs _ H2).
    - apply elem_of_list_singleton in H1, H2. congruence.
  Qed.
  Lemma created_valid tr it size : history mac auth lpage tr -> Created it size ∈ tr -> valid_itoken it /\ size < 2 ^ 64.
  Proof using.
    intros H He. destruct (history_prefix _ _ He H) as (tr1 & tr2 & -> & _ & Hs & _). cbn in Hs. unfold valid_itoken. tauto.
  Qed.

  Lemma endpoint_write_parse now key t tok it :
    endpoint_write mac auth now key t tok = WriteProceeds it -> exists v, parse_upload_token mac tok = Some (it, v).
  Proof using.
    unfold endpoint_write. case_match; [discriminate|]. case_match; [|discriminate]. case_match. intros E. simplify_eq. eauto.
  Qed.
  Lemma upload_valid tok it v : parse_upload_token mac tok = Some (it, v) -> valid_itoken it /\ v < 2 ^ 64.
  Proof using Hmac.
    intros H. apply parse_upload_iff in H; [|intros m; apply Hmac..].
    destruct H as (m & Hm & _ & _ & Hp). eapply parse_pair_valid; eassumption.
  Qed.

  (** A disclosed MAC of a pair comes from the creation of that object, or
      from a successful write. *)
  Lemma disclosed_pair tr it i : history mac auth lpage tr -> valid_itoken it -> i < 2 ^ 64 ->
    disclosed mac auth lpage tr (pair_msg it i) ->
    Created it i ∈ tr \/
    exists now key t tok offset len size, Wrote now key t tok offset len ∈ tr
      /\ endpoint_write mac auth now key t tok = WriteProceeds it
      /\ Created it size ∈ tr /\ write_check lpage size offset len = None /\ offset / 2 ^ lpage = i.
  Proof using Hmac.
    intros H Hit Hi (e & He & Hd). destruct e as [a x|it' size'|now key t tok offset len|]; cbn in Hd.
    - destruct (pair_not_auth _ _ _ _ Hd).
    - destruct (created_valid _ _ _ H He) as [V1 V2].
      apply pair_msg_inj in Hd as [<- <-]; try assumption. left. exact He.
    - destruct Hd as (it' & Hw & E). right.
      destruct (history_prefix _ _ He H) as (tr1 & tr2 & -> & H1 & Hs & _).
      cbn in Hs. destruct Hs as (it'' & size & Hw' & Hc & Ho & Hck).
      assert (it'' = it') as -> by congruence.
      destruct (endpoint_write_parse _ _ _ _ _ Hw) as [v Hv]. destruct (upload_valid _ _ _ Hv) as [V1 V2].
      apply pair_msg_inj in E as [<- E]; try assumption.
      2: { eapply N.le_lt_trans; [|exact Ho]. apply N.div_le_upper_bound; [apply pow2_nz|].
           pose proof (pow2_pos lpage) as P. revert P. generalize (2 ^ lpage). intros P HP. clear -HP. nia. }
      exists now, key, t, tok, offset, len, size.
      split; [exact He|]. split; [exact Hw|]. split; [apply elem_of_app; left; exact Hc|]. split; [exact Hck|symmetry; exact E].
    - destruct Hd.
  Qed.

  Lemma receipts_disclosed tr now key t tok rs it size : honest mac auth lpage tr (Committed now key t tok rs) ->
    parse_upload_token mac tok = Some (it, size) ->
    endpoint_commit mac auth (2 ^ lpage) now key t tok rs = CommitProceeds it ->
    forall i, i < div_ceil size (2 ^ lpage) -> disclosed mac auth lpage tr (pair_msg it i).
  Proof using Hmac.
    intros [_ Hr] Hp Hc i Hi. unfold endpoint_commit in Hc. rewrite Hp in Hc.
    destruct (negb _); [discriminate|]. destruct (verify_write_receipts _ _ _ _ _) eqn:Ev; [|discriminate].
    apply (proj1 (verify_receipts_iff mac (fun m => proj1 (Hmac m)) (fun m => proj2 (Hmac m)) _ _ _ _)) with (i := i) in Ev; [|exact Hi].
    apply elem_of_list_lookup_2 in Ev. unfold write_receipt in Ev.
    refine (Hr _ (mac (pair_msg it i)) Ev _ _ eq_refl).
    apply b64_decode_encode, Hmac.
  Qed.

  Lemma part_iff size i : i < div_ceil size (2 ^ lpage) <-> is_part lpage size i.
  Proof using.
    unfold is_part. pose proof (div_ceil_spec size (2 ^ lpage) (pow2_nz lpage)) as [A B].
    revert A B. pose proof (pow2_pos lpage) as P. revert P. generalize (2 ^ lpage), (div_ceil size (2 ^ lpage)). clear.
    intros L c HL A B. split; intros H.
    - assert (i + 1 <= c) by lia. assert ((i + 1) * L <= c * L) by (apply N.mul_le_mono_r; assumption). lia.
    - destruct (N.lt_ge_cases i c) as [|G]; [assumption|]. assert (c * L <= i * L) by (apply N.mul_le_mono_r; assumption). lia.
  Qed.

  Lemma written_in_full tr it size i now key t tok offset len :
    is_part lpage size i -> size + 2 ^ lpage < 2 ^ 64 ->
    Wrote now key t tok offset len ∈ tr -> endpoint_write mac auth now key t tok = WriteProceeds it ->
    write_check lpage size offset len = None -> offset / 2 ^ lpage = i -> part_written mac auth lpage tr it size i.
  Proof using.
    intros Hp Hs He Hw Hck Hd.
    assert (Hm : offset mod 2 ^ lpage = 0).
    { unfold write_check in Hck. rewrite is_multiple_of_pow2_spec in Hck.
      destruct (N.eqb_spec (offset mod 2 ^ lpage) 0); [assumption|discriminate]. }
    assert (Ho : offset = i * 2 ^ lpage).
    { rewrite (N.div_mod offset (2 ^ lpage) (pow2_nz lpage)), Hm, Hd. rewrite N.add_0_r. apply N.mul_comm. }
    unfold is_part in Hp. rewrite <- Ho in Hp.
    apply write_check_ok in Hck as [_ Hl]; [|clear -Hp Hs; lia].
    exists now, key, t, tok. split; [|exact Hw]. rewrite <- Ho.
    replace (N.min (2 ^ lpage) (size - offset)) with len; [exact He|]. clear -Hl Hp. lia.
  Qed.
End Commit.

(** Commit requests that carry the upload token the server returned when it
    created the object need a receipt for every part, and each receipt comes
    from a successful write of exactly that part of that upload. *)
Theorem C40_commit_with_own_token_needs_every_part_partial mac auth lpage tr it size now key t receipts :
  is_mac mac -> size + 2 ^ lpage < 2 ^ 64 ->
  history mac auth lpage tr -> Created it size ∈ tr ->
  succeeds mac auth lpage tr (Committed now key t (upload_token mac it size) receipts) ->
  honest mac auth lpage tr (Committed now key t (upload_token mac it size) receipts) ->
  forall i, is_part lpage size i -> part_written mac auth lpage tr it size i.
Proof.
  intros Hmac Hs H Hc (it' & size' & Hco & _) Ho i Hi.
  destruct (created_valid _ _ _ _ _ _ H Hc) as [Vi Vs].
  pose proof (parse_upload_issued mac (fun m => proj1 (Hmac m)) (fun m => proj2 (Hmac m)) it size Vi Vs) as Hp.
  assert (it' = it) as ->.
  { unfold endpoint_commit in Hco. rewrite Hp in Hco. repeat case_match; congruence. }
  pose proof (receipts_disclosed mac auth lpage Hmac tr _ _ _ _ _ _ _ Ho Hp Hco i (proj2 (part_iff _ _ _) Hi)) as Hd.
  assert (Hlt : i < size).
  { unfold is_part in Hi. eapply N.le_lt_trans; [|exact Hi]. pose proof (pow2_pos lpage) as P. revert P. generalize (2 ^ lpage). clear. intros; nia. }
  destruct (disclosed_pair mac auth lpage Hmac tr it i H Vi) as [Hcr|(now' & key' & t' & tok' & off & len & size'' & He & Hw & Hc' & Hck & Hd')].
  - eapply N.lt_trans; eassumption.
  - exact Hd.
  - exfalso. pose proof (created_unique _ _ _ _ _ _ _ H Hc Hcr) as E. clear -E Hlt. lia.
  - assert (size'' = size) as -> by (eapply created_unique; eassumption).
    eapply written_in_full; eassumption.
Qed.

(** What any accepted commit proves: there is a number [v], the size the
    object was created with or the number of a part that was written, such
    that every part below [v] was written (or is the creation size). *)
Theorem C40_any_commit_partial mac auth lpage tr now key t tok receipts it :
  is_mac mac -> history mac auth lpage tr ->
  succeeds mac auth lpage tr (Committed now key t tok receipts) ->
  honest mac auth lpage tr (Committed now key t tok receipts) ->
  endpoint_commit mac auth (2 ^ lpage) now key t tok receipts = CommitProceeds it ->
  let seen v := Created it v ∈ tr \/
    exists now key t tok offset len, Wrote now key t tok offset len ∈ tr
      /\ endpoint_write mac auth now key t tok = WriteProceeds it /\ offset / 2 ^ lpage = v in
  exists m v, tok = b64_encode (mac m ++ m) /\ parse_pair m = Some (it, v)
    /\ (m = pair_msg it v -> seen v) /\ forall i, is_part lpage v i -> seen i.
Proof.
  intros Hmac H Hs Ho Hc seen.
  destruct (parse_upload_token mac tok) as [[it' v]|] eqn:Hp.
  2: { unfold endpoint_commit in Hc. rewrite Hp in Hc. destruct (negb _); discriminate. }
  assert (it' = it) as ->.
  { unfold endpoint_commit in Hc. rewrite Hp in Hc. repeat case_match; congruence. }
  pose proof Hp as Hp'. apply parse_upload_iff in Hp' as (m & Hm & Hne & -> & Hpp); [|intros x; apply Hmac..].
  destruct (parse_pair_valid _ _ _ Hm Hpp) as [Vi Vv].
  assert (S : forall i, i < 2 ^ 64 -> disclosed mac auth lpage tr (pair_msg it i) -> seen i).
  { intros i Hi Hd. destruct (disclosed_pair mac auth lpage Hmac tr it i H Vi Hi Hd) as [?|(n & k & t' & tk & o & l & sz & ? & ? & _ & _ & ?)].
    - left. assumption.
    - right. exists n, k, t', tk, o, l. repeat split; assumption. }
  exists m, v. split; [reflexivity|]. split; [exact Hpp|]. split.
  - intros E. apply S; [exact Vv|]. destruct Ho as [Ho _].
    rewrite <- E. apply (Ho (mac m ++ m)).
    + apply b64_decode_encode, Forall_app_2; [apply Hmac|exact Hm].
    + rewrite take_app_alt; [reflexivity|]. symmetry. apply Hmac.
  - intros i Hi. apply S.
    + unfold is_part in Hi. eapply N.le_lt_trans; [|eapply N.lt_trans; [exact Hi|exact Vv]].
      pose proof (pow2_pos lpage) as P. revert P. generalize (2 ^ lpage). clear. intros; nia.
    + eapply receipts_disclosed; try eassumption. apply part_iff, Hi.
Qed.

(** The property fails: whatever the keyed hash and the secret, a client
    computes, from the upload token of any upload and the receipt for its
    first part, an upload token that says the size is 0; with it the object is
    committed without any receipt. *)
Theorem C40_recombined_token_refuted mac auth lpage now key t it size :
  is_mac mac -> valid_itoken it -> size < 2 ^ 64 ->
  verify_auth mac auth now t (CommitObject key) = true ->
  exists tok, forge size (upload_token mac it size) (write_receipt mac it 0) = Some tok
    /\ endpoint_commit mac auth (2 ^ lpage) now key t tok [] = CommitProceeds it.
Proof.
  intros Hmac Vi Hs Ha. exists (upload_token mac it 0). split.
  - unfold forge, upload_token, write_receipt.
    rewrite (b64_decode_encode (mac (pair_msg it size) ++ pair_msg it size)) by (apply Forall_app_2; [apply Hmac|apply pair_msg_byte]).
    cbn [mbind option_bind]. rewrite b64_decode_encode by apply Hmac. cbn [mbind option_bind].
    rewrite drop_app_alt by (symmetry; apply Hmac). do 3 f_equal.
    rewrite !pair_msg_eq. rewrite !app_comm_cons, app_assoc.
    rewrite app_length, Nat.add_sub, take_app. cbn [app]. rewrite <- app_assoc. reflexivity.
  - unfold endpoint_commit. rewrite Ha. cbn [negb].
    rewrite parse_upload_issued; [|intros m; apply Hmac..|exact Vi|reflexivity].
    unfold verify_write_receipts, div_ceil. rewrite N.mod_0_l, N.div_0_l by apply pow2_nz. reflexivity.
Qed.

(** The same as a history: no MAC is forged, the upload has two parts, only
    the first is written, and the commit succeeds. *)
(** A keyed hash that never collides on short messages. *)
Definition toy_mac (m : list N) : list N :=
  if forallb (fun b => b <? 256) m && (length m <=? 31)%nat
  then N.of_nat (length m) :: m ++ replicate (31 - length m) 0 else 255 :: replicate 31 0.
Lemma toy_is_mac : is_mac toy_mac.
Proof.
  intros m. unfold toy_mac. destruct (forallb _ m && _) eqn:E.
  - apply andb_true_iff in E as [E1 E2]. apply Nat.leb_le in E2. split.
    + cbn [length]. rewrite app_length, replicate_length. clear -E2. lia.
    + constructor; [unfold is_byte; clear -E2; lia|]. apply Forall_app_2.
      * apply Forall_forall. intros x Hx. rewrite forallb_forall in E1. apply N.ltb_lt, E1, Hx.
      * apply Forall_replicate. reflexivity.
  - split; [reflexivity|]. constructor; [reflexivity|]. apply Forall_replicate. reflexivity.
Qed.
Lemma toy_inj m m' : forallb (fun b => b <? 256) m && (length m <=? 31)%nat = true -> toy_mac m' = toy_mac m -> m' = m.
Proof.
  intros Hm E. unfold toy_mac in E. rewrite Hm in E. apply andb_true_iff in Hm as [_ Hl]. apply Nat.leb_le in Hl.
  destruct (forallb _ m' && _).
  - injection E as E1 E2. apply app_inj_1 in E2 as [E2 _]; [exact E2|]. clear -E1. lia.
  - injection E as E1 _. exfalso. clear -E1 Hl. lia.
Qed.

Definition ex_it : itoken := Itoken 7 1.
Definition ex_size : N := 2 ^ 24 + 5.
Definition ex_tok : list N := upload_token toy_mac ex_it ex_size.
Definition ex_receipt (i : N) : list N := write_receipt toy_mac ex_it i.
Definition ex_key : list N := [107].
Definition ex_auth (a : action) : list N := auth_token_new toy_mac a 100.

Lemma ex_unforged tr it v tok raw : disclosed toy_mac false 24 tr (pair_msg it v) ->
  forallb (fun b => b <? 256) (pair_msg it v) && (length (pair_msg it v) <=? 31)%nat = true ->
  b64_decode tok = Some raw -> take 32 raw = toy_mac (pair_msg it v) ->
  unforged toy_mac false 24 tr (take 32 raw).
Proof. intros Hd Hs _ E m Hm. rewrite E in Hm. apply toy_inj in Hm as ->; [exact Hd|exact Hs]. Qed.

Definition ex_history1 : list hevent := [Created ex_it ex_size].
Definition ex_history2 : list hevent := ex_history1 ++ [Wrote 10 ex_key [] ex_tok 0 (2 ^ 24)].

Lemma ex_write : endpoint_write toy_mac false 10 ex_key [] ex_tok = WriteProceeds ex_it.
Proof. vm_compute. reflexivity. Qed.

Lemma ex_history2_ok : history toy_mac false 24 ex_history2.
Proof.
  apply history_snoc; [apply (history_snoc _ _ _ [] _)|..].
  - constructor.
  - cbn. split; [intros size' H; apply elem_of_nil in H as []|]. repeat split; reflexivity.
  - exact I.
  - exists ex_it, ex_size. split; [apply ex_write|]. split; [apply elem_of_list_here|]. split; [reflexivity|]. vm_compute. reflexivity.
  - intros raw Hraw. eapply (ex_unforged _ ex_it ex_size).
    + exists (Created ex_it ex_size). split; [apply elem_of_list_here|reflexivity].
    + vm_compute. reflexivity.
    + exact Hraw.
    + assert (E : b64_decode ex_tok = Some (toy_mac (pair_msg ex_it ex_size) ++ pair_msg ex_it ex_size)) by (vm_compute; reflexivity).
      rewrite E in Hraw. apply (inj Some) in Hraw. subst raw. vm_compute. reflexivity.
Qed.

Theorem C40_commit_without_a_part_refuted :
  exists mac auth lpage tr it size now key t tok receipts i,
    is_mac mac /\ history mac auth lpage (tr ++ [Committed now key t tok receipts])
    /\ Created it size ∈ tr
    /\ forge size (upload_token mac it size) (write_receipt mac it 0) = Some tok
    /\ endpoint_commit mac auth (2 ^ lpage) now key t tok receipts = CommitProceeds it
    /\ is_part lpage size i /\ ~ part_written mac auth lpage tr it size i.
Proof.
  exists toy_mac, false, 24, ex_history2, ex_it, ex_size, 20, ex_key, [], (upload_token toy_mac ex_it 0), [], 1.
  split; [exact toy_is_mac|].
  assert (Ecm : endpoint_commit toy_mac false (2 ^ 24) 20 ex_key [] (upload_token toy_mac ex_it 0) [] = CommitProceeds ex_it)
    by (vm_compute; reflexivity).
  split; [|split; [|split; [|split; [|split]]]].
  - apply history_snoc; [exact ex_history2_ok|..].
    + exists ex_it, ex_size. split; [exact Ecm|apply elem_of_list_here].
    + split.
      * intros raw Hraw. eapply (ex_unforged _ ex_it 0).
        -- exists (Wrote 10 ex_key [] ex_tok 0 (2 ^ 24)). split; [apply elem_of_list_further, elem_of_list_here|].
           exists ex_it. split; [apply ex_write|vm_compute; reflexivity].
        -- vm_compute. reflexivity.
        -- exact Hraw.
        -- assert (E : b64_decode (upload_token toy_mac ex_it 0) = Some (toy_mac (pair_msg ex_it 0) ++ pair_msg ex_it 0)) by (vm_compute; reflexivity).
           rewrite E in Hraw. apply (inj Some) in Hraw. subst raw. vm_compute. reflexivity.
      * intros r x Hr Hx m Hm. cbn in Hr. apply elem_of_list_singleton in Hr. subst r. cbn in Hx. apply (inj Some) in Hx. subst x.
        exfalso. apply (f_equal length) in Hm. rewrite (proj1 (toy_is_mac m)) in Hm. discriminate Hm.
  - apply elem_of_list_here.
  - vm_compute. reflexivity.
  - exact Ecm.
  - vm_compute. reflexivity.
  - intros (now & key & t & tok & He & _).
    assert (B : forall n, Wrote now key t tok (1 * 2 ^ 24) n ∈ ex_history2 -> False).
    { intros n Hn. unfold ex_history2, ex_history1 in Hn. cbn [app] in Hn.
      apply elem_of_cons in Hn as [Hn|Hn]; [discriminate Hn|]. apply elem_of_list_singleton in Hn.
      apply (f_equal (fun e => match e with Wrote _ _ _ _ o _ => o | _ => 0 end)) in Hn. discriminate Hn. }
    exact (B _ He).
Qed.

(** Examples: authenticated token, and a commit with the server's token and
    both receipts, in a history. *)
Theorem C39_example :
  verify_auth toy_mac true 99 (ex_auth (ReadObject ex_key)) (ReadObject ex_key) = true
  /\ verify_auth toy_mac true 100 (ex_auth (ReadObject ex_key)) (ReadObject ex_key) = false
  /\ verify_auth toy_mac true 99 (ex_auth (ReadObject ex_key)) (DeleteObject ex_key) = false
  /\ verify_auth toy_mac true 99 (ex_auth (ReadObject ex_key)) (ReadObject [108]) = false.
Proof. vm_compute. repeat split. Qed.
Definition ex_history3 : list hevent := ex_history2 ++ [Wrote 11 ex_key [] ex_tok (2 ^ 24) 5].
Definition ex_commit : hevent := Committed 20 ex_key [] ex_tok (join_commas [ex_receipt 0; ex_receipt 1]).
Theorem C40_example : history toy_mac false 24 (ex_history3 ++ [ex_commit]).
Proof.
  assert (Et : b64_decode ex_tok = Some (toy_mac (pair_msg ex_it ex_size) ++ pair_msg ex_it ex_size)) by (vm_compute; reflexivity).
  assert (Hd : disclosed toy_mac false 24 ex_history1 (pair_msg ex_it ex_size)).
  { exists (Created ex_it ex_size). split; [apply elem_of_list_here|reflexivity]. }
  assert (Mono : forall tr e m, disclosed toy_mac false 24 tr m -> disclosed toy_mac false 24 (tr ++ [e]) m).
  { intros tr e m (e' & H1 & H2). exists e'. split; [apply elem_of_app; left; exact H1|exact H2]. }
  assert (U : forall tr raw, disclosed toy_mac false 24 tr (pair_msg ex_it ex_size) -> b64_decode ex_tok = Some raw -> unforged toy_mac false 24 tr (take 32 raw)).
  { intros tr raw Hdd Hraw. eapply (ex_unforged _ ex_it ex_size); [exact Hdd|vm_compute; reflexivity|exact Hraw|].
    rewrite Et in Hraw. apply (inj Some) in Hraw. subst raw. vm_compute. reflexivity. }
  assert (Last : forall tr e m, discloses toy_mac false 24 e m -> disclosed toy_mac false 24 (tr ++ [e]) m).
  { intros tr e m H. exists e. split; [apply elem_of_app; right; apply elem_of_list_here|exact H]. }
  assert (D0 : disclosed toy_mac false 24 ex_history2 (pair_msg ex_it 0)).
  { apply Last. exists ex_it. split; [apply ex_write|vm_compute; reflexivity]. }
  assert (D1 : disclosed toy_mac false 24 ex_history3 (pair_msg ex_it 1)).
  { apply Last. exists ex_it. split; [vm_compute; reflexivity|vm_compute; reflexivity]. }
  apply history_snoc; [apply history_snoc; [exact ex_history2_ok|..]|..].
  - exists ex_it, ex_size. split; [vm_compute; reflexivity|]. split; [apply elem_of_list_here|]. split; [reflexivity|]. vm_compute. reflexivity.
  - intros raw Hraw. apply U; [apply Mono, Hd|exact Hraw].
  - exists ex_it, ex_size. split; [vm_compute; reflexivity|]. apply elem_of_list_here.
  - split; [intros raw Hraw; apply U; [apply Mono, Mono, Hd|exact Hraw]|].
    intros r x Hr Hx m Hm. rewrite split_join in Hr.
    2: discriminate. 2: { repeat constructor; apply b64_encode_no_comma. }
    apply elem_of_cons in Hr as [->|Hr].
    + unfold ex_receipt, write_receipt in Hx. rewrite b64_decode_encode in Hx by apply toy_is_mac.
      apply (inj Some) in Hx. subst x. apply toy_inj in Hm as ->; [|vm_compute; reflexivity]. apply Mono, D0.
    + apply elem_of_list_singleton in Hr as ->.
      unfold ex_receipt, write_receipt in Hx. rewrite b64_decode_encode in Hx by apply toy_is_mac.
      apply (inj Some) in Hx. subst x. apply toy_inj in Hm as ->; [|vm_compute; reflexivity]. exact D1.
Qed.

(** An honest upload is accepted: with the server's own token and the response
    of one write at the start of each part, joined the way the clients do. *)
Theorem C40_complete_upload_is_accepted mac auth lpage now key t it size :
  is_mac mac -> valid_itoken it -> 0 < size -> size < 2 ^ 64 ->
  verify_auth mac auth now t (CommitObject key) = true ->
  endpoint_commit mac auth (2 ^ lpage) now key t (upload_token mac it size)
    (join_commas (map (fun i => write_response mac (2 ^ lpage) it (N.of_nat i * 2 ^ lpage)) (seq 0 (N.to_nat (div_ceil size (2 ^ lpage))))))
  = CommitProceeds it.
Proof.
  intros Hmac Vi H0 Hs Ha. unfold endpoint_commit. rewrite Ha. cbn [negb].
  rewrite parse_upload_issued; [|intros m; apply Hmac..|exact Vi|exact Hs].
  rewrite split_join.
  - rewrite (proj2 (verify_receipts_iff mac (fun m => proj1 (Hmac m)) (fun m => proj2 (Hmac m)) _ _ _ _)); [reflexivity|].
    intros i Hi. change (map ?f ?l) with (f <$> l). rewrite list_lookup_fmap.
    rewrite lookup_seq_lt by (clear -Hi; lia). cbn [fmap option_fmap option_map]. unfold write_response.
    rewrite N.div_mul by apply pow2_nz. cbn. rewrite N2Nat.id. reflexivity.
  - intros E. apply (f_equal length) in E. rewrite map_length, seq_length in E. cbn in E.
    pose proof (proj2 (part_iff lpage size 0)) as P. unfold is_part in P. rewrite N.mul_0_l in P. specialize (P H0). clear -P E. lia.
  - apply Forall_forall. intros s Hs'. apply in_map_iff in Hs' as (i & <- & _). apply b64_encode_no_comma.
Qed.

(** * C44 *)
(** Tokens made by the JavaScript client are never accepted, for any action
    and any time: it serialises the action as named maps where the server
    expects arrays.  The only assumption is that the two messages do not
    collide under the keyed hash. *)
Theorem C44_javascript_tokens_refuted mac now a b e :
  is_mac mac -> e < 2 ^ 64 ->
  (mac (js_auth_msg a e) = mac (auth_msg b e) -> js_auth_msg a e = auth_msg b e) ->
  verify_auth mac true now (js_auth_token_new mac a e) b = false.
Proof.
  intros H He Hc. destruct (verify_auth mac true now (js_auth_token_new mac a e) b) eqn:E; [|reflexivity].
  apply (proj1 (C39_token_accepted_iff_issued_and_unexpired mac now _ b H)) in E as (e' & He' & _ & E).
  unfold js_auth_token_new, auth_token_new in E.
  apply b64_encode_inj in E; [|apply Forall_app_2; [apply be_bytes_byte|apply H]..].
  apply app_inj_1 in E as [E1 E2]; [|rewrite !be_bytes_length; reflexivity].
  apply be_bytes_inj in E1; [|assumption..]. subst e'.
  apply Hc in E2. unfold js_auth_msg, auth_msg in E2. change (mp_array 2) with [146] in E2. discriminate E2.
Qed.
(** The Rust client (blobd-client-rs/src/lib.rs:88-95) issues tokens that
    expire [ttl] seconds from its clock; the server accepts them until then. *)
Theorem C44_rust_tokens_partial mac client_now ttl server_now a :
  is_mac mac -> client_now + ttl < 2 ^ 64 -> server_now < client_now + ttl ->
  verify_auth mac true server_now (auth_token_new mac a (client_now + ttl)) a = true.
Proof.
  intros H H1 H2. apply (proj1 (C39_token_accepted_iff_issued_and_unexpired mac server_now _ a H)).
  exists (client_now + ttl). repeat split; assumption.
Qed.
Theorem C44_example :
  verify_auth toy_mac true 50 (auth_token_new toy_mac (ReadObject ex_key) (10 + 300)) (ReadObject ex_key) = true
  /\ verify_auth toy_mac true 50 (js_auth_token_new toy_mac (ReadObject ex_key) (10 + 300)) (ReadObject ex_key) = false.
Proof. vm_compute. split; reflexivity. Qed.

Print Assumptions C39_token_accepted_iff_issued_and_unexpired.
Print Assumptions C39_token_grants_exactly_its_action.
Print Assumptions C40_commit_with_own_token_needs_every_part_partial.
Print Assumptions C40_any_commit_partial.
Print Assumptions C40_recombined_token_refuted.
Print Assumptions C40_commit_without_a_part_refuted.
Print Assumptions C40_complete_upload_is_accepted.
Print Assumptions C44_javascript_tokens_refuted.
Print Assumptions C44_rust_tokens_partial.

(** * C45 *)
(** The upload token is not tied to the key the request was authorised for:
    an access token for any key [k] lets its holder write to, and commit, an
    upload that was created for a different key. *)
Theorem C45_upload_not_bound_to_key_refuted mac lpage now k it size expires_w expires_c :
  is_mac mac -> valid_itoken it -> 0 < size -> size < 2 ^ 64 ->
  now < expires_w < 2 ^ 64 -> now < expires_c < 2 ^ 64 ->
  endpoint_write mac true now k (auth_token_new mac (WriteObject k) expires_w) (upload_token mac it size) = WriteProceeds it
  /\ endpoint_commit mac true (2 ^ lpage) now k (auth_token_new mac (CommitObject k) expires_c) (upload_token mac it size)
       (join_commas (map (fun i => write_response mac (2 ^ lpage) it (N.of_nat i * 2 ^ lpage)) (seq 0 (N.to_nat (div_ceil size (2 ^ lpage))))))
     = CommitProceeds it.
Proof.
  intros Hmac Vi H0 Hs [Hw1 Hw2] [Hc1 Hc2]. split.
  - unfold endpoint_write.
    rewrite (proj2 (proj1 (C39_token_accepted_iff_issued_and_unexpired mac now _ (WriteObject k) Hmac))) by eauto.
    cbn [negb]. rewrite parse_upload_issued; [reflexivity|intros m; apply Hmac..|exact Vi|exact Hs].
  - apply C40_complete_upload_is_accepted; try assumption.
    apply (proj1 (C39_token_accepted_iff_issued_and_unexpired mac now _ (CommitObject k) Hmac)). eauto.
Qed.
(** What authorisation does guarantee: without a token for the key in the
    request nothing is written or committed. *)
Theorem C45_unauthorised_requests_rejected_partial mac lpage now k t tok receipts :
  is_mac mac ->
  ((forall it, endpoint_write mac true now k t tok <> WriteProceeds it) \/
   exists e, e < 2 ^ 64 /\ now < e /\ t = auth_token_new mac (WriteObject k) e)
  /\ ((forall it, endpoint_commit mac true (2 ^ lpage) now k t tok receipts <> CommitProceeds it) \/
   exists e, e < 2 ^ 64 /\ now < e /\ t = auth_token_new mac (CommitObject k) e).
Proof.
  intros H. split.
  - unfold endpoint_write. destruct (verify_auth mac true now t (WriteObject k)) eqn:E.
    + right. apply (proj1 (C39_token_accepted_iff_issued_and_unexpired mac now t _ H)), E.
    + left. intros it. cbn [negb]. discriminate.
  - unfold endpoint_commit. destruct (verify_auth mac true now t (CommitObject k)) eqn:E.
    + right. apply (proj1 (C39_token_accepted_iff_issued_and_unexpired mac now t _ H)), E.
    + left. intros it. cbn [negb]. discriminate.
Qed.
Print Assumptions C45_upload_not_bound_to_key_refuted.
Print Assumptions C45_unauthorised_requests_rejected_partial.
