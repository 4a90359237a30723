(** C41: range requests. *)
From Coq Require Import ZifyBool ZifyNat ZifyN.
From stdpp Require Import base numbers list_numbers option list.
From Verif Require Import Util Bytes PageIOModel TokenModel HttpModel HttpProofs.
Open Scope N_scope.
Ltac Zify.zify_post_hook ::= idtac.

(** ** Specification *)
(** The bytes [first .. last] of [data], inclusive. *)
Definition bytes_between (data : list N) (first last : N) : list N :=
  take (N.to_nat (last + 1 - first)) (drop (N.to_nat first) data).
Definition len (data : list N) : N := N.of_nat (length data).
(** "bytes=a-b", "bytes=a-", "bytes=-b". *)
Definition closed_range (a b : N) : list N := bytes_eq ++ dec a ++ [45] ++ dec b.
Definition open_range (a : N) : list N := bytes_eq ++ dec a ++ [45].
Definition suffix_range (n : N) : list N := bytes_eq ++ [45] ++ dec n.
(** "bytes first-last/total". *)
Definition content_range_text (first last total : N) : list N :=
  [98;121;116;101;115;32] ++ dec first ++ [45] ++ dec last ++ [47] ++ dec total.

Lemma closed_range_text a b : closed_range a b = bytes_eq ++ bound_text (Some a) ++ [45] ++ bound_text (Some b).
Proof. reflexivity. Qed.
Lemma open_range_text a : open_range a = bytes_eq ++ bound_text (Some a) ++ [45] ++ bound_text None.
Proof. cbn [bound_text]. unfold open_range. rewrite app_nil_r. reflexivity. Qed.
Lemma suffix_range_text a : suffix_range a = bytes_eq ++ bound_text None ++ [45] ++ bound_text (Some a).
Proof. reflexivity. Qed.

Lemma read_one data h r :
  range_specs h = Some [r] ->
  endpoint_read (Some data) (Some h) =
    match range_start (fst r) with
    | None => Status 416
    | Some start =>
        let fin := match range_end (snd r) with Some e => e | None => len data end in
        match read_check Direct (len data) start fin with
        | Some _ => Status 416
        | None => Body 206 (dec (fin - start)) (content_range start fin (len data))
                    (take (N.to_nat (fin - start)) (drop (N.to_nat start) data))
        end
    end.
Proof. intros E. unfold endpoint_read. cbn [mbind option_bind]. rewrite E. change (default [] (Some [r])) with [r]. cbn [head].
  change (default (Unbounded, Unbounded) (Some r)) with r. unfold len. destruct (range_start (fst r)); [|reflexivity].
  destruct (range_end (snd r)); reflexivity. Qed.

Lemma u64_add_1 v : v + 1 < 2 ^ 64 -> u64_add v 1 = v + 1.
Proof. intros H. unfold u64_add. apply N.mod_small, H. Qed.

(** ** Theorems *)
(** [bytes=a-b] within the object: exactly those bytes, status 206, and headers
    that describe them. *)
Theorem C41_closed_range data a b :
  a <= b -> b < len data -> len data < 2 ^ 64 ->
  endpoint_read (Some data) (Some (closed_range a b)) =
    Body 206 (dec (len (bytes_between data a b))) (content_range_text a b (len data)) (bytes_between data a b)
  /\ len (bytes_between data a b) = b - a + 1.
Proof.
  intros H1 H2 H3.
  assert (L : len (bytes_between data a b) = b - a + 1).
  { unfold len, bytes_between in *. rewrite take_length, drop_length. clear -H1 H2. lia. }
  split; [|exact L]. rewrite L.
  rewrite closed_range_text.
  erewrite read_one by (apply range_text; intros v E; injection E as <-; clear -H1 H2 H3; lia).
  cbn [bound_of fst snd range_start range_end]. cbv zeta. rewrite u64_add_1 by (clear -H2 H3; lia).
  unfold read_check. replace ((b + 1 <? a) || (len data <? a) || (len data <? b + 1)) with false by (clear -H1 H2; lia).
  unfold content_range, content_range_text, bytes_between.
  replace (b + 1 - a) with (b - a + 1) by (clear -H1; lia). replace (b + 1 - 1) with b by (clear; lia). reflexivity.
Qed.

(** [bytes=a-]: from [a] to the end. *)
Theorem C41_open_range data a :
  a < len data -> len data < 2 ^ 64 ->
  endpoint_read (Some data) (Some (open_range a)) =
    Body 206 (dec (len (drop (N.to_nat a) data))) (content_range_text a (len data - 1) (len data)) (drop (N.to_nat a) data).
Proof.
  intros H1 H2. rewrite open_range_text.
  erewrite read_one by (apply range_text; intros v E; simplify_eq; eapply N.lt_trans; eassumption).
  cbn [bound_of fst snd range_start range_end]. cbv zeta.
  unfold read_check. replace ((len data <? a) || (len data <? a) || (len data <? len data)) with false by (clear -H1; lia).
  unfold content_range, content_range_text, len in *. rewrite drop_length.
  rewrite take_ge by (rewrite drop_length; clear; lia).
  replace (N.of_nat (length data - N.to_nat a)) with (N.of_nat (length data) - a) by (clear; lia). reflexivity.
Qed.

(** No range header: everything, status 200. *)
Theorem C41_no_range data :
  endpoint_read (Some data) None = Body 200 (dec (len data)) (content_range_text 0 (len data - 1) (len data)) data.
Proof.
  unfold endpoint_read. cbn [mbind option_bind from_option head range_start range_end fst snd]. cbv zeta. unfold read_check, content_range, content_range_text, len, id.
  replace ((N.of_nat (length data) <? 0) || (N.of_nat (length data) <? 0) || (N.of_nat (length data) <? N.of_nat (length data))) with false by (clear; lia).
  rewrite N.sub_0_r, N2Nat.id || rewrite N.sub_0_r. change (drop (N.to_nat 0) data) with data. rewrite Nat2N.id, firstn_all. reflexivity.
Qed.

(** Whatever the header, a body is always one run of the object's bytes, the
    Content-Length is its length, the Content-Range names it (when it is not
    empty), and the status says 200 only if the whole object is sent. *)
Theorem C41_headers_describe_body data range code cl cr body :
  endpoint_read (Some data) range = Body code cl cr body ->
  exists first, first + len body <= len data
    /\ body = take (length body) (drop (N.to_nat first) data)
    /\ cl = dec (len body)
    /\ (body <> [] -> cr = content_range_text first (first + len body - 1) (len data))
    /\ (code = 200 /\ body = data \/ code = 206 /\ range <> None).
Proof.
  unfold endpoint_read. intros H.
  set (ranges := default [] (range ≫= range_specs)) in *.
  assert (R : ranges <> [] -> range <> None) by (intros HR E; apply HR; subst ranges; rewrite E; reflexivity).
  destruct ranges as [|r [|r' rs]]; [| |discriminate].
  - cbn [from_option head range_start range_end fst snd] in H. cbv zeta in H. unfold read_check, id in H. destruct ((len data <? 0) || (len data <? 0) || (len data <? len data)) eqn:E.
    { exfalso. clear -E. lia. }
    unfold len in *. rewrite E in H. rewrite N.sub_0_r in H. change (drop (N.to_nat 0) data) with data in H. rewrite Nat2N.id, firstn_all in H. injection H as <- <- <- <-.
    exists 0. change (drop (N.to_nat 0) data) with data. rewrite firstn_all. split; [clear; lia|]. split; [reflexivity|]. split; [reflexivity|].
    split; [intros _; unfold content_range, content_range_text; rewrite N.add_0_l; reflexivity|left; split; reflexivity].
  - cbn [from_option head] in H. unfold id in H.
    destruct (range_start (fst r)) as [start|]; [|discriminate].
    cbv zeta in H. match type of H with context [from_option ?f ?d (range_end ?x)] => remember (from_option f d (range_end x)) as fin end.
    unfold read_check in H. destruct ((fin <? start) || (N.of_nat (length data) <? start) || (N.of_nat (length data) <? fin)) eqn:E; [discriminate|].
    injection H as <- <- <- <-. exists start. unfold len.
    assert (L : length (take (N.to_nat (fin - start)) (drop (N.to_nat start) data)) = N.to_nat (fin - start)).
    { rewrite take_length, drop_length. clear -E. lia. }
    rewrite L, N2Nat.id. split; [clear -E; lia|]. split; [reflexivity|]. split; [reflexivity|].
    split.
    + intros Hne. unfold content_range, content_range_text.
      assert (fin - start <> 0) by (intros E0; rewrite E0 in Hne; apply Hne; reflexivity).
      replace (start + (fin - start) - 1) with (fin - 1) by (clear -E H; lia). reflexivity.
    + right. split; [reflexivity|]. apply R. discriminate.
Qed.

(** Ranges that do not lie within the object, and more than one range, are
    refused, and a missing object is reported as such. *)
Theorem C41_out_of_bounds_rejected data a b :
  a < 2 ^ 64 -> b + 1 < 2 ^ 64 -> (b + 1 < a \/ len data <= b) ->
  endpoint_read (Some data) (Some (closed_range a b)) = Status 416
  /\ endpoint_read None (Some (closed_range a b)) = Status 404.
Proof.
  intros Ha Hb H. rewrite closed_range_text.
  assert (E : range_specs (bytes_eq ++ bound_text (Some a) ++ [45] ++ bound_text (Some b)) = Some [(bound_of (Some a), bound_of (Some b))]).
  { apply range_text; intros v E; injection E as <-; [exact Ha|clear -Hb; lia]. }
  split.
  - erewrite read_one by exact E.
    cbn [bound_of fst snd range_start range_end]. cbv zeta.
    rewrite u64_add_1 by exact Hb.
    unfold read_check. replace ((b + 1 <? a) || (len data <? a) || (len data <? b + 1)) with true by (clear -H; lia). reflexivity.
  - unfold endpoint_read. cbn [mbind option_bind]. rewrite E. reflexivity.
Qed.
Theorem C41_multiple_ranges_rejected data h r1 r2 rs :
  range_specs h = Some (r1 :: r2 :: rs) -> endpoint_read (Some data) (Some h) = Status 416.
Proof. intros E. unfold endpoint_read. cbn [mbind option_bind]. rewrite E. reflexivity. Qed.

(** ** Where the server departs from the rules *)
(** [bytes=-n] asks for the last [n] bytes; the server sends the first [n+1]. *)
Theorem C41_suffix_range_refuted data n :
  n < len data -> len data < 2 ^ 64 ->
  endpoint_read (Some data) (Some (suffix_range n)) =
    Body 206 (dec (n + 1)) (content_range_text 0 n (len data)) (bytes_between data 0 n).
Proof.
  intros H1 H2. rewrite suffix_range_text.
  erewrite read_one by (apply range_text; intros v E; simplify_eq; eapply N.lt_trans; eassumption).
  cbn [bound_of fst snd range_start range_end]. cbv zeta.
  rewrite u64_add_1 by (clear -H1 H2; lia).
  unfold read_check. replace ((n + 1 <? 0) || (len data <? 0) || (len data <? n + 1)) with false by (clear -H1; lia).
  unfold content_range, content_range_text, bytes_between. rewrite !N.sub_0_r. replace (n + 1 - 1) with n by (clear; lia). reflexivity.
Qed.
(** A last position of 2^64-1 wraps to 0: [bytes=0-18446744073709551615] gets an
    empty body with the Content-Range of a one-byte body. *)
Theorem C41_last_position_overflow_refuted data :
  len data < 2 ^ 64 ->
  endpoint_read (Some data) (Some (closed_range 0 (2 ^ 64 - 1))) =
    Body 206 (dec 0) (content_range_text 0 0 (len data)) [].
Proof.
  intros H. rewrite closed_range_text.
  erewrite read_one by (apply range_text; intros v E; simplify_eq; reflexivity).
  cbn [bound_of fst snd range_start range_end]. cbv zeta.
  change (u64_add (2 ^ 64 - 1) 1) with 0.
  unfold read_check. replace ((0 <? 0) || (len data <? 0) || (len data <? 0)) with false by (clear; lia). reflexivity.
Qed.
(** An empty body always carries a Content-Range that does not describe it:
    for an empty object it names byte 0 of 0, and [bytes=n-] of an object of
    [n] bytes is answered 206 with the range n to n-1. *)
Theorem C41_empty_body_content_range_refuted :
  endpoint_read (Some []) None = Body 200 (dec 0) (content_range_text 0 0 0) []
  /\ forall data, len data < 2 ^ 64 ->
     endpoint_read (Some data) (Some (open_range (len data))) =
       Body 206 (dec 0) (content_range_text (len data) (len data - 1) (len data)) [].
Proof.
  split; [vm_compute; reflexivity|]. intros data H. rewrite open_range_text.
  erewrite read_one by (apply range_text; intros v E; simplify_eq; exact H).
  cbn [bound_of fst snd range_start range_end]. cbv zeta.
  unfold read_check. replace ((len data <? len data) || (len data <? len data) || (len data <? len data)) with false by (clear; lia).
  rewrite N.sub_diag. reflexivity.
Qed.

Theorem C41_example :
  endpoint_read (Some [10;11;12;13;14]) (Some (closed_range 1 3)) =
    Body 206 [51] (content_range_text 1 3 5) [11;12;13]
  /\ closed_range 1 3 = [98;121;116;101;115;61;49;45;51]
  /\ endpoint_read (Some [10;11;12;13;14]) (Some (open_range 3)) = Body 206 [50] (content_range_text 3 4 5) [13;14]
  /\ endpoint_read (Some [10;11;12;13;14]) (Some (suffix_range 2)) = Body 206 [51] (content_range_text 0 2 5) [10;11;12].
Proof. vm_compute. repeat split. Qed.

Print Assumptions C41_closed_range.
Print Assumptions C41_open_range.
Print Assumptions C41_no_range.
Print Assumptions C41_headers_describe_body.
Print Assumptions C41_out_of_bounds_rejected.
Print Assumptions C41_multiple_ranges_rejected.
Print Assumptions C41_suffix_range_refuted.
Print Assumptions C41_last_position_overflow_refuted.
Print Assumptions C41_empty_body_content_range_refuted.
