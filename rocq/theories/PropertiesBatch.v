(** C42: batch uploads. *)
From Coq Require Import ZifyBool ZifyNat ZifyN.
From stdpp Require Import base numbers list_numbers option list.
From Verif Require Import Util Bytes PageIOModel TokenModel HttpModel BatchProofs.
Open Scope N_scope.
Ltac Zify.zify_post_hook ::= idtac.

(** The specification is in BatchProofs.v: [entry_bytes] is the frame the
    clients send for one (key, data) pair, [object_ops] the operations that
    store it, [accepts] and [refused] the store's answers. *)
Definition frames (es : list (list N * list N)) : list N := concat (map entry_bytes es).

Lemma frames_length es : (length es <= length (frames es))%nat.
Proof.
  induction es as [|e es IH]; [apply Nat.le_0_l|]. unfold frames in *. cbn [map concat length]. rewrite app_length.
  pose proof (entry_bytes_length e) as H. clear -H IH. lia.
Qed.

(** The loop over whole entries, followed by [tail]. *)
Lemma loop_entries ok lsize : 0 < lsize -> forall es fuel body log created tail,
  Forall valid_entry es -> concat body = frames es ++ tail ->
  (exists done e rest log', es = done ++ e :: rest /\ accepts ok log (uploads lsize done)
     /\ refused ok (reverse (uploads lsize done) ++ log) (object_ops lsize e) log'
     /\ batch_loop ok lsize (length es + fuel) body log created = (log', created + N.of_nat (length done)))
  \/ exists body', accepts ok log (uploads lsize es) /\ concat body' = tail
     /\ batch_loop ok lsize (length es + fuel) body log created
        = batch_loop ok lsize fuel body' (reverse (uploads lsize es) ++ log) (created + N.of_nat (length es)).
Proof.
  intros Hl es. induction es as [|e es IH]; intros fuel body log created tail Hv Hb.
  - right. exists body. split; [exact I|]. split; [exact Hb|]. unfold uploads. cbn [map concat length].
    rewrite reverse_nil, N.add_0_r. reflexivity.
  - apply Forall_cons_1 in Hv as [He Hv]. unfold frames in Hb. cbn [map concat] in Hb. rewrite <- app_assoc in Hb.
    cbn [length Nat.add].
    destruct (entry_step ok lsize (length es + fuel) body log created e (frames es ++ tail) Hl He Hb) as [(log' & E & R)|(body' & A & Hb' & E)].
    + left. exists [], e, es, log'. split; [reflexivity|]. split; [exact I|]. unfold uploads. cbn [map concat length].
      rewrite reverse_nil, N.add_0_r. split; [exact R|exact E].
    + rewrite E. specialize (IH fuel body' (reverse (object_ops lsize e) ++ log) (created + 1) tail Hv Hb').
      assert (Eu : forall d, uploads lsize (e :: d) = object_ops lsize e ++ uploads lsize d) by reflexivity.
      destruct IH as [(done & e' & rest & log' & -> & I1 & I2 & I3)|(body'' & I1 & I2 & I3)].
      * left. exists (e :: done), e', rest, log'. split; [reflexivity|]. rewrite Eu.
        split; [apply accepts_app; tauto|]. rewrite reverse_app, <- app_assoc. split; [exact I2|].
        rewrite I3. f_equal. cbn [length]. clear. lia.
      * right. exists body''. rewrite Eu. split; [apply accepts_app; tauto|]. split; [exact I2|].
        rewrite I3, reverse_app, <- app_assoc. f_equal. cbn [length]. clear. lia.
Qed.

Lemma enough_fuel es tail : exists fuel, S (length (frames es ++ tail)) = (length es + S fuel)%nat.
Proof.
  rewrite app_length. pose proof (frames_length es). exists (length (frames es) - length es + length tail)%nat. lia.
Qed.

(** A complete body, however it is cut into network chunks: the store is asked
    for exactly the objects in it, in order, until it refuses something; the
    count is the number of objects all of whose operations it accepted.  If it
    refuses nothing, all are stored. *)
Theorem C42_complete_body ok lpage es body :
  Forall valid_entry es -> concat body = frames es ->
  let '(log, count) := endpoint_batch ok (2 ^ lpage) body in
  exists done rest, es = done ++ rest /\ count = N.of_nat (length done)
    /\ accepts ok [] (uploads (2 ^ lpage) done)
    /\ match rest with
       | [] => reverse log = uploads (2 ^ lpage) es
       | e :: _ => refused ok (reverse (uploads (2 ^ lpage) done)) (object_ops (2 ^ lpage) e) log
       end.
Proof.
  intros Hv Hb. unfold endpoint_batch. rewrite Hb.
  destruct (enough_fuel es []) as [fuel Ef]. rewrite app_nil_r in Ef. rewrite Ef.
  destruct (loop_entries ok (2 ^ lpage) (pow2_pos lpage) es (S fuel) body [] 0 []) as [(done & e & rest & log' & -> & A & R & E)|(body' & A & Hb' & E)].
  - exact Hv.
  - rewrite app_nil_r. exact Hb.
  - rewrite E. exists done, (e :: rest). rewrite app_nil_r in R. repeat split; assumption.
  - rewrite E, batch_loop_S. rewrite read_exact_short by (rewrite Hb'; cbn; clear; lia).
    exists es, []. rewrite app_nil_r. repeat split; [exact A|]. rewrite app_nil_r, reverse_involutive. reflexivity.
Qed.

(** A body that ends in the middle of an entry: the entries before it are
    stored as above; of the incomplete one a proper beginning of its
    operations is asked for, never its commit, and it is not counted. *)
Theorem C42_truncated_body ok lpage es e p x body :
  Forall valid_entry es -> valid_entry e -> p ++ x = entry_bytes e -> x <> [] ->
  concat body = frames es ++ p ->
  let '(log, count) := endpoint_batch ok (2 ^ lpage) body in
  exists done rest, es = done ++ rest /\ count = N.of_nat (length done)
    /\ accepts ok [] (uploads (2 ^ lpage) done)
    /\ (match rest with
        | [] => exists ops1 ops2, object_ops (2 ^ lpage) e = ops1 ++ ops2 /\ ops2 <> []
                  /\ accepts ok (reverse (uploads (2 ^ lpage) es)) ops1
                  /\ reverse log = uploads (2 ^ lpage) es ++ ops1
        | _ => False
        end
        \/ exists e', head (rest ++ [e]) = Some e'
             /\ refused ok (reverse (uploads (2 ^ lpage) done)) (object_ops (2 ^ lpage) e') log).
Proof.
  intros Hv He Hp Hx Hb. unfold endpoint_batch. rewrite Hb.
  destruct (enough_fuel es p) as [fuel Ef]. rewrite Ef.
  destruct (loop_entries ok (2 ^ lpage) (pow2_pos lpage) es (S fuel) body [] 0 p) as [(done & e' & rest & log' & -> & A & R & E)|(body' & A & Hb' & E)].
  - exact Hv.
  - exact Hb.
  - rewrite E. exists done, (e' :: rest). rewrite app_nil_r in R. split; [reflexivity|]. split; [reflexivity|]. split; [exact A|].
    right. exists e'. split; [reflexivity|exact R].
  - rewrite E. rewrite <- Hb' in Hp.
    destruct (entry_cut ok (2 ^ lpage) (S fuel) body' (reverse (uploads (2 ^ lpage) es) ++ []) (0 + N.of_nat (length es)) e x (pow2_pos lpage) He Hp Hx) as (log' & -> & Q).
    exists es, []. rewrite !app_nil_r in *. split; [reflexivity|]. split; [reflexivity|]. split; [exact A|].
    destruct Q as [R|(o1 & o2 & Q1 & Q2 & Q3 & ->)].
    + right. exists e. split; [reflexivity|exact R].
    + left. exists o1, o2. repeat split; try assumption. rewrite reverse_app, !reverse_involutive. reflexivity.
Qed.

(** Whatever the body, the count equals the number of commits the store
    accepted: an operation in the log was accepted if the store said so given
    the operations before it. *)
Fixpoint accepted_commits (ok : list bop -> bop -> bool) (log : list bop) : N :=
  match log with
  | [] => 0
  | op :: earlier => (match op with BCommit _ => if ok earlier op then 1 else 0 | _ => 0 end) + accepted_commits ok earlier
  end.
Lemma parts_commits ok lsize fuel key size : forall offset body log,
  accepted_commits ok (fst (batch_parts ok lsize fuel key size offset body log)) = accepted_commits ok log.
Proof.
  induction fuel as [|fuel IH]; intros offset body log; cbn [batch_parts]; (destruct (size <=? offset); [reflexivity|]); [reflexivity|].
  destruct (read_exact _ body) as [[chunk rest]|]; [|reflexivity].
  destruct (ok log (BWrite key offset chunk)).
  - rewrite IH. cbn [accepted_commits]. apply N.add_0_l.
  - cbn [fst accepted_commits]. apply N.add_0_l.
Qed.
Lemma loop_commits ok lsize fuel : forall body log created,
  let '(log', count) := batch_loop ok lsize fuel body log created in
  count + accepted_commits ok log = created + accepted_commits ok log'.
Proof.
  induction fuel as [|fuel IH]; intros body log created; [reflexivity|]. rewrite batch_loop_S.
  destruct (read_exact 2 body) as [[k1 b1]|]; [|reflexivity].
  destruct (read_exact _ b1) as [[k2 b2]|]; [|reflexivity].
  destruct (read_exact 5 b2) as [[k3 b3]|]; [|reflexivity]. cbv zeta.
  destruct (ok log (BCreate k2 (be_val k3))) eqn:E1; cbn [negb].
  2: { cbn [accepted_commits]. reflexivity. }
  pose proof (parts_commits ok lsize (N.to_nat (be_val k3)) k2 (be_val k3) 0 b3 (BCreate k2 (be_val k3) :: log)) as P.
  destruct (batch_parts _ _ _ _ _ _ _ _) as [log' [body'|]]; cbn [fst accepted_commits] in P; rewrite N.add_0_l in P.
  2: { rewrite P. reflexivity. }
  destruct (ok log' (BCommit k2)) eqn:E2.
  - specialize (IH body' (BCommit k2 :: log') (created + 1)).
    destruct (batch_loop _ _ _ _ _ _) as [log'' count]. cbn [accepted_commits] in IH. rewrite E2, P in IH. clear -IH. lia.
  - cbn [accepted_commits]. rewrite E2, P. clear. lia.
Qed.
Theorem C42_count_is_number_committed ok lpage body :
  let '(log, count) := endpoint_batch ok (2 ^ lpage) body in count = accepted_commits ok log.
Proof.
  unfold endpoint_batch. pose proof (loop_commits ok (2 ^ lpage) (S (length (concat body))) body [] 0) as H.
  destruct (batch_loop _ _ _ _ _ _) as [log count]. cbn [accepted_commits] in H. rewrite N.add_0_r, N.add_0_l in H. exact H.
Qed.

(** The writes of one object are requests the store accepts as parts (C09,
    C10), and their data together is the object's data. *)
Theorem C42_parts_are_the_data lpage key data :
  N.of_nat (length data) + 2 ^ lpage < 2 ^ 64 ->
  let ws := omap (fun op => match op with BWrite _ off d => Some (off, d) | _ => None end) (object_ops (2 ^ lpage) (key, data)) in
  Forall (fun w => write_check lpage (N.of_nat (length data)) (fst w) (N.of_nat (length (snd w))) = None) ws
  /\ concat (map snd ws) = data.
Proof.
  intros Hs ws.
  assert (Ew : ws = map (fun i => (N.of_nat i * 2 ^ lpage, take (N.to_nat (2 ^ lpage)) (drop (N.to_nat (N.of_nat i * 2 ^ lpage)) data))) (seq 0 (part_count (2 ^ lpage) data))).
  { subst ws. unfold object_ops. cbn [omap list_omap].
    generalize (seq 0 (part_count (2 ^ lpage) data)). induction l as [|i l IH]; [reflexivity|]. cbn. cbn in IH. rewrite IH. reflexivity. }
  rewrite Ew. clear Ew ws. pose proof (pow2_pos lpage) as Hl. split.
  - apply Forall_forall. intros w Hw.
    assert (Hi : exists i, (i < part_count (2 ^ lpage) data)%nat /\ w = (N.of_nat i * 2 ^ lpage, take (N.to_nat (2 ^ lpage)) (drop (N.to_nat (N.of_nat i * 2 ^ lpage)) data))).
    { change (map ?f ?l) with (f <$> l) in Hw. apply elem_of_list_fmap in Hw as (i & -> & Hi). apply elem_of_seq in Hi. exists i. split; [clear -Hi; lia|reflexivity]. }
    destruct Hi as (i & Hi & ->). cbn [fst snd].
    pose proof (proj1 (parts_lt (2 ^ lpage) Hl data i) Hi) as Hlt.
    destruct (part_split (2 ^ lpage) Hl data i Hi) as (E1 & E2 & _). rewrite E1, E2, N2Nat.id.
    unfold write_check. rewrite is_multiple_of_pow2_spec, N.mod_mul by apply pow2_nz. cbn [N.eqb negb].
    revert Hlt Hs Hl. clear. generalize (N.of_nat i * 2 ^ lpage). generalize (2 ^ lpage), (N.of_nat (length data)). intros L sz o Hlt Hs Hl.
    unfold u64_add. rewrite (N.mod_small (o + N.min L (sz - o))), (N.mod_small (o + L)) by lia.
    destruct (L <? N.min L (sz - o)) eqn:A; [exfalso; lia|]. destruct (sz <? o + N.min L (sz - o)) eqn:B; [exfalso; lia|].
    destruct (o + N.min L (sz - o) =? N.min (o + L) sz) eqn:C; [reflexivity|exfalso; lia].
  - rewrite map_map. cbn [snd].
    assert (G : forall c i, (i + c = part_count (2 ^ lpage) data)%nat ->
      concat (map (fun i => take (N.to_nat (2 ^ lpage)) (drop (N.to_nat (N.of_nat i * 2 ^ lpage)) data)) (seq i c)) = drop (N.to_nat (N.of_nat i * 2 ^ lpage)) data).
    { induction c as [|c IH]; intros i Hi.
      - cbn [seq map concat]. symmetry. apply drop_ge.
        assert (N : ~ (i < part_count (2 ^ lpage) data)%nat) by (clear -Hi; lia).
        rewrite (parts_lt (2 ^ lpage) Hl data i) in N. clear -N. lia.
      - cbn [seq map concat]. rewrite IH by (clear -Hi; lia).
        destruct (part_split (2 ^ lpage) Hl data i ltac:(clear -Hi; lia)) as (E1 & _ & E3). rewrite E1. symmetry. exact E3. }
    rewrite (G (part_count (2 ^ lpage) data) 0%nat eq_refl). reflexivity.
Qed.

Lemma parts_extend ok lsize fuel key size : forall offset body log,
  exists l, fst (batch_parts ok lsize fuel key size offset body log) = l ++ log.
Proof.
  induction fuel as [|fuel IH]; intros offset body log; cbn [batch_parts]; (destruct (size <=? offset); [exists []; reflexivity|]); [exists []; reflexivity|].
  destruct (read_exact _ body) as [[chunk rest]|]; [|exists []; reflexivity].
  destruct (ok log (BWrite key offset chunk)).
  - destruct (IH (offset + lsize) rest (BWrite key offset chunk :: log)) as [l E]. rewrite E. exists (l ++ [BWrite key offset chunk]).
    rewrite <- app_assoc. reflexivity.
  - exists [BWrite key offset chunk]. reflexivity.
Qed.
Lemma loop_extend ok lsize fuel : forall body log created,
  exists l, fst (batch_loop ok lsize fuel body log created) = l ++ log.
Proof.
  induction fuel as [|fuel IH]; intros body log created; [exists []; reflexivity|]. rewrite batch_loop_S.
  destruct (read_exact 2 body) as [[k1 b1]|]; [|exists []; reflexivity].
  destruct (read_exact _ b1) as [[k2 b2]|]; [|exists []; reflexivity].
  destruct (read_exact 5 b2) as [[k3 b3]|]; [|exists []; reflexivity]. cbv zeta.
  destruct (negb _); [eexists [_]; reflexivity|].
  pose proof (parts_extend ok lsize (N.to_nat (be_val k3)) k2 (be_val k3) 0 b3 (BCreate k2 (be_val k3) :: log)) as [l P].
  destruct (batch_parts _ _ _ _ _ _ _ _) as [log' [body'|]]; cbn [fst] in P; subst log'.
  - case_match.
    + destruct (IH body' (BCommit k2 :: l ++ BCreate k2 (be_val k3) :: log) (created + 1)) as [l' E]. rewrite E.
      exists (l' ++ BCommit k2 :: l ++ [BCreate k2 (be_val k3)]). rewrite <- !app_assoc. cbn [app]. rewrite <- !app_assoc. reflexivity.
    + exists (BCommit k2 :: l ++ [BCreate k2 (be_val k3)]). cbn [fst app]. rewrite <- app_assoc. reflexivity.
  - exists (l ++ [BCreate k2 (be_val k3)]). cbn [fst]. rewrite <- app_assoc. reflexivity.
Qed.
(** The JavaScript client does not check the key length: a key of 65536 bytes
    is framed with length 0, and the server's first operation is to create an
    object with the empty key and a size taken from the key's bytes. *)
Theorem C42_long_key_refuted k data body :
  N.of_nat (length k) = 65536 -> concat body = batch_entry k (N.of_nat (length data)) data ->
  forall ok lpage, exists l, reverse (fst (endpoint_batch ok (2 ^ lpage) body)) = BCreate [] (be_val (take 5 k)) :: l.
Proof.
  intros Lk Hb ok lpage. unfold endpoint_batch. rewrite batch_loop_S.
  unfold batch_entry in Hb.
  destruct (read_exact_some 2 _ _ _ Hb (be_bytes_length _ _)) as (b1 & -> & Hb1).
  rewrite Lk. change (N.to_nat (be_val (be_bytes 2 65536))) with 0%nat.
  destruct (read_exact_some 0 b1 [] _ Hb1 eq_refl) as (b2 & -> & Hb2).
  rewrite <- (take_drop 5 k), <- app_assoc in Hb2.
  destruct (read_exact_some 5 _ _ _ Hb2) as (b3 & -> & Hb3).
  { rewrite take_length. clear -Lk. lia. }
  cbv zeta. set (cr := BCreate [] (be_val (take 5 k))). destruct (negb _); [exists []; reflexivity|].
  pose proof (parts_extend ok (2 ^ lpage) (N.to_nat (be_val (take 5 k))) [] (be_val (take 5 k)) 0 b3 [cr]) as [l P].
  destruct (batch_parts _ _ _ _ _ _ _ _) as [log' [body'|]]; cbn [fst] in P; subst log'.
  - case_match.
    + destruct (loop_extend ok (2 ^ lpage) (length (concat body)) body' (BCommit [] :: l ++ [cr]) (0 + 1)) as [l' E]. rewrite E.
      rewrite reverse_app, reverse_cons, reverse_app, reverse_singleton. eexists. cbn [app]. reflexivity.
    + cbn [fst]. rewrite reverse_cons, reverse_app, reverse_singleton. eexists. cbn [app]. reflexivity.
  - cbn [fst]. rewrite reverse_app, reverse_singleton. eexists. cbn [app]. reflexivity.
Qed.

(** Examples: two objects in odd chunks; the same body cut short. *)
Definition ex_es : list (list N * list N) := [([97], [1;2;3;4;5]); ([98;99], [])].
Theorem C42_example :
  Forall valid_entry ex_es
  /\ endpoint_batch (fun _ _ => true) (2 ^ 2) [[0]; [1;97;0;0;0]; []; [0;5;1]; [2;3;4;5;0;2;98;99;0;0;0;0]; [0]]
     = (reverse [BCreate [97] 5; BWrite [97] 0 [1;2;3;4]; BWrite [97] 4 [5]; BCommit [97]; BCreate [98;99] 0; BCommit [98;99]], 2)
  /\ concat [[0]; [1;97;0;0;0]; []; [0;5;1]; [2;3;4;5;0;2;98;99;0;0;0;0]; [0]] = frames ex_es
  /\ endpoint_batch (fun _ _ => true) (2 ^ 2) [[0]; [1;97;0;0;0]; []; [0;5;1]; [2;3;4]]
     = (reverse [BCreate [97] 5; BWrite [97] 0 [1;2;3;4]], 0).
Proof. split; [repeat constructor|]. vm_compute. repeat split. Qed.

Print Assumptions C42_complete_body.
Print Assumptions C42_truncated_body.
Print Assumptions C42_count_is_number_committed.
Print Assumptions C42_parts_are_the_data.
Print Assumptions C42_long_key_refuted.
