(** Batch uploads: the endpoint asks the store for exactly the framed objects. *)
From Coq Require Import ZifyBool ZifyNat ZifyN.
From stdpp Require Import base numbers list_numbers option list.
From Verif Require Import Util Bytes PageIOModel TokenModel HttpModel.
Open Scope N_scope.
Ltac Zify.zify_post_hook ::= idtac.

(** ** Specification *)
(** The operations that store one object: create, one write per part, commit. *)
Definition part_op (lsize : N) (key data : list N) (i : nat) : bop :=
  BWrite key (N.of_nat i * lsize) (take (N.to_nat lsize) (drop (N.to_nat (N.of_nat i * lsize)) data)).
Definition part_count (lsize : N) (data : list N) : nat := N.to_nat (div_ceil (N.of_nat (length data)) lsize).
Definition object_ops (lsize : N) (e : list N * list N) : list bop :=
  let '(key, data) := e in
  BCreate key (N.of_nat (length data))
  :: map (part_op lsize key data) (seq 0 (part_count lsize data)) ++ [BCommit key].
(** Entries the format can express. *)
Definition valid_entry (e : list N * list N) : Prop :=
  N.of_nat (length (fst e)) < 2 ^ 16 /\ N.of_nat (length (snd e)) < 2 ^ 40.
Definition entry_bytes (e : list N * list N) : list N :=
  batch_entry (fst e) (N.of_nat (length (snd e))) (snd e).

(** The store accepts [ops] one after another, after [log] (most recent first). *)
Fixpoint accepts (ok : list bop -> bop -> bool) (log ops : list bop) : Prop :=
  match ops with [] => True | op :: r => ok log op = true /\ accepts ok (op :: log) r end.
(** Of [ops] a first part is accepted and the next one is refused; [log'] is
    what the store was asked for. *)
Definition refused (ok : list bop -> bop -> bool) (log ops log' : list bop) : Prop :=
  exists ops1 op ops2, ops = ops1 ++ op :: ops2 /\ accepts ok log ops1
    /\ ok (reverse ops1 ++ log) op = false /\ log' = op :: reverse ops1 ++ log.

Lemma accepts_app ok log a b : accepts ok log (a ++ b) <-> accepts ok log a /\ accepts ok (reverse a ++ log) b.
Proof.
  revert log. induction a as [|x a IH]; intros log; cbn [app accepts]; [rewrite reverse_nil; cbn; tauto|].
  rewrite IH, reverse_cons, <- app_assoc. cbn [app]. tauto.
Qed.
Lemma refused_app_r ok log a b log' : accepts ok log a -> refused ok (reverse a ++ log) b log' -> refused ok log (a ++ b) log'.
Proof.
  intros Ha (o1 & op & o2 & -> & H1 & H2 & ->). exists (a ++ o1), op, o2.
  split; [rewrite <- app_assoc; reflexivity|]. split; [apply accepts_app; tauto|].
  rewrite reverse_app, <- app_assoc. tauto.
Qed.
Lemma refused_app_l ok log a b log' : refused ok log a log' -> refused ok log (a ++ b) log'.
Proof.
  intros (o1 & op & o2 & -> & H1 & H2 & ->). exists o1, op, (o2 ++ b).
  split; [rewrite <- app_assoc; reflexivity|]. tauto.
Qed.

(** ** Reading from chunks *)
Lemma read_exact_spec chunks : forall n,
  match read_exact n chunks with
  | Some (x, rest) => (n <= length (concat chunks))%nat /\ x = take n (concat chunks) /\ concat rest = drop n (concat chunks)
  | None => (length (concat chunks) < n)%nat
  end.
Proof.
  induction chunks as [|c rest IH]; intros n; destruct n as [|n]; cbn [read_exact].
  - repeat split. apply Nat.le_0_l.
  - apply Nat.lt_0_succ.
  - repeat split. apply Nat.le_0_l.
  - destruct (S n <=? length c)%nat eqn:E.
    + apply Nat.leb_le in E. cbn [concat]. rewrite app_length. split; [clear -E; lia|].
      rewrite take_app_le, drop_app_le by exact E. split; reflexivity.
    + apply Nat.leb_gt in E. specialize (IH (S n - length c)%nat).
      destruct (read_exact (S n - length c) rest) as [[x r]|]; cbn [mbind option_bind concat]; rewrite app_length.
      * destruct IH as (H1 & -> & H2). split; [clear -H1 E; lia|].
        rewrite take_app_ge, drop_app_ge by (clear -E; lia). split; [reflexivity|exact H2].
      * clear -IH E. lia.
Qed.
(** Reading what is there. *)
Lemma read_exact_some n chunks a b : concat chunks = a ++ b -> length a = n ->
  exists rest, read_exact n chunks = Some (a, rest) /\ concat rest = b.
Proof.
  intros E L. pose proof (read_exact_spec chunks n) as H. rewrite E in H.
  destruct (read_exact n chunks) as [[x r]|].
  - destruct H as (_ & -> & Hr). exists r. rewrite take_app_alt by (symmetry; exact L). split; [reflexivity|].
    rewrite Hr, drop_app_alt by (symmetry; exact L). reflexivity.
  - exfalso. rewrite app_length in H. clear -H L. lia.
Qed.
Lemma read_exact_short n chunks : (length (concat chunks) < n)%nat -> read_exact n chunks = None.
Proof.
  intros H. pose proof (read_exact_spec chunks n) as S. destruct (read_exact n chunks) as [[x r]|]; [|reflexivity].
  exfalso. clear -S H. lia.
Qed.

(** ** One object *)
Section one.
  Variable ok : list bop -> bop -> bool.
  Variable lsize : N.
  Hypothesis Hl : 0 < lsize.
  Variables key data : list N.
  Let size := N.of_nat (length data).
  Let parts := part_count lsize data.

  Lemma parts_lt i : (i < parts)%nat <-> N.of_nat i * lsize < size.
  Proof using Hl.
    unfold parts, part_count. fold size.
    pose proof (div_ceil_spec size lsize ltac:(clear -Hl; lia)) as [A B].
    revert A B. generalize (div_ceil size lsize). generalize size. clear size parts. intros sz c A B. split; intros H.
    - assert (N.of_nat i + 1 <= c) by (clear -H; lia).
      assert ((N.of_nat i + 1) * lsize <= c * lsize) by (apply N.mul_le_mono_r; assumption). clear -H1 B. lia.
    - destruct (N.lt_ge_cases (N.of_nat i) c) as [|G]; [clear -H0; lia|].
      assert (c * lsize <= N.of_nat i * lsize) by (apply N.mul_le_mono_r; assumption). clear -H H0 A. lia.
  Qed.
  Lemma parts_le_size : (parts <= length data)%nat.
  Proof using Hl.
    destruct parts as [|p] eqn:E; [apply Nat.le_0_l|].
    assert (p < parts)%nat as Hp by (rewrite E; apply Nat.lt_succ_diag_r). apply parts_lt in Hp. unfold size in Hp.
    clear -Hp Hl. assert (N.of_nat p * 1 <= N.of_nat p * lsize) by (apply N.mul_le_mono_l; lia). lia.
  Qed.

  (** The slice of part [i], and what follows it. *)
  Lemma part_split i : (i < parts)%nat ->
    let n := N.to_nat (N.min lsize (size - N.of_nat i * lsize)) in
    take (N.to_nat lsize) (drop (N.to_nat (N.of_nat i * lsize)) data) = take n (drop (N.to_nat (N.of_nat i * lsize)) data)
    /\ length (take n (drop (N.to_nat (N.of_nat i * lsize)) data)) = n
    /\ drop (N.to_nat (N.of_nat i * lsize)) data =
         take n (drop (N.to_nat (N.of_nat i * lsize)) data) ++ drop (N.to_nat (N.of_nat (S i) * lsize)) data.
  Proof using Hl.
    intros Hi n. apply parts_lt in Hi. unfold size in *.
    assert (L : length (drop (N.to_nat (N.of_nat i * lsize)) data) = (length data - N.to_nat (N.of_nat i * lsize))%nat) by apply drop_length.
    assert (Em : N.of_nat (S i) * lsize = N.of_nat i * lsize + lsize) by (clear; lia).
    subst n. rewrite Em. revert Hi L. generalize (N.of_nat i * lsize). intros o Hi L.
    split; [|split].
    - destruct (N.le_gt_cases lsize (N.of_nat (length data) - o)) as [G|G].
      + rewrite N.min_l by exact G. reflexivity.
      + rewrite N.min_r by (clear -G; lia). rewrite !firstn_all2 by (rewrite L; clear -G; lia). reflexivity.
    - rewrite take_length, L. clear -Hi. lia.
    - destruct (N.le_gt_cases lsize (N.of_nat (length data) - o)) as [G|G].
      + rewrite N.min_l by exact G. replace (N.to_nat (o + lsize)) with (N.to_nat o + N.to_nat lsize)%nat by (clear; lia).
        rewrite <- drop_drop, take_drop. reflexivity.
      + rewrite (drop_ge data (N.to_nat (o + lsize))) by (clear -G Hi; lia).
        rewrite app_nil_r, take_ge by (rewrite L; clear -G Hi; lia). reflexivity.
  Qed.

  Lemma batch_parts_S fuel offset body log :
    batch_parts ok lsize fuel key size offset body log =
    if size <=? offset then (log, Some body) else
    match fuel with
    | O => (log, None)
    | S fuel =>
        match read_exact (N.to_nat (N.min lsize (size - offset))) body with
        | None => (log, None)
        | Some (chunk, body) =>
            let op := BWrite key offset chunk in
            if ok log op then batch_parts ok lsize fuel key size (offset + lsize) body (op :: log)
            else (op :: log, None)
        end
    end.
  Proof using. destruct fuel; reflexivity. Qed.

  (** All the data is in the body. *)
  Lemma parts_full c : forall i fuel body log tail,
    (i + c = parts)%nat -> (c <= fuel)%nat ->
    concat body = drop (N.to_nat (N.of_nat i * lsize)) data ++ tail ->
    match batch_parts ok lsize fuel key size (N.of_nat i * lsize) body log with
    | (log', Some body') =>
        let ops := map (part_op lsize key data) (seq i c) in
        accepts ok log ops /\ log' = reverse ops ++ log /\ concat body' = tail
    | (log', None) => refused ok log (map (part_op lsize key data) (seq i c)) log'
    end.
  Proof using Hl.
    induction c as [|c IH]; intros i fuel body log tail Hic Hf Hb; rewrite batch_parts_S.
    - assert (G : ~ (i < parts)%nat) by (clear -Hic; lia). rewrite parts_lt in G. apply N.nlt_ge in G.
      replace (size <=? N.of_nat i * lsize) with true by (symmetry; apply N.leb_le, G).
      cbn [seq map accepts]. rewrite reverse_nil. split; [exact I|]. split; [reflexivity|].
      rewrite Hb, drop_ge; [reflexivity|]. unfold size in G. clear -G. lia.
    - assert (G : (i < parts)%nat) by (clear -Hic; lia). pose proof (proj1 (parts_lt i) G) as G'.
      replace (size <=? N.of_nat i * lsize) with false by (symmetry; apply N.leb_gt, G').
      destruct fuel as [|fuel]; [exfalso; clear -Hf; lia|].
      destruct (part_split i G) as (E1 & E2 & E3).
      rewrite E3, <- app_assoc in Hb.
      destruct (read_exact_some _ _ _ _ Hb E2) as (rest & Er & Hr). rewrite Er. cbv zeta.
      rewrite <- E1. change (BWrite key (N.of_nat i * lsize) (take (N.to_nat lsize) (drop (N.to_nat (N.of_nat i * lsize)) data))) with (part_op lsize key data i).
      cbn [seq map]. destruct (ok log (part_op lsize key data i)) eqn:Eo.
      + specialize (IH (S i) fuel rest (part_op lsize key data i :: log) tail ltac:(clear -Hic; lia) ltac:(clear -Hf; lia) Hr).
        replace (N.of_nat i * lsize + lsize) with (N.of_nat (S i) * lsize) by (clear; lia).
        destruct (batch_parts ok lsize fuel key size (N.of_nat (S i) * lsize) rest (part_op lsize key data i :: log)) as [log' [body'|]].
        * destruct IH as (I1 & I2 & I3). cbv zeta. cbn [accepts]. split; [split; assumption|]. split; [|exact I3].
          rewrite I2, reverse_cons, <- app_assoc. reflexivity.
        * apply (refused_app_r ok log [part_op lsize key data i]); [cbn; tauto|exact IH].
      + exists [], (part_op lsize key data i), (map (part_op lsize key data) (seq (S i) c)).
        repeat split. exact Eo.
  Qed.

  (** The body ends within the data. *)
  Lemma parts_cut c : forall i fuel body log x,
    (i + c = parts)%nat -> concat body ++ x = drop (N.to_nat (N.of_nat i * lsize)) data -> x <> [] ->
    exists log', batch_parts ok lsize fuel key size (N.of_nat i * lsize) body log = (log', None)
      /\ let ops := map (part_op lsize key data) (seq i c) in
         refused ok log ops log' \/
         exists ops1 ops2, ops = ops1 ++ ops2 /\ accepts ok log ops1 /\ log' = reverse ops1 ++ log.
  Proof using Hl.
    induction c as [|c IH]; intros i fuel body log x Hic Hb Hx; rewrite batch_parts_S.
    - exfalso. assert (G : ~ (i < parts)%nat) by (clear -Hic; lia). rewrite parts_lt in G. apply N.nlt_ge in G.
      rewrite (drop_ge data) in Hb by (unfold size in G; clear -G; lia). apply app_eq_nil in Hb as [_ ->]. congruence.
    - assert (G : (i < parts)%nat) by (clear -Hic; lia). pose proof (proj1 (parts_lt i) G) as G'.
      replace (size <=? N.of_nat i * lsize) with false by (symmetry; apply N.leb_gt, G').
      destruct fuel as [|fuel]; [exists log; split; [reflexivity|]; right; exists [], (map (part_op lsize key data) (seq i (S c))); repeat split|].
      destruct (part_split i G) as (E1 & E2 & E3).
      set (n := N.to_nat (N.min lsize (size - N.of_nat i * lsize))) in *.
      set (sl := take n (drop (N.to_nat (N.of_nat i * lsize)) data)) in *.
      destruct (le_lt_dec n (length (concat body))) as [Gn|Gn].
      + assert (Hsplit : concat body = sl ++ drop n (concat body)).
        { transitivity (take n (concat body) ++ drop n (concat body)); [symmetry; apply take_drop|]. f_equal.
          subst sl. rewrite <- Hb. rewrite take_app_le by exact Gn. reflexivity. }
        destruct (read_exact_some n body _ _ Hsplit E2) as (rest & Er & Hr). rewrite Er. cbv zeta.
        assert (Hb' : concat rest ++ x = drop (N.to_nat (N.of_nat (S i) * lsize)) data).
        { rewrite Hr. rewrite E3 in Hb. rewrite Hsplit, <- app_assoc in Hb. apply app_inv_head in Hb. exact Hb. }
        subst sl. rewrite <- E1. change (BWrite key (N.of_nat i * lsize) (take (N.to_nat lsize) (drop (N.to_nat (N.of_nat i * lsize)) data))) with (part_op lsize key data i).
        cbn [seq map]. destruct (ok log (part_op lsize key data i)) eqn:Eo.
        * specialize (IH (S i) fuel rest (part_op lsize key data i :: log) x ltac:(clear -Hic; lia) Hb' Hx).
          replace (N.of_nat i * lsize + lsize) with (N.of_nat (S i) * lsize) by (clear; lia).
          destruct IH as (log' & -> & IH). exists log'. split; [reflexivity|]. destruct IH as [IH|(o1 & o2 & IH1 & IH2 & IH3)].
          -- left. apply (refused_app_r ok log [part_op lsize key data i]); [cbn; tauto|exact IH].
          -- right. exists (part_op lsize key data i :: o1), o2. rewrite IH1. split; [reflexivity|].
             split; [cbn [accepts]; tauto|]. rewrite IH3, reverse_cons, <- app_assoc. reflexivity.
        * eexists. split; [reflexivity|]. left. exists [], (part_op lsize key data i), (map (part_op lsize key data) (seq (S i) c)).
          repeat split. exact Eo.
      + rewrite read_exact_short by exact Gn. exists log. split; [reflexivity|]. right.
        exists [], (map (part_op lsize key data) (seq i (S c))). repeat split.
  Qed.
End one.

Lemma batch_loop_S ok lsize fuel body log created :
  batch_loop ok lsize (S fuel) body log created =
  match read_exact 2 body with
  | None => (log, created)
  | Some (key_len_raw, body) =>
  match read_exact (N.to_nat (be_val key_len_raw)) body with
  | None => (log, created)
  | Some (key, body) =>
  match read_exact 5 body with
  | None => (log, created)
  | Some (size_raw, body) =>
      let size := be_val size_raw in
      let op := BCreate key size in
      if negb (ok log op) then (op :: log, created) else
      match batch_parts ok lsize (N.to_nat size) key size 0 body (op :: log) with
      | (log, None) => (log, created)
      | (log, Some body) =>
          let op := BCommit key in
          if ok log op then batch_loop ok lsize fuel body (op :: log) (created + 1)
          else (op :: log, created)
      end
  end end end.
Proof. reflexivity. Qed.

Definition uploads (lsize : N) (es : list (list N * list N)) : list bop := concat (map (object_ops lsize) es).

Lemma entry_bytes_length e : (7 <= length (entry_bytes e))%nat.
Proof. unfold entry_bytes, batch_entry. rewrite !app_length, !be_bytes_length. lia. Qed.

(** One whole entry at the front of the body. *)
Lemma entry_step ok lsize fuel body log created e tail :
  0 < lsize -> valid_entry e -> concat body = entry_bytes e ++ tail ->
  (exists log', batch_loop ok lsize (S fuel) body log created = (log', created) /\ refused ok log (object_ops lsize e) log')
  \/ exists body', accepts ok log (object_ops lsize e) /\ concat body' = tail
      /\ batch_loop ok lsize (S fuel) body log created = batch_loop ok lsize fuel body' (reverse (object_ops lsize e) ++ log) (created + 1).
Proof.
  intros Hl [Hk Hd] Hb. destruct e as [key data]. cbn [fst snd] in *. unfold entry_bytes, batch_entry in Hb. cbn [fst snd] in Hb.
  rewrite <- !app_assoc in Hb. rewrite batch_loop_S.
  destruct (read_exact_some 2 _ _ _ Hb (be_bytes_length _ _)) as (b1 & -> & Hb1).
  rewrite (be_val_bytes 2) by exact Hk. rewrite Nat2N.id.
  destruct (read_exact_some (length key) _ _ _ Hb1 eq_refl) as (b2 & -> & Hb2).
  destruct (read_exact_some 5 _ _ _ Hb2 (be_bytes_length _ _)) as (b3 & -> & Hb3).
  cbv zeta. rewrite (be_val_bytes 5) by exact Hd. rewrite Nat2N.id.
  set (cr := BCreate key (N.of_nat (length data))). unfold object_ops. fold cr.
  destruct (ok log cr) eqn:Ec; cbn [negb].
  2: { left. eexists. split; [reflexivity|]. exists [], cr, (map (part_op lsize key data) (seq 0 (part_count lsize data)) ++ [BCommit key]). repeat split. exact Ec. }
  pose proof (parts_full ok lsize Hl key data (part_count lsize data) 0 (length data) b3 (cr :: log) tail eq_refl
    (parts_le_size lsize Hl data) Hb3) as P.
  change (N.of_nat 0 * lsize) with 0 in P.
  destruct (batch_parts ok lsize (length data) key (N.of_nat (length data)) 0 b3 (cr :: log)) as [log' [body'|]].
  - destruct P as (P1 & P2 & P3). destruct (ok log' (BCommit key)) eqn:Eo.
    + right. exists body'. split; [|split; [exact P3|]].
      * cbn [accepts]. split; [exact Ec|]. apply accepts_app. split; [exact P1|]. rewrite <- P2. cbn [accepts]. tauto.
      * f_equal. rewrite P2, reverse_cons, reverse_app. cbn [app]. rewrite reverse_singleton. cbn [app].
        rewrite <- app_assoc. reflexivity.
    + left. eexists. split; [reflexivity|]. apply (refused_app_r ok log [cr]); [cbn [accepts]; tauto|].
      cbn [reverse]. change (reverse [cr] ++ log) with (cr :: log). apply (refused_app_r _ _ _ [BCommit key]); [exact P1|].
      rewrite <- P2. exists [], (BCommit key), []. repeat split. exact Eo.
  - left. eexists. split; [reflexivity|]. apply (refused_app_r ok log [cr]); [cbn [accepts]; tauto|].
    change (reverse [cr] ++ log) with (cr :: log). apply refused_app_l. exact P.
Qed.

(** The body ends inside an entry. *)
Lemma entry_cut ok lsize fuel body log created e x :
  0 < lsize -> valid_entry e -> concat body ++ x = entry_bytes e -> x <> [] ->
  exists log', batch_loop ok lsize fuel body log created = (log', created)
    /\ (refused ok log (object_ops lsize e) log' \/
        exists ops1 ops2, object_ops lsize e = ops1 ++ ops2 /\ ops2 <> [] /\ accepts ok log ops1 /\ log' = reverse ops1 ++ log).
Proof.
  intros Hl [Hk Hd] Hb Hx. destruct fuel as [|fuel].
  { exists log. split; [reflexivity|]. right. exists [], (object_ops lsize e). repeat split. destruct e; discriminate. }
  destruct e as [key data]. cbn [fst snd] in *. unfold entry_bytes, batch_entry in Hb. cbn [fst snd] in Hb.
  set (cr := BCreate key (N.of_nat (length data))). unfold object_ops. fold cr.
  assert (Stop : exists log', (log, created) = (log', created) /\ (refused ok log (cr :: map (part_op lsize key data) (seq 0 (part_count lsize data)) ++ [BCommit key]) log' \/
    exists ops1 ops2, cr :: map (part_op lsize key data) (seq 0 (part_count lsize data)) ++ [BCommit key] = ops1 ++ ops2 /\ ops2 <> [] /\ accepts ok log ops1 /\ log' = reverse ops1 ++ log)).
  { exists log. split; [reflexivity|]. right. exists [], (cr :: map (part_op lsize key data) (seq 0 (part_count lsize data)) ++ [BCommit key]).
    repeat split; discriminate. }
  assert (Cut : forall (a rest : list N) (b : list (list N)), concat b ++ x = a ++ rest ->
    (length (concat b) < length a)%nat \/ exists r', concat b = a ++ r' /\ r' ++ x = rest).
  { intros a rest b E. destruct (le_lt_dec (length a) (length (concat b))) as [G|G]; [right|left; exact G].
    exists (drop (length a) (concat b)). split.
    - transitivity (take (length a) (concat b) ++ drop (length a) (concat b)); [symmetry; apply take_drop|]. f_equal.
      apply (f_equal (take (length a))) in E. rewrite take_app_le in E by exact G. rewrite E, take_app_alt by reflexivity. reflexivity.
    - apply (f_equal (drop (length a))) in E. rewrite drop_app_le in E by exact G. rewrite E, drop_app_alt by reflexivity. reflexivity. }
  rewrite batch_loop_S.
  destruct (Cut _ _ _ Hb) as [G|(r1 & E1 & Hb1)].
  { rewrite be_bytes_length in G. rewrite read_exact_short by exact G. exact Stop. }
  destruct (read_exact_some 2 _ _ _ E1 (be_bytes_length _ _)) as (b1 & -> & Eb1). rewrite <- Eb1 in Hb1.
  rewrite (be_val_bytes 2) by exact Hk. rewrite Nat2N.id.
  destruct (Cut _ _ _ Hb1) as [G|(r2 & E2 & Hb2)].
  { rewrite read_exact_short by exact G. exact Stop. }
  destruct (read_exact_some (length key) _ _ _ E2 eq_refl) as (b2 & -> & Eb2). rewrite <- Eb2 in Hb2.
  destruct (Cut _ _ _ Hb2) as [G|(r3 & E3 & Hb3)].
  { rewrite be_bytes_length in G. rewrite read_exact_short by exact G. exact Stop. }
  destruct (read_exact_some 5 _ _ _ E3 (be_bytes_length _ _)) as (b3 & -> & Eb3). rewrite <- Eb3 in Hb3.
  cbv zeta. rewrite (be_val_bytes 5) by exact Hd. rewrite Nat2N.id. fold cr.
  destruct (ok log cr) eqn:Ec; cbn [negb].
  2: { eexists. split; [reflexivity|]. left. exists [], cr, (map (part_op lsize key data) (seq 0 (part_count lsize data)) ++ [BCommit key]). repeat split. exact Ec. }
  pose proof (parts_cut ok lsize Hl key data (part_count lsize data) 0 (length data) b3 (cr :: log) x eq_refl) as P.
  change (N.of_nat 0 * lsize) with 0 in P. change (drop (N.to_nat 0) data) with data in P. specialize (P Hb3 Hx).
  destruct P as (log' & -> & P). exists log'. split; [reflexivity|]. destruct P as [P|(o1 & o2 & P1 & P2 & P3)].
  - left. apply (refused_app_r ok log [cr]); [cbn [accepts]; tauto|]. apply refused_app_l. exact P.
  - right. exists (cr :: o1), (o2 ++ [BCommit key]). split; [rewrite P1, <- app_assoc; reflexivity|].
    split; [intros E; apply app_eq_nil in E as [_ E]; discriminate E|]. split; [cbn [accepts]; tauto|].
    rewrite P3, reverse_cons, <- app_assoc. reflexivity.
Qed.
