(** Replay reads back what was laid out in the log. *)
From stdpp Require Import base numbers list list_numbers option.
From Coq Require Import ZifyBool ZifyNat ZifyN.
From Verif Require Import Util Bytes PageIOModel PageIOProofs KvCodecModel KvCodecSpec KvCodecProofs KvLogModel KvLogSpec.
Open Scope N_scope.
Ltac Zify.zify_post_hook ::= idtac.

Section layout.
Context (L sp M : N).

(** [laid dev v ops v']: read from virtual offset [v], the log area holds records
    of [ops] and markers, ending at [v']; no record or wrap skip exceeds [M]. *)
Inductive laid (dev : device) : N -> list ltask -> N -> Prop :=
| laid_nil v : laid dev v [] v
| laid_op v t s ops v' : valid_task t -> task_serialise t = Some s -> N.of_nat (length s) <= M ->
    (forall i b, s !! i = Some b -> dev ((v + N.of_nat i) mod L) = b) ->
    laid dev (v + N.of_nat (length s)) ops v' -> laid dev v (t :: ops) v'
| laid_pad v ops v' : dev (v mod L) = 3 -> v mod 2 ^ sp <> 0 ->
    laid dev (v + (2 ^ sp - v mod 2 ^ sp)) ops v' -> laid dev v ops v'
| laid_wrap v ops v' : dev (v mod L) = 4 -> v mod L <> 0 -> L - v mod L <= M ->
    laid dev (v + (L - v mod L)) ops v' -> laid dev v ops v'.

Lemma laid_le dev v ops v' : laid dev v ops v' -> v <= v'.
Proof. induction 1; lia. Qed.
Lemma laid_app dev v a m b v' : laid dev v a m -> laid dev m b v' -> laid dev v (a ++ b) v'.
Proof.
  induction 1 as [v|v t s ops v1 Hv Hs Hm Hb _ IH|v ops v1 Hd Hp _ IH|v ops v1 Hd Hp Hm _ IH]; intros H2; cbn [app].
  - exact H2.
  - eapply laid_op; eauto.
  - eapply laid_pad; eauto.
  - eapply laid_wrap; eauto.
Qed.
Lemma task_serialise_nonempty t s : task_serialise t = Some s -> (0 < length s)%nat.
Proof.
  destruct t as [k d|k]; cbn; destruct (key_serialise k); cbn; try discriminate.
  - destruct (data_serialise d); cbn; [|discriminate]. intros E. apply (inj Some) in E. subst s. cbn. lia.
  - intros E. apply (inj Some) in E. subst s. cbn. lia.
Qed.
Lemma laid_ext dev dev' v ops v' : 0 < L -> laid dev v ops v' ->
  (forall w, v <= w < v' -> dev' (w mod L) = dev (w mod L)) -> laid dev' v ops v'.
Proof.
  intros HL. induction 1 as [v|v t s ops v1 Hv Hs Hm Hb H IH|v ops v1 Hd Hp H IH|v ops v1 Hd Hp Hm H IH]; intros He.
  - constructor.
  - pose proof (laid_le _ _ _ _ H) as Hle. eapply laid_op; eauto.
    + intros i b Hi. apply lookup_lt_Some in Hi as Hl. rewrite He by lia. auto.
    + apply IH. intros w Hw. apply He. lia.
  - pose proof (laid_le _ _ _ _ H) as Hle. pose proof (N.mod_lt v (2 ^ sp) ltac:(apply N.pow_nonzero; discriminate)) as Hlt.
    eapply laid_pad; eauto; [rewrite He by clia Hle Hlt; exact Hd|].
    apply IH. intros w Hw. apply He. lia.
  - pose proof (laid_le _ _ _ _ H) as Hle. pose proof (N.mod_lt v L ltac:(lia)) as Hlt.
    eapply laid_wrap; eauto; [rewrite He by clia Hle Hlt; exact Hd|].
    apply IH. intros w Hw. apply He. lia.
Qed.
End layout.
Lemma laid_mono L sp M M' dev v ops v' : M <= M' -> laid L sp M dev v ops v' -> laid L sp M' dev v ops v'.
Proof. intros Hm. induction 1; [constructor|eapply laid_op|eapply laid_pad|eapply laid_wrap]; eauto; lia. Qed.

(** ** The replay buffer. *)
Definition view (L : N) (dev : device) (v : N) (n : nat) : list N := (fun i => dev ((v + N.of_nat i) mod L)) <$> seq 0 n.
Lemma view_length L dev v n : length (view L dev v n) = n.
Proof. unfold view. rewrite fmap_length, seq_length. reflexivity. Qed.
Lemma view_lookup L dev v n i : (i < n)%nat -> view L dev v n !! i = Some (dev ((v + N.of_nat i) mod L)).
Proof. intros H. unfold view. rewrite list_lookup_fmap, lookup_seq_lt by exact H. reflexivity. Qed.
Lemma view_app L dev v n m : view L dev v (n + m) = view L dev v n ++ view L dev (v + N.of_nat n) m.
Proof.
  apply list_eq. intros i. destruct (decide (i < n + m)%nat) as [H|H].
  - rewrite view_lookup by exact H. destruct (decide (i < n)%nat) as [Hn|Hn].
    + rewrite lookup_app_l by (rewrite view_length; exact Hn). rewrite view_lookup by exact Hn. reflexivity.
    + rewrite lookup_app_r by (rewrite view_length; lia). rewrite view_length, view_lookup by lia. do 3 f_equal. lia.
  - rewrite !lookup_ge_None_2; rewrite ?app_length, ?view_length; try lia; reflexivity.
Qed.
Lemma view_drop L dev v n m : (m <= n)%nat -> drop m (view L dev v n) = view L dev (v + N.of_nat m) (n - m).
Proof.
  intros H. replace n with (m + (n - m))%nat at 1 by lia. rewrite view_app. rewrite <- (view_length L dev v m) at 1. apply drop_app.
Qed.
Lemma mod_add_small v i L : 0 < L -> i < L - v mod L -> (v + i) mod L = v mod L + i.
Proof.
  intros HL Hi. pose proof (N.div_mod v L ltac:(lia)) as E. rewrite E at 1.
  rewrite <- N.add_assoc, (N.mul_comm L), N.add_comm, N.mod_add by lia. apply N.mod_small. pose proof (N.mod_lt v L ltac:(lia)). lia.
Qed.
Lemma dev_read_view L dev v n : 0 < L -> n <= L - v mod L -> dev_read dev (v mod L) n = view L dev v (N.to_nat n).
Proof.
  intros HL Hn. unfold dev_read, view. apply list_fmap_ext. intros j i Hi. apply lookup_seq in Hi as [-> Hi].
  rewrite mod_add_small by lia. reflexivity.
Qed.

Definition bufok (L sp : N) (dev : device) (vend vnext : N) (b : lbuf) : Prop :=
  lb_drained b <= N.of_nat (length (lb_buf b)) /\ lb_base b + lb_drained b = vnext /\
  lb_buf b = view L dev (lb_base b) (length (lb_buf b)) /\
  (lb_base b + N.of_nat (length (lb_buf b))) mod 2 ^ sp = 0 /\
  lb_base b + N.of_nat (length (lb_buf b)) <= vend.

Lemma mod0_min a b m : a mod m = 0 -> b mod m = 0 -> N.min a b mod m = 0.
Proof. intros Ha Hb. destruct (N.min_spec a b) as [[_ ->]|[_ ->]]; assumption. Qed.

Lemma refill_ok c dev vend vnext : good_conf c -> vend mod 2 ^ lc_spage c = 0 -> forall fuel b,
  bufok (lc_len c) (lc_spage c) dev vend vnext b ->
  vend - (lb_base b + N.of_nat (length (lb_buf b))) <= N.of_nat fuel ->
  exists b', refill fuel c dev vnext vend b = Some b' /\ bufok (lc_len c) (lc_spage c) dev vend vnext b' /\
    (lc_bufsize c <= N.of_nat (length (lb_buf b')) - lb_drained b' \/ lb_base b' + N.of_nat (length (lb_buf b')) = vend).
Proof.
  intros (HL & HLa & HB & HBa & Hsp) Hve. set (p := 2 ^ lc_spage c) in *. assert (0 < p) as Hp by (apply N.neq_0_lt_0, N.pow_nonzero; discriminate).
  induction fuel as [|fuel IH]; intros b Hb Hf; pose proof Hb as (Hd & Hv & Hbuf & Ha & He); fold p in Ha; cbn [refill].
  all: assert (vnext + (N.of_nat (length (lb_buf b)) - lb_drained b) = lb_base b + N.of_nat (length (lb_buf b))) as Eva by (clear -Hd Hv; lia).
  all: destruct (N.ltb_spec (N.of_nat (length (lb_buf b))) (lb_drained b)) as [Hx|_]; [clear -Hx Hd; lia|].
  all: rewrite Eva, mod_pow2_spec; fold p; rewrite Ha; cbn [negb N.eqb].
  all: destruct (N.ltb_spec vend (lb_base b + N.of_nat (length (lb_buf b)))) as [Hx|_]; [clear -Hx He; lia|].
  all: destruct ((lc_bufsize c <=? N.of_nat (length (lb_buf b)) - lb_drained b) || (lb_base b + N.of_nat (length (lb_buf b)) =? vend)) eqn:Eg.
  all: try (exists b; split; [reflexivity|]; split; [exact Hb|]; apply orb_prop in Eg as [Eg|Eg];
       [left; apply N.leb_le; exact Eg|right; apply N.eqb_eq; exact Eg]).
  all: apply orb_false_elim in Eg as [Eg1 Eg2]; apply N.leb_gt in Eg1; apply N.eqb_neq in Eg2.
  - exfalso. clear -Hf He Eg2. lia.
  - set (va := lb_base b + N.of_nat (length (lb_buf b))) in *.
    pose proof (N.mod_lt va (lc_len c) ltac:(clear -HL; lia)) as Hmod.
    set (n := N.min (N.min (lc_bufsize c) (vend - va)) (lc_len c - va mod lc_len c)).
    assert (0 < n) as Hn0 by (clear -HL HB Hmod He Eg2; lia).
    assert (n <= vend - va /\ n <= lc_len c - va mod lc_len c) as [Hn1 Hn2] by (clear; lia).
    rewrite dev_read_view by assumption.
    assert (drop (N.to_nat (lb_drained b)) (lb_buf b) ++ view (lc_len c) dev va (N.to_nat n) = view (lc_len c) dev vnext (N.to_nat (N.of_nat (length (lb_buf b)) - lb_drained b + n))) as Ebuf.
    { rewrite Hbuf at 1. rewrite view_drop by (clear -Hd; lia). rewrite N2Nat.inj_add, view_app. rewrite N2Nat.id, Hv. f_equal.
      - f_equal. clear -Hd; lia.
      - f_equal. subst va. clear -Hd Hv; lia. }
    rewrite Ebuf. apply IH.
    + unfold bufok. cbn [lb_base lb_buf lb_drained]. fold p. rewrite view_length, Hv, N2Nat.id.
      assert (vnext + (N.of_nat (length (lb_buf b)) - lb_drained b + n) = va + n) as -> by (subst va; clear -Hd Hv; lia).
      repeat split.
      * clear; lia.
      * apply N.add_0_r.
      * rewrite N.add_mod by (clear -Hp; lia). rewrite Ha. rewrite N.add_0_l, N.mod_mod by (clear -Hp; lia).
        apply mod0_min; [apply mod0_min; [exact HBa|]|].
        -- apply mod_sub_0; [clear -Hp; lia|assumption|assumption].
        -- apply mod_sub_0; [clear -Hp; lia|assumption|].
           rewrite (N.mod_eq va (lc_len c)) by (clear -HL; lia). apply mod_sub_0; [clear -Hp; lia|assumption|].
           rewrite N.mul_mod, HLa by (clear -Hp; lia). rewrite N.mul_0_l. apply N.mod_0_l. clear -Hp; lia.
      * clear -Hn1 He Eg2. lia.
    + cbn [lb_base lb_buf]. rewrite view_length, Hv, N2Nat.id. subst va. clear -Hn0 Hn1 Hf Hd Hv Eg2 He. lia.
Qed.

(** ** Reading one record. *)
Lemma task_parse t s r : valid_task t -> task_serialise t = Some s ->
  exists tag s', s = tag :: s' /\
  match t with
  | TUpsert k d => tag = 1 /\ exists r1, key_deserialise (s' ++ r) = Some (k, r1) /\ data_deserialise r1 = Some (d, r)
  | TDelete k => tag = 2 /\ key_deserialise (s' ++ r) = Some (k, r)
  end.
Proof.
  destruct t as [k d|k]; cbn [valid_task task_serialise].
  - intros [Hk Hd]. rewrite key_serialise_enc by exact Hk. rewrite data_serialise_enc by exact Hd. cbn [mbind option_bind].
    intros E. apply (inj Some) in E. subst s. eexists _, _. split; [reflexivity|]. split; [reflexivity|].
    eexists. rewrite <- app_assoc. rewrite key_deserialise_enc by exact Hk. split; [reflexivity|]. apply data_deserialise_enc. exact Hd.
  - intros Hk. rewrite key_serialise_enc by exact Hk. cbn [mbind option_bind]. intros E. apply (inj Some) in E. subst s.
    eexists _, _. split; [reflexivity|]. split; [reflexivity|]. apply key_deserialise_enc. exact Hk.
Qed.

Lemma replay_S fuel c dev vend b : replay (S fuel) c dev vend b =
  let vnext := lb_base b + lb_drained b in
  if vnext =? vend then Some [] else
      b ← refill (N.to_nat (vend - vnext)) c dev vnext vend b;
      let rd := drop (N.to_nat (lb_drained b)) (lb_buf b) in
      let advance to_skip := {| lb_base := lb_base b; lb_buf := lb_buf b; lb_drained := lb_drained b + to_skip |} in
      match rd with
      | [] => None
      | tag :: rd1 =>
          if tag =? 1 then
            '(k, rd2) ← key_deserialise rd1;
            '(d, rd3) ← data_deserialise rd2;
            l ← replay fuel c dev vend (advance (N.of_nat (length rd) - N.of_nat (length rd3)));
            Some (TUpsert k d :: l)
          else if tag =? 2 then
            '(k, rd2) ← key_deserialise rd1;
            l ← replay fuel c dev vend (advance (N.of_nat (length rd) - N.of_nat (length rd2)));
            Some (TDelete k :: l)
          else if tag =? 3 then
            let to_skip := 2 ^ lc_spage c - mod_pow2 vnext (lc_spage c) in
            if (0 <? to_skip) && (to_skip <? 2 ^ lc_spage c) then replay fuel c dev vend (advance to_skip) else None
          else if tag =? 4 then
            let to_skip := lc_len c - vnext mod lc_len c in
            if (0 <? to_skip) && (to_skip <? lc_len c) then replay fuel c dev vend (advance to_skip) else None
          else None
      end.
Proof. reflexivity. Qed.

Lemma replay_laid c dev M v ops vend : good_conf c -> vend mod 2 ^ lc_spage c = 0 -> M <= lc_bufsize c ->
  laid (lc_len c) (lc_spage c) M dev v ops vend -> forall fuel b,
  bufok (lc_len c) (lc_spage c) dev vend v b -> vend - v <= N.of_nat fuel ->
  replay fuel c dev vend b = Some ops.
Proof.
  intros Hc Hve HM H. pose proof Hc as (HL & HLa & HB & HBa & Hsp).
  assert (0 < 2 ^ lc_spage c) as Hp by (apply N.neq_0_lt_0, N.pow_nonzero; discriminate).
  assert (forall fuel b v, bufok (lc_len c) (lc_spage c) dev vend v b -> v < vend -> vend - v <= N.of_nat (S fuel) ->
    exists b', refill (N.to_nat (vend - v)) c dev v vend b = Some b' /\ bufok (lc_len c) (lc_spage c) dev vend v b' /\
      (let n := (length (lb_buf b') - N.to_nat (lb_drained b'))%nat in
       drop (N.to_nat (lb_drained b')) (lb_buf b') = view (lc_len c) dev v n /\ (0 < n)%nat /\
       (lc_bufsize c <= N.of_nat n \/ v + N.of_nat n = vend))) as Hrefill.
  { intros fuel b v0 Hb Hlt Hf. destruct (refill_ok c dev vend v0 Hc Hve (N.to_nat (vend - v0)) b Hb) as (b' & E & Hb' & Hend).
    { destruct Hb as (? & ? & _). lia. }
    exists b'. split; [exact E|]. split; [exact Hb'|]. destruct Hb' as (Hd & Hv & Hbuf & Ha & He). cbv zeta.
    split; [rewrite Hbuf at 1; rewrite view_drop by lia; rewrite N2Nat.id, Hv; reflexivity|]. lia. }
  induction H as [v|v t s ops v1 Hv Hs Hm Hb Hl IH|v ops v1 Hd Hpm Hl IH|v ops v1 Hd Hpm Hm Hl IH]; intros fuel b Hbuf Hf.
  - destruct Hbuf as (_ & E & _). destruct fuel; cbn [replay]; rewrite E, N.eqb_refl; reflexivity.
  - pose proof (laid_le _ _ _ _ _ _ _ Hl) as Hle. pose proof (task_serialise_nonempty _ _ Hs) as Hne.
    destruct fuel as [|fuel]; [lia|]. rewrite replay_S.
    destruct (Hrefill fuel b v Hbuf ltac:(lia) Hf) as (b' & E & Hb' & Erd & Hn0 & Hn).
    pose proof Hbuf as (_ & Ev & _). cbv zeta. rewrite Ev. destruct (N.eqb_spec v v1) as [?|_]; [lia|]. rewrite E. cbn [mbind option_bind].
    set (n := (length (lb_buf b') - N.to_nat (lb_drained b'))%nat) in *.
    assert (length s <= n)%nat as Hsn by lia.
    assert (view (lc_len c) dev v n = s ++ view (lc_len c) dev (v + N.of_nat (length s)) (n - length s)) as Esp.
    { replace n with (length s + (n - length s))%nat at 1 by lia. rewrite view_app. f_equal.
      apply list_eq. intros i. destruct (decide (i < length s)%nat) as [Hi|Hi].
      - rewrite view_lookup by exact Hi. destruct (lookup_lt_is_Some_2 s i Hi) as [x Hx]. rewrite Hx. f_equal. apply Hb. exact Hx.
      - rewrite !lookup_ge_None_2; rewrite ?view_length; try lia; reflexivity. }
    rewrite Erd, Esp. set (r := view (lc_len c) dev (v + N.of_nat (length s)) (n - length s)).
    assert (replay fuel c dev v1 {| lb_base := lb_base b'; lb_buf := lb_buf b'; lb_drained := lb_drained b' + N.of_nat (length s) |} = Some ops) as Erec.
    { apply IH; [assumption..| |lia]. destruct Hb' as (Hd & Hv' & Hbf & Ha & He). unfold bufok. cbn [lb_base lb_buf lb_drained].
      repeat split; try assumption; lia. }
    destruct (task_parse t s r Hv Hs) as (tag & s' & -> & Ht). cbn [app].
    assert (forall x, N.of_nat (length ((tag :: s') ++ x)) - N.of_nat (length x) = N.of_nat (length (tag :: s'))) as Elen.
    { intros x. rewrite app_length. lia. }
    cbn [app] in Elen. destruct t as [k d|k].
    + destruct Ht as (-> & r1 & E1 & E2). change (1 =? 1) with true. cbv iota. rewrite E1. cbn [mbind option_bind]. rewrite E2. cbn [mbind option_bind].
      rewrite Elen, Erec. reflexivity.
    + destruct Ht as (-> & E1). change (2 =? 1) with false. change (2 =? 2) with true. cbv iota. rewrite E1. cbn [mbind option_bind].
      rewrite Elen, Erec. reflexivity.
  - pose proof (laid_le _ _ _ _ _ _ _ Hl) as Hle. pose proof (N.mod_lt v (2 ^ lc_spage c) ltac:(clear -Hp; lia)) as Hlt.
    destruct fuel as [|fuel]; [clear -Hle Hlt Hf; lia|]. rewrite replay_S.
    destruct (Hrefill fuel b v Hbuf ltac:(clear -Hle Hlt; lia) Hf) as (b' & E & Hb' & Erd & Hn0 & Hn).
    pose proof Hbuf as (_ & Ev & _). cbv zeta. rewrite Ev. destruct (N.eqb_spec v v1) as [->|Hne]; [clear -Hle Hlt; lia|].
    rewrite E. cbn [mbind option_bind]. rewrite Erd.
    set (n := (length (lb_buf b') - N.to_nat (lb_drained b'))%nat) in *.
    destruct n as [|n'] eqn:En; [clear -Hn0; lia|].
    change (view (lc_len c) dev v (S n')) with (dev ((v + N.of_nat 0) mod lc_len c) :: ((fun i => dev ((v + N.of_nat i) mod lc_len c)) <$> seq 1 n')).
    change (N.of_nat 0) with 0. rewrite N.add_0_r, Hd. cbn [N.eqb Pos.eqb]. rewrite mod_pow2_spec.
    set (m := v mod 2 ^ lc_spage c) in *. set (p := 2 ^ lc_spage c) in *.
    destruct (N.ltb_spec 0 (p - m)) as [_|Hx]; [|clear -Hx Hlt; lia]. destruct (N.ltb_spec (p - m) p) as [_|Hx]; [|clear -Hx Hpm Hlt; lia].
    cbn [andb]. apply IH; [assumption..| |clear -Hf Hlt; lia].
    destruct Hb' as (Hdr & Hv' & Hbf & Ha & He). unfold bufok. cbn [lb_base lb_buf lb_drained]. fold p. fold p in Ha.
    split; [|split; [clear -Hv'; lia|split; [exact Hbf|split; [exact Ha|exact He]]]].
    (* the end of the buffer is a page boundary beyond v *)
    set (va := lb_base b' + N.of_nat (length (lb_buf b'))) in *.
    assert (v < va) as Hva by (subst va n; clear -Hn0 En Hdr Hv'; lia).
    assert (v + (p - m) <= va) as Hgoal.
    { pose proof (N.div_mod v p ltac:(clear -Hp; lia)) as Edv. fold m in Edv. pose proof (N.div_mod va p ltac:(clear -Hp; lia)) as Eda. rewrite Ha, N.add_0_r in Eda.
      assert (v / p < va / p) as Hq.
      { apply N.nle_gt. intros Hc'. apply (N.mul_le_mono_l _ _ p) in Hc'. clear -Hc' Edv Eda Hva. lia. }
      apply N.le_succ_l in Hq. apply (N.mul_le_mono_l _ _ p) in Hq. rewrite N.mul_succ_r in Hq. clear -Hq Edv Eda Hlt. lia. }
    subst va. clear -Hgoal Hv' Hlt. lia.
  - pose proof (laid_le _ _ _ _ _ _ _ Hl) as Hle. pose proof (N.mod_lt v (lc_len c) ltac:(clear -HL; lia)) as Hlt.
    destruct fuel as [|fuel]; [clear -Hle Hlt Hf; lia|]. rewrite replay_S.
    destruct (Hrefill fuel b v Hbuf ltac:(clear -Hle Hlt; lia) Hf) as (b' & E & Hb' & Erd & Hn0 & Hn).
    pose proof Hbuf as (_ & Ev & _). cbv zeta. rewrite Ev. destruct (N.eqb_spec v v1) as [->|Hne]; [clear -Hle Hlt; lia|].
    rewrite E. cbn [mbind option_bind]. rewrite Erd.
    set (n := (length (lb_buf b') - N.to_nat (lb_drained b'))%nat) in *.
    destruct n as [|n'] eqn:En; [clear -Hn0; lia|].
    change (view (lc_len c) dev v (S n')) with (dev ((v + N.of_nat 0) mod lc_len c) :: ((fun i => dev ((v + N.of_nat i) mod lc_len c)) <$> seq 1 n')).
    change (N.of_nat 0) with 0. rewrite N.add_0_r, Hd. cbn [N.eqb Pos.eqb].
    set (m := v mod lc_len c) in *.
    destruct (N.ltb_spec 0 (lc_len c - m)) as [_|Hx]; [|clear -Hx Hlt; lia]. destruct (N.ltb_spec (lc_len c - m) (lc_len c)) as [_|Hx]; [|clear -Hx Hpm Hlt; lia].
    cbn [andb]. apply IH; [assumption..| |clear -Hf Hlt; lia].
    destruct Hb' as (Hdr & Hv' & Hbf & Ha & He). unfold bufok. cbn [lb_base lb_buf lb_drained].
    split; [|split; [clear -Hv'; lia|split; [exact Hbf|split; [exact Ha|exact He]]]].
    subst n. clear -Hn En Hm HM Hle Hv' Hdr Hlt Hn0. lia.
Qed.
