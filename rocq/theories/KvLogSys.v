(** The invariant of the running log. *)
From stdpp Require Import base numbers list list_numbers option gmap.
From Coq Require Import ZifyBool ZifyNat ZifyN.
From Verif Require Import Util Bytes PageIOModel PageIOProofs PageIOWrite KvCodecModel KvCodecSpec KvCodecProofs KvLogModel KvLogSpec KvLogProofs.
Open Scope N_scope.
Ltac Zify.zify_post_hook ::= idtac.

(** ** Lists. *)
Fixpoint index_from {A} (n : nat) (l : list A) : list (nat * A) :=
  match l with [] => [] | x :: l => (n, x) :: index_from (S n) l end.
Lemma index_from_length {A} n (l : list A) : length (index_from n l) = length l.
Proof. revert n; induction l as [|x l IH]; intros n; [reflexivity|]. cbn. rewrite IH. reflexivity. Qed.
Lemma index_from_app {A} n (l1 l2 : list A) : index_from n (l1 ++ l2) = index_from n l1 ++ index_from (n + length l1) l2.
Proof.
  revert n; induction l1 as [|x l1 IH]; intros n; cbn [app index_from length].
  - rewrite Nat.add_0_r. reflexivity.
  - rewrite IH. cbn [app]. do 3 f_equal. lia.
Qed.
Lemma index_from_snd {A} n (l : list A) : snd <$> index_from n l = l.
Proof. revert n; induction l as [|x l IH]; intros n; [reflexivity|]. cbn [index_from]. rewrite fmap_cons, IH. reflexivity. Qed.
Lemma index_from_split {A} n (l : list A) a b : a ++ b = index_from n l ->
  a = index_from n (take (length a) l) /\ b = index_from (n + length a) (drop (length a) l).
Proof.
  revert n l; induction a as [|x a IH]; intros n l E; cbn [app length take drop index_from] in *.
  - rewrite Nat.add_0_r. auto.
  - destruct l as [|y l]; [discriminate E|]. cbn in E. injection E as -> E. apply IH in E as [E1 E2]. cbn [take drop index_from]. split; [congruence|].
    rewrite E2 at 1. f_equal. lia.
Qed.
Lemma take_plus {A} (l : list A) n m : take (n + m) l = take n l ++ take m (drop n l).
Proof. revert l; induction n as [|n IH]; intros [|x l]; cbn; try reflexivity; [destruct m; reflexivity|]. rewrite IH. reflexivity. Qed.
Lemma slice_app {A} (l : list A) a b c : (a <= b <= c)%nat -> slice l a b ++ slice l b c = slice l a c.
Proof.
  intros H. unfold slice. replace (c - a)%nat with ((b - a) + (c - b))%nat by lia. rewrite take_plus, drop_drop.
  replace (a + (b - a))%nat with b by lia. reflexivity.
Qed.
Lemma slice_snoc_ext {A} (l l' : list A) a b : (b <= length l)%nat -> slice (l ++ l') a b = slice l a b.
Proof.
  intros H. unfold slice. destruct (decide (a <= b)%nat).
  - rewrite drop_app_le by lia. rewrite take_app_le; [reflexivity|]. rewrite drop_length. lia.
  - replace (b - a)%nat with 0%nat by lia. reflexivity.
Qed.
Lemma slice_take {A} (l : list A) n a b : (b <= n)%nat -> slice (take n l) a b = slice l a b.
Proof.
  intros H. unfold slice. destruct (decide (a <= b)%nat).
  - rewrite <- (take_drop n l) at 2. destruct (decide (n <= length l)%nat).
    + rewrite drop_app_le by (rewrite take_length; lia). rewrite take_app_le; [reflexivity|]. rewrite drop_length, take_length. lia.
    + rewrite (take_ge l n) by lia. rewrite (drop_ge l n) by lia. rewrite app_nil_r. reflexivity.
  - replace (b - a)%nat with 0%nat by lia. reflexivity.
Qed.
Lemma slice_nil {A} (l : list A) a : slice l a a = [].
Proof. unfold slice. rewrite Nat.sub_diag. reflexivity. Qed.
Lemma slice_length {A} (l : list A) a b : (b <= length l)%nat -> length (slice l a b) = (b - a)%nat.
Proof. intros H. unfold slice. rewrite take_length, drop_length. lia. Qed.
Lemma slice_lookup {A} (l : list A) a b i : (a <= i < b)%nat -> slice l a b !! (i - a)%nat = l !! i.
Proof. intros H. unfold slice. rewrite lookup_take by lia. rewrite lookup_drop. f_equal. lia. Qed.

Lemma mod_inj v w h L : 0 < L -> h <= v < h + L -> h <= w < h + L -> v mod L = w mod L -> v = w.
Proof.
  intros HL Hv Hw E. pose proof (N.div_mod v L ltac:(clear -HL; lia)) as Ev. pose proof (N.div_mod w L ltac:(clear -HL; lia)) as Ew. rewrite E in Ev.
  set (q1 := v / L) in *. set (q2 := w / L) in *. set (r := w mod L) in *.
  destruct (N.lt_trichotomy q1 q2) as [H|[H|H]].
  - exfalso. apply N.le_succ_l, (N.mul_le_mono_l _ _ L) in H. rewrite N.mul_succ_r in H. clear -H Ev Ew Hv Hw. lia.
  - rewrite H in Ev. congruence.
  - exfalso. apply N.le_succ_l, (N.mul_le_mono_l _ _ L) in H. rewrite N.mul_succ_r in H. clear -H Ev Ew Hv Hw. lia.
Qed.

(** ** One flush. *)
Definition flight_ok (c : lconf) (M : N) (from : N) (f : flight) : Prop :=
  (forall dev dev', flight_write c dev f = Some dev' -> laid (lc_len c) (lc_spage c) M dev' from (snd <$> fl_tasks f) (fl_newtail f)) /\
  (forall a, flight_touches f a = true -> exists v, from <= v < fl_newtail f /\ v mod lc_len c = a) /\
  from <= fl_newtail f /\ fl_newtail f mod 2 ^ lc_spage c = 0.

Lemma bounded_write_out L dev off data dev' a : bounded_write L dev off data = Some dev' -> in_range off data a = false -> dev' a = dev a.
Proof.
  unfold bounded_write, in_range. destruct (_ <=? L); [|discriminate]. intros E H. apply (inj Some) in E. subst dev'. apply dev_write_out. lia.
Qed.
Lemma bounded_write_in L dev off data dev' i b : bounded_write L dev off data = Some dev' -> data !! i = Some b -> dev' (off + N.of_nat i) = b.
Proof.
  unfold bounded_write. destruct (_ <=? L); [|discriminate]. intros E H. apply (inj Some) in E. subst dev'. apply dev_write_in; [lia|].
  replace (N.to_nat (off + N.of_nat i - off)) with i by lia. exact H.
Qed.
Lemma flight_write_out c dev f dev' a : flight_write c dev f = Some dev' -> flight_touches f a = false -> dev' a = dev a.
Proof.
  unfold flight_write, flight_touches. intros E H. apply orb_false_elim in H as [H1 H2].
  destruct (fl_wrap f) as [[at_ page]|].
  - destruct (bounded_write (lc_len c) dev at_ page) as [d1|] eqn:E1; [|discriminate E]. cbn [mbind option_bind] in E.
    rewrite (bounded_write_out _ _ _ _ _ _ E H1). apply (bounded_write_out _ _ _ _ _ _ E1 H2).
  - cbn [mbind option_bind] in E. apply (bounded_write_out _ _ _ _ _ _ E H1).
Qed.

(** Records one after another, then padding. *)
Lemma laid_records L sp M dev ts ss v v' : 0 < L -> Forall valid_task ts -> mapM task_serialise ts = Some ss ->
  Forall (fun s => N.of_nat (length s) <= M) ss ->
  (forall i b, concat ss !! i = Some b -> dev ((v + N.of_nat i) mod L) = b) ->
  laid L sp M dev (v + N.of_nat (length (concat ss))) [] v' -> laid L sp M dev v ts v'.
Proof.
  intros HL. revert ss v. induction ts as [|t ts IH]; intros ss v Hv Hs Hm Hb Hl.
  - cbn in Hs. apply (inj Some) in Hs. subst ss. cbn [concat length] in Hl. change (N.of_nat 0) with 0 in Hl. rewrite N.add_0_r in Hl. exact Hl.
  - cbn in Hs. destruct (task_serialise t) as [s|] eqn:Et; [|discriminate Hs]. cbn [mbind option_bind] in Hs.
    destruct (mapM task_serialise ts) as [ss'|] eqn:Es; [|discriminate Hs]. cbn in Hs. apply (inj Some) in Hs. subst ss.
    inversion Hv as [|? ? Hv1 Hv2]; subst. inversion Hm as [|? ? Hm1 Hm2]; subst. cbn [concat] in *.
    eapply laid_op; [exact Hv1|exact Et|exact Hm1| |].
    + intros i b Hi. apply Hb. rewrite lookup_app_l by (eapply lookup_lt_Some; exact Hi). exact Hi.
    + eapply IH; [exact Hv2|reflexivity|exact Hm2| |].
      * intros i b Hi. rewrite <- N.add_assoc, <- Nat2N.inj_add. apply Hb. rewrite lookup_app_r by lia. replace (length s + i - length s)%nat with i by lia. exact Hi.
      * rewrite app_length, Nat2N.inj_add, N.add_assoc in Hl. exact Hl.
Qed.
Lemma in_concat_length (ss : list (list N)) s : s ∈ ss -> (length s <= length (concat ss))%nat.
Proof. induction ss as [|x ss IH]; intros H; inversion H; subst; cbn [concat]; rewrite app_length; [lia|]. specialize (IH ltac:(assumption)). lia. Qed.

Lemma ceil_pad n p : 0 < n mod 2 ^ p -> ceil_pow2 (n + 1) p = n + (2 ^ p - n mod 2 ^ p).
Proof.
  intros H. pose proof (pow2_pos p) as Hp. pose proof (N.div_mod n (2 ^ p) ltac:(clear -Hp; lia)) as E. pose proof (N.mod_lt n (2 ^ p) ltac:(clear -Hp; lia)) as Hlt.
  assert (ceil_pow2 (n + 1) p = 2 ^ p * (n / 2 ^ p + 1)) as ->.
  { pose proof (ceil_pow2_ge (n + 1) p) as Hge. pose proof (ceil_pow2_lt (n + 1) p) as Hl. pose proof (ceil_pow2_mult (n + 1) p) as Hm.
    set (x := ceil_pow2 (n + 1) p) in *. pose proof (N.div_mod x (2 ^ p) ltac:(clear -Hp; lia)) as Ex. rewrite Hm, N.add_0_r in Ex.
    set (P := 2 ^ p) in *. set (q := n / P) in *. set (r := n mod P) in *. set (z := x / P) in *.
    assert (q < z) as H1. { apply N.nle_gt. intros Hc. apply (N.mul_le_mono_l _ _ P) in Hc. clear -Hc E Ex Hge. lia. }
    assert (z < q + 2) as H2. { apply N.nle_gt. intros Hc. apply (N.mul_le_mono_l _ _ P) in Hc. rewrite N.mul_add_distr_l in Hc. clear -Hc E Ex Hl Hlt. lia. }
    rewrite Ex. f_equal. clear -H1 H2. lia. }
  rewrite N.mul_add_distr_l, N.mul_1_r. clear -E Hlt. lia.
Qed.

Lemma mapM_concat_valid ts ss M : mapM task_serialise ts = Some ss -> N.of_nat (length (concat ss)) <= M ->
  Forall (fun s => N.of_nat (length s) <= M) ss.
Proof. intros _ H. apply Forall_forall. intros s Hs. pose proof (in_concat_length ss s Hs). lia. Qed.

Lemma wrap_target v L : 0 < L -> (v + (L - v mod L)) mod L = 0.
Proof.
  intros HL. pose proof (N.div_mod v L ltac:(clear -HL; lia)) as E. pose proof (N.mod_lt v L ltac:(clear -HL; lia)) as Hlt.
  replace (v + (L - v mod L)) with ((v / L + 1) * L) by (rewrite N.mul_add_distr_r; lia). apply N.mod_mul. clear -HL; lia.
Qed.

Lemma mod_mod_0 x L P : P <> 0 -> L <> 0 -> x mod P = 0 -> L mod P = 0 -> (x mod L) mod P = 0.
Proof.
  intros HP HL Hx Hy. rewrite (N.mod_eq x L) by exact HL. apply mod_sub_0; [exact HP|exact Hx|].
  rewrite N.mul_mod, Hy by exact HP. rewrite N.mul_0_l. apply N.mod_0_l, HP.
Qed.

Definition writer_ok (w : wstate) : Prop :=
  exists ss, mapM task_serialise (snd <$> w_pending w) = Some ss /\ w_buf w = concat ss /\ Forall valid_task (snd <$> w_pending w).

Lemma writer_flush_ok c head w junk wjunk w' f : good_conf c -> w_vtail w mod 2 ^ lc_spage c = 0 -> head <= w_vtail w -> writer_ok w ->
  writer_flush c head w junk wjunk = Some (w', f) ->
  flight_ok c (N.of_nat (length (fl_data f))) (w_vtail w) f /\ fl_newtail f = w_vtail w' /\ fl_id f = w_next w /\ w_next w' = S (w_next w) /\
  fl_tasks f = w_pending w /\ w_pending w' = [] /\ w_buf w' = [] /\ w_vtail w' - head < lc_len c /\ w_vtail w' < 2 ^ 64.
Proof.
  intros (HL & HLa & HB & HBa & Hsp) Hva Hhead (ss & Hss & Hbuf & Hval). unfold writer_flush.
  pose proof (pow2_pos (lc_spage c)) as Hp.
  destruct (length (w_pending w) =? 0)%nat; [discriminate|]. cbv zeta.
  set (buf := if 0 <? mod_pow2 (N.of_nat (length (w_buf w))) (lc_spage c) then w_buf w ++ [3] else w_buf w).
  assert ((0 < N.of_nat (length (w_buf w)) mod 2 ^ lc_spage c /\ buf = w_buf w ++ [3]) \/ (N.of_nat (length (w_buf w)) mod 2 ^ lc_spage c = 0 /\ buf = w_buf w)) as Hbs.
  { subst buf. rewrite mod_pow2_spec. destruct (N.ltb_spec 0 (N.of_nat (length (w_buf w)) mod 2 ^ lc_spage c)) as [H|H]; [left; auto|right; split; [clear -H; lia|reflexivity]]. }
  clearbody buf.
  set (plen := ceil_pow2 (N.of_nat (length buf)) (lc_spage c)).
  destruct (N.eqb_spec (N.of_nat (length junk)) plen) as [Ej|]; [|discriminate].
  destruct (N.eqb_spec (N.of_nat (length wjunk)) (2 ^ lc_spage c)) as [Ewj|]; [|discriminate]. cbn [negb orb].
  destruct (negb (mod_pow2 (w_vtail w) (lc_spage c) =? 0)); [discriminate|].
  set (phys := w_vtail w mod lc_len c). pose proof (N.mod_lt (w_vtail w) (lc_len c) ltac:(clear -HL; lia)) as Hphys. fold phys in Hphys.
  set (wraps := lc_len c <? phys + plen).
  destruct (wraps && _); [discriminate|].
  set (vd := if wraps then w_vtail w + (lc_len c - phys) else w_vtail w).
  destruct (N.leb_spec (lc_len c) (vd + plen - head)) as [|Hroom]; [discriminate|].
  destruct (N.leb_spec (2 ^ 64) (vd + plen)) as [|H64]; [discriminate|].
  intros E. apply (inj Some) in E. injection E as <- <-. cbn [fl_newtail fl_id fl_tasks fl_data fl_phys fl_wrap w_vtail w_next w_pending w_buf].
  split; [|auto 10].
  set (padded := buf ++ drop (length buf) junk).
  assert (N.of_nat (length padded) = plen) as Hpl.
  { subst padded. rewrite app_length, drop_length. pose proof (ceil_pow2_ge (N.of_nat (length buf)) (lc_spage c)) as Hge. fold plen in Hge. clear -Ej Hge. lia. }
  assert (exists tl, padded = w_buf w ++ tl) as Hpre.
  { subst padded. destruct Hbs as [[_ ->]|[_ ->]]; rewrite <- ?app_assoc; eauto. }
  assert (w_vtail w <= vd) as Hvd by (subst vd; destruct wraps; clear -Hphys; lia).
  assert (vd mod lc_len c = if wraps then 0 else phys) as Hvdm.
  { subst vd. destruct wraps; [apply wrap_target; exact HL|reflexivity]. }
  assert (vd mod 2 ^ lc_spage c = 0) as Hvda.
  { subst vd. destruct wraps; [|exact Hva]. apply mod_add_0; [apply pow2_nz|exact Hva|]. apply mod_sub_0; [apply pow2_nz|exact HLa|].
    
    apply mod_mod_0; [apply pow2_nz|clear -HL; lia|exact Hva|exact HLa]. }
  assert (plen mod 2 ^ lc_spage c = 0) as Hpla by apply ceil_pow2_mult.
  assert (plen <= lc_len c - vd mod lc_len c) as Hfit.
  { rewrite Hvdm. subst wraps. destruct (N.ltb_spec (lc_len c) (phys + plen)).
    - clear -Hroom Hvd Hhead. lia.
    - clear -H. lia. }
  assert (forall i, i < plen -> (vd + i) mod lc_len c = vd mod lc_len c + i) as Hcont.
  { intros i Hi. apply mod_add_small; [exact HL|]. clear -Hi Hfit. lia. }
  assert (phys <> 0 \/ wraps = false) as Hpw.
  { destruct wraps eqn:Ew; [|right; reflexivity]. left. intros E0. subst vd. clear -Hroom Hhead E0. lia. }
  unfold flight_ok. cbn [fl_newtail fl_id fl_tasks fl_data fl_phys fl_wrap].
  split; [|split; [|split; [|apply mod_add_0; [apply pow2_nz|assumption|assumption]]]].
  - intros dev dev'. unfold flight_write. cbn [fl_newtail fl_id fl_tasks fl_data fl_phys fl_wrap]. intros Ew.
    (* the bytes of the data *)
    assert (forall i b, padded !! i = Some b -> dev' ((vd + N.of_nat i) mod lc_len c) = b) as Hbytes.
    { intros i b Hi. apply lookup_lt_Some in Hi as Hl. rewrite Hcont by (clear -Hl Hpl; lia). rewrite Hvdm. destruct wraps.
      - destruct (bounded_write _ _ phys _) as [d1|]; [|discriminate Ew]. cbn [mbind option_bind] in Ew. apply (bounded_write_in _ _ _ _ _ _ _ Ew Hi).
      - cbn [mbind option_bind] in Ew. apply (bounded_write_in _ _ _ _ _ _ _ Ew Hi). }
    assert (laid (lc_len c) (lc_spage c) (N.of_nat (length padded)) dev' vd (snd <$> w_pending w) (vd + plen)) as Hdata.
    { assert (length (w_buf w) <= length padded)%nat as Hlb.
      { destruct Hpre as [tl ->]. rewrite app_length. clear; lia. }
      apply (laid_records _ _ _ _ _ ss); [exact HL|exact Hval|exact Hss| | |].
      - apply (mapM_concat_valid _ _ _ Hss). rewrite <- Hbuf. clear -Hlb; lia.
      - intros i b Hi. apply Hbytes. destruct Hpre as [tl ->]. rewrite Hbuf. rewrite lookup_app_l by (eapply lookup_lt_Some; exact Hi). exact Hi.
      - rewrite <- Hbuf. set (n := N.of_nat (length (w_buf w))) in *. destruct Hbs as [[Hn Eb]|[Hn Eb]].
        + assert ((vd + n) mod 2 ^ lc_spage c = n mod 2 ^ lc_spage c) as Em.
          { rewrite N.add_mod, Hvda, N.add_0_l, N.mod_mod by apply pow2_nz. reflexivity. }
          apply laid_pad.
          * subst n. apply Hbytes. subst padded. rewrite Eb, <- app_assoc. rewrite lookup_app_r by apply Nat.le_refl. rewrite Nat.sub_diag. reflexivity.
          * rewrite Em. clear -Hn; lia.
          * rewrite Em. replace (vd + plen) with (vd + n + (2 ^ lc_spage c - n mod 2 ^ lc_spage c)); [constructor|].
            subst plen. rewrite Eb, app_length. cbn [length]. rewrite Nat2N.inj_add. change (N.of_nat 1) with 1. fold n. rewrite ceil_pad by exact Hn. rewrite N.add_assoc. reflexivity.
        + assert (plen = n) as Ec.
          { subst plen. rewrite Eb. fold n. rewrite ceil_pow2_spec, Hn. cbn [N.eqb]. rewrite N.add_0_r.
            pose proof (N.div_mod n (2 ^ lc_spage c) ltac:(apply pow2_nz)) as E1. rewrite Hn, N.add_0_r in E1. rewrite N.mul_comm. symmetry; exact E1. }
          rewrite Ec. constructor. }
    destruct wraps eqn:Ewr.
    + apply laid_wrap.
      * (* the marker survives the data write: it lies beyond it *)
        fold phys. destruct (bounded_write _ _ phys _) as [d1|] eqn:E1; [|discriminate Ew]. cbn [mbind option_bind] in Ew.
        rewrite (bounded_write_out _ _ _ _ _ phys Ew).
        -- rewrite <- (N.add_0_r phys). apply (bounded_write_in _ _ _ _ _ 0%nat 4 E1). reflexivity.
        -- unfold in_range. rewrite Hpl. assert (plen <= phys) as Hpp; [|clear -Hpp; lia].
           (* head <= w_vtail and the new tail is less than L beyond head *)
           subst vd. clear -Hroom Hhead Hphys. lia.
      * fold phys. clear -Hpw. destruct Hpw; [assumption|discriminate].
      * fold phys. rewrite Hpl. subst wraps. clear -Ewr. lia.
      * fold phys. exact Hdata.
    + exact Hdata.
  - intros a. unfold flight_touches. cbn [fl_phys fl_data fl_wrap]. intros Ha. apply orb_prop in Ha as [Ha|Ha].
    + unfold in_range in Ha. apply andb_prop in Ha as [Ha1 Ha2]. fold padded in Ha2. rewrite Hpl in Ha2. apply N.leb_le in Ha1. apply N.ltb_lt in Ha2.
      exists (vd + (a - vd mod lc_len c)). rewrite Hvdm. split; [clear -Ha1 Ha2 Hvd; lia|].
      rewrite Hcont by (clear -Ha1 Ha2; lia). rewrite Hvdm. clear -Ha1. lia.
    + destruct wraps eqn:Ewr; [|discriminate Ha]. unfold in_range in Ha. apply andb_prop in Ha as [Ha1 Ha2]. apply N.leb_le in Ha1. apply N.ltb_lt in Ha2.
      cbn [length] in Ha2. rewrite drop_length in Ha2.
      assert (2 ^ lc_spage c <= lc_len c - phys) as Hpg.
      { assert ((lc_len c - phys) mod 2 ^ lc_spage c = 0) as Hm.
        { apply mod_sub_0; [apply pow2_nz|exact HLa|]. 
          apply mod_mod_0; [apply pow2_nz|clear -HL; lia|exact Hva|exact HLa]. }
        apply N.nlt_ge. intros Hc. rewrite N.mod_small in Hm by exact Hc. clear -Hm Hphys. lia. }
      assert (a - phys < lc_len c - phys) as Hlt by (clear -Ha1 Ha2 Hpg Ewj Hp; lia).
      exists (w_vtail w + (a - phys)). split.
      * subst vd. clear -Ha1 Hlt Hphys. lia.
      * rewrite mod_add_small by (fold phys; assumption). fold phys. clear -Ha1. lia.
  - clear -Hvd. lia.
Qed.
