(** C43: clients and server agree on keys and ranges. *)
From Coq Require Import ZifyBool ZifyNat ZifyN.
From stdpp Require Import base numbers list_numbers option list.
From Verif Require Import Util Bytes PageIOModel TokenModel HttpModel HttpProofs PropertiesHttp.
Open Scope N_scope.
Ltac Zify.zify_post_hook ::= idtac.

(** ** Percent encoding *)
Definition enc1 (must : N -> bool) (b : N) : list N := if must b then pct b else [b].
Lemma pe_eq must s : percent_encode must s = concat (map (enc1 must) s).
Proof. reflexivity. Qed.
Lemma pe_cons must b s : percent_encode must (b :: s) = enc1 must b ++ percent_encode must s.
Proof. reflexivity. Qed.
Lemma pe_app must a b : percent_encode must (a ++ b) = percent_encode must a ++ percent_encode must b.
Proof. rewrite !pe_eq, map_app, concat_app. reflexivity. Qed.

Lemma hex_range v : v < 16 -> 48 <= hex v <= 57 \/ 65 <= hex v <= 70.
Proof. unfold hex. intros H. case_match; lia. Qed.
Lemma unhex_hex v : v < 16 -> unhex (hex v) = Some v.
Proof. unfold hex, unhex. intros H. repeat (case_match; try lia); f_equal; lia. Qed.
Lemma byte_nibbles b : b < 256 -> b / 16 < 16 /\ b mod 16 < 16 /\ b / 16 * 16 + b mod 16 = b.
Proof.
  intros H. split; [apply N.div_lt_upper_bound; [discriminate|exact H]|]. split; [apply N.mod_lt; discriminate|].
  pose proof (N.div_mod b 16 ltac:(discriminate)). lia.
Qed.

Lemma decode_step c t : c <> 37 -> percent_decode (c :: t) = c :: percent_decode t.
Proof. intros H. cbn [percent_decode]. replace (c =? 37) with false by (symmetry; apply N.eqb_neq, H). reflexivity. Qed.
Lemma decode_pct b t : b < 256 -> percent_decode (pct b ++ t) = b :: percent_decode t.
Proof.
  intros H. destruct (byte_nibbles b H) as (H1 & H2 & H3). unfold pct. cbn [app percent_decode].
  change (37 =? 37) with true. cbv iota. rewrite !unhex_hex by assumption. rewrite H3. reflexivity.
Qed.
Lemma decode_encode must s : Forall is_byte s -> (forall b, b ∈ s -> must b = false -> b <> 37) ->
  percent_decode (percent_encode must s) = s.
Proof.
  induction s as [|b s IH]; intros Hb Hm; [reflexivity|]. apply Forall_cons_1 in Hb as [H1 H2].
  rewrite pe_cons. unfold enc1. destruct (must b) eqn:E.
  - rewrite decode_pct by exact H1. f_equal. apply IH; [exact H2|]. intros b' Hb'. apply Hm. apply elem_of_list_further, Hb'.
  - cbn [app]. rewrite decode_step by (apply Hm; [apply elem_of_list_here|exact E]). f_equal.
    apply IH; [exact H2|]. intros b' Hb'. apply Hm. apply elem_of_list_further, Hb'.
Qed.
(** Encoding again what is already encoded. *)
Lemma pe_compose p m s : Forall is_byte s -> p 37 = false -> (forall v, v < 16 -> p (hex v) = false) ->
  percent_encode p (percent_encode m s) = percent_encode (fun b => m b || p b) s.
Proof.
  intros Hb H37 Hh. induction s as [|b s IH]; [reflexivity|]. apply Forall_cons_1 in Hb as [H1 H2].
  rewrite !pe_cons, pe_app, IH by exact H2. f_equal. unfold enc1. destruct (m b); cbn [orb].
  - destruct (byte_nibbles b H1) as (Hn1 & Hn2 & _). unfold pct, percent_encode. cbn [map concat].
    rewrite H37, !Hh by assumption. reflexivity.
  - unfold percent_encode. cbn [map concat]. rewrite app_nil_r. reflexivity.
Qed.

(** ** Segments *)
Section segments.
  Variables f g : N -> list N.
  Hypothesis Hfg : forall c, c <> 47 -> g c = f c.
  Hypothesis Hg : g 47 = [47].

  Lemma join_split acc s : Forall (fun c => c <> 47) acc ->
    concat (map (fun p => 47 :: concat (map f p)) (split_on (fun c => c =? 47) acc s))
    = 47 :: concat (map f (reverse acc)) ++ concat (map g s).
  Proof using Hfg Hg.
    revert acc. induction s as [|c s IH]; intros acc Ha; cbn [split_on].
    - cbn [map concat]. rewrite !app_nil_r. reflexivity.
    - destruct (N.eqb_spec c 47) as [->|n].
      + cbn [map concat]. rewrite IH by constructor. rewrite reverse_nil. cbn [map concat app]. rewrite Hg. reflexivity.
      + rewrite IH by (constructor; assumption). rewrite reverse_cons, map_app, concat_app. cbn [map concat].
        rewrite app_nil_r, <- app_assoc, Hfg by exact n. reflexivity.
  Qed.

  Lemma split_enc sep acc s : sep 47 = true -> (forall c x, c ∈ s -> c <> 47 -> x ∈ g c -> sep x = false) ->
    split_on sep (reverse (concat (map f (reverse acc)))) (concat (map g s)) =
    map (fun p => concat (map f p)) (split_on (fun c => c =? 47) acc s).
  Proof using Hfg Hg.
    intros Hs. revert acc. induction s as [|c s IH]; intros acc Hn; cbn [split_on map concat].
    - rewrite reverse_involutive. reflexivity.
    - assert (Hn' : forall c' x, c' ∈ s -> c' <> 47 -> x ∈ g c' -> sep x = false).
      { intros c' x Hc'. apply Hn. apply elem_of_list_further, Hc'. }
      destruct (N.eqb_spec c 47) as [->|n].
      + rewrite Hg. cbn [app split_on]. rewrite Hs, reverse_involutive. cbn [map]. f_equal.
        specialize (IH [] Hn'). rewrite reverse_nil in IH. cbn [map concat] in IH. rewrite reverse_nil in IH. exact IH.
      + assert (A : forall l acc' rest, (forall x, x ∈ l -> sep x = false) ->
          split_on sep acc' (l ++ rest) = split_on sep (reverse l ++ acc') rest).
        { induction l as [|x l IHl]; intros acc' rest Hx; [reflexivity|]. cbn [app split_on].
          rewrite Hx by apply elem_of_list_here. rewrite IHl by (intros y Hy; apply Hx, elem_of_list_further, Hy).
          rewrite reverse_cons, <- app_assoc. reflexivity. }
        rewrite A by (intros x Hx; apply (Hn c x); [apply elem_of_list_here|exact n|exact Hx]).
        rewrite <- IH by exact Hn'. f_equal. rewrite reverse_cons, map_app, concat_app. cbn [map concat].
        rewrite app_nil_r, reverse_app, Hfg by exact n. reflexivity.
  Qed.
End segments.

Lemma path_segments_plain stack segs : Forall (fun s => is_double_dot s = false /\ is_single_dot s = false) segs ->
  path_segments stack segs = reverse stack ++ map (percent_encode path_must) segs.
Proof.
  revert stack. induction segs as [|s segs IH]; intros stack H; cbn [path_segments map].
  - rewrite app_nil_r. reflexivity.
  - apply Forall_cons_1 in H as [[H1 H2] H]. rewrite H1, H2, IH by exact H.
    rewrite reverse_cons, <- app_assoc. reflexivity.
Qed.

Lemma lower_inv c v : lower c = v -> c = v \/ (65 <= c <= 90 /\ v = c + 32).
Proof. unfold lower. case_match; lia. Qed.
Lemma is_dot_enc must s : must 46 = false -> Forall is_byte s -> (forall b, b ∈ s -> must b = false -> b <> 37) ->
  (is_single_dot (percent_encode must s) = true -> s = [46])
  /\ (is_double_dot (percent_encode must s) = true -> s = [46;46]).
Proof.
  intros Hd Hb Hm. pose proof (decode_encode must s Hb Hm) as D.
  assert (E1 : percent_encode must [46] = [46]) by (unfold percent_encode; cbn [map concat]; rewrite Hd; reflexivity).
  assert (E2 : percent_encode must [46;46] = [46;46]) by (unfold percent_encode; cbn [map concat]; rewrite Hd; reflexivity).
  set (e := percent_encode must s) in *.
  assert (B : forall (l : list N), bool_decide (map lower e = l) = true -> map lower e = l) by (intros l H; apply bool_decide_eq_true in H; exact H).
  split.
  - unfold is_single_dot. intros H. apply orb_true_iff in H as [H|H].
    + apply bool_decide_eq_true in H. rewrite H in D. rewrite <- D. reflexivity.
    + apply B in H. destruct e as [|a [|b [|c [|d e']]]]; try discriminate H.
      injection H as Ha Hb' Hc.
      apply lower_inv in Ha as [->|Ha]; [|exfalso; clear -Ha; lia].
      apply lower_inv in Hb' as [->|Hb']; [|exfalso; clear -Hb'; lia].
      assert (percent_decode [37;50;c] = [46]) as Dc by (apply lower_inv in Hc as [->|[_ Hc]]; [reflexivity|assert (c = 69) as -> by (clear -Hc; lia); reflexivity]).
      rewrite Dc in D. exact (eq_sym D).
  - unfold is_double_dot. intros H. repeat (apply orb_true_iff in H as [H|H]).
    + apply bool_decide_eq_true in H. rewrite H in D. rewrite <- D. reflexivity.
    + apply B in H. destruct e as [|a0 [|a [|b [|c [|d e']]]]]; try discriminate H.
      injection H as Ha0 Ha Hb' Hc.
      apply lower_inv in Ha0 as [->|Ha0]; [|exfalso; clear -Ha0; lia].
      apply lower_inv in Ha as [->|Ha]; [|exfalso; clear -Ha; lia].
      apply lower_inv in Hb' as [->|Hb']; [|exfalso; clear -Hb'; lia].
      assert (percent_decode [46;37;50;c] = [46;46]) as Dc by (apply lower_inv in Hc as [->|[_ Hc]]; [reflexivity|assert (c = 69) as -> by (clear -Hc; lia); reflexivity]).
      rewrite Dc in D. exact (eq_sym D).
    + apply B in H. destruct e as [|a [|b [|c [|a0 [|d e']]]]]; try discriminate H.
      injection H as Ha Hb' Hc Ha0.
      apply lower_inv in Ha0 as [->|Ha0]; [|exfalso; clear -Ha0; lia].
      apply lower_inv in Ha as [->|Ha]; [|exfalso; clear -Ha; lia].
      apply lower_inv in Hb' as [->|Hb']; [|exfalso; clear -Hb'; lia].
      assert (percent_decode [37;50;c;46] = [46;46]) as Dc by (apply lower_inv in Hc as [->|[_ Hc]]; [reflexivity|assert (c = 69) as -> by (clear -Hc; lia); reflexivity]).
      rewrite Dc in D. exact (eq_sym D).
    + apply B in H. destruct e as [|a [|b [|c [|a' [|b' [|c' [|d e']]]]]]]; try discriminate H.
      injection H as Ha Hb' Hc Ha' Hb'' Hc'.
      apply lower_inv in Ha as [->|Ha]; [|exfalso; clear -Ha; lia].
      apply lower_inv in Hb' as [->|Hb']; [|exfalso; clear -Hb'; lia].
      apply lower_inv in Ha' as [->|Ha']; [|exfalso; clear -Ha'; lia].
      apply lower_inv in Hb'' as [->|Hb'']; [|exfalso; clear -Hb''; lia].
      assert (c = 101 \/ c = 69) as Kc by (apply lower_inv in Hc as [->|[_ Hc]]; [left; reflexivity|right; clear -Hc; lia]).
      assert (c' = 101 \/ c' = 69) as Kc' by (apply lower_inv in Hc' as [->|[_ Hc']]; [left; reflexivity|right; clear -Hc'; lia]).
      assert (percent_decode [37;50;c;37;50;c'] = [46;46]) as Dc by (destruct Kc as [->| ->], Kc' as [->| ->]; reflexivity).
      rewrite Dc in D. exact (eq_sym D).
Qed.

(** ** The whole path *)
Definition plain_segments (key : list N) : Prop := Forall (fun s => s <> [46] /\ s <> [46;46]) (split_slash key).

Lemma split_on_mem sep acc s p c : p ∈ split_on sep acc s -> c ∈ p -> c ∈ acc \/ c ∈ s.
Proof.
  revert acc. induction s as [|x s IH]; intros acc Hp Hc; cbn [split_on] in Hp.
  - apply elem_of_list_singleton in Hp. subst p. left. rewrite elem_of_reverse in Hc. exact Hc.
  - destruct (sep x).
    + apply elem_of_cons in Hp as [->|Hp].
      * left. rewrite elem_of_reverse in Hc. exact Hc.
      * destruct (IH _ Hp Hc) as [H|H]; [apply elem_of_nil in H as []|right; apply elem_of_list_further, H].
    + destruct (IH _ Hp Hc) as [H|H]; [|right; apply elem_of_list_further, H].
      apply elem_of_cons in H as [->|H]; [right; apply elem_of_list_here|left; exact H].
Qed.

Lemma filter_all (h : N -> bool) l : Forall (fun c => h c = true) l -> List.filter h l = l.
Proof. induction 1 as [|c l H _ IH]; [reflexivity|]. cbn [List.filter]. rewrite H, IH. reflexivity. Qed.
Lemma take_while_all h l : Forall (fun c => h c = true) l -> take_while h l = l.
Proof. induction 1 as [|c l H _ IH]; [reflexivity|]. cbn [take_while]. rewrite H, IH. reflexivity. Qed.

(** The characters an encoder leaves in the URL. *)
Lemma enc_chars must (P : N -> Prop) s : Forall is_byte s -> P 37 -> (forall v, v < 16 -> P (hex v)) ->
  (forall b, b ∈ s -> must b = false -> P b) -> Forall P (percent_encode must s).
Proof.
  intros Hb H37 Hh Hp. induction s as [|b s IH]; [constructor|]. apply Forall_cons_1 in Hb as [H1 H2].
  rewrite pe_cons. apply Forall_app_2.
  - unfold enc1. destruct (must b) eqn:E.
    + destruct (byte_nibbles b H1) as (Hn1 & Hn2 & _). unfold pct. repeat constructor; [exact H37|apply Hh; assumption..].
    + constructor; [|constructor]. apply Hp; [apply elem_of_list_here|exact E].
  - apply IH; [exact H2|]. intros b' Hb'. apply Hp, elem_of_list_further, Hb'.
Qed.
Lemma last_enc must s x b : percent_encode must (s ++ [b]) = x -> b < 256 -> must b = true \/ 32 < b ->
  exists y c, x = y ++ [c] /\ 32 < c.
Proof.
  intros <- Hb H. rewrite pe_app. unfold percent_encode at 2. cbn [map concat]. rewrite app_nil_r.
  destruct (must b) eqn:E.
  - destruct (byte_nibbles b Hb) as (_ & Hn & _). exists (percent_encode must s ++ [37; hex (b / 16)]), (hex (b mod 16)).
    split; [rewrite <- app_assoc; reflexivity|]. apply hex_range in Hn. clear -Hn. lia.
  - destruct H as [H|H]; [congruence|]. exists (percent_encode must s), b. split; [reflexivity|exact H].
Qed.
Lemma strip_end_id x : (exists y c, x = y ++ [c] /\ 32 < c) -> strip_end x = x.
Proof.
  intros (y & c & -> & H). unfold strip_end. rewrite reverse_app, reverse_singleton. cbn [app drop_while].
  replace (is_c0_space c) with false by (unfold is_c0_space; symmetry; apply N.leb_gt, H).
  rewrite reverse_cons, reverse_involutive. reflexivity.
Qed.

Section client.
  Variable must : N -> bool.
  Hypothesis must_dot : must 46 = false.
  Variable key : list N.
  Hypothesis Hb : Forall is_byte key.
  (** Characters the client does not encode and the URL parser would not pass
      on unchanged do not occur. *)
  Hypothesis Hclean : forall b, b ∈ key -> must b = false -> 32 <= b /\ b <> 37 /\ b <> 63 /\ b <> 35 /\ b <> 92.
  Hypothesis Hlast : forall k b, key = k ++ [b] -> must b = true \/ 32 < b.
  Hypothesis Hdots : plain_segments key.

  Let m' b := must b && negb (b =? 47).
  Lemma m'_clean b : b ∈ key -> m' b = false -> b = 47 \/ (must b = false /\ 32 <= b /\ b <> 37 /\ b <> 63 /\ b <> 35 /\ b <> 92).
  Proof using Hclean.
    unfold m'. intros Hin H. destruct (N.eqb_spec b 47) as [->|n]; [left; reflexivity|]. right.
    cbn [negb] in H. rewrite andb_true_r in H. split; [exact H|]. apply Hclean; assumption.
  Qed.
  Lemma build_path_eq : build_path must key = 47 :: percent_encode m' key.
  Proof using.
    unfold build_path, split_slash. rewrite !pe_eq.
    rewrite (join_split (enc1 must) (enc1 m')).
    - rewrite reverse_nil. reflexivity.
    - intros c Hc. unfold enc1, m'. replace (c =? 47) with false by (symmetry; apply N.eqb_neq, Hc). cbn [negb]. rewrite andb_true_r. reflexivity.
    - unfold enc1, m'. change (47 =? 47) with true. cbn [negb]. rewrite andb_false_r. reflexivity.
    - constructor.
  Qed.

  Lemma hex_neq v c : v < 16 -> c < 48 \/ 57 < c < 65 \/ 70 < c -> hex v <> c.
  Proof using. intros H Hc. apply hex_range in H. clear -H Hc. lia. Qed.

  Lemma url_path_eq : url_path (build_path must key) = 47 :: percent_encode (fun b => m' b || (path_must b && negb (b =? 47))) key.
  Proof using Hb Hclean Hlast Hdots must_dot.
    rewrite build_path_eq. unfold url_path.
    assert (Hch : Forall (fun c => 32 <= c /\ c <> 63 /\ c <> 35 /\ c <> 92) (percent_encode m' key)).
    { apply enc_chars; [exact Hb|clear; lia|..].
      - intros v Hv. apply hex_range in Hv. clear -Hv. lia.
      - intros b Hin Hm. destruct (m'_clean b Hin Hm) as [->|H]; [clear; lia|]. clear -H. tauto. }
    assert (Hs : strip_end (47 :: percent_encode m' key) = 47 :: percent_encode m' key).
    { apply strip_end_id. destruct key as [|c0 k0 _] using rev_ind; [exists [], 47; split; [reflexivity|clear; lia]|].
      assert (Hc0 : c0 < 256).
      { apply Forall_app in Hb as [_ H]. apply Forall_cons_1 in H as [H _]. exact H. }
      destruct (last_enc m' k0 _ c0 eq_refl Hc0) as (y & c & E & Hc).
      - unfold m'. destruct (Hlast k0 c0 eq_refl) as [H|H]; [|right; exact H].
        destruct (N.eqb_spec c0 47) as [->|n]; [right; clear; lia|left; rewrite H; reflexivity].
      - exists (47 :: y), c. rewrite E. split; [reflexivity|exact Hc]. }
    rewrite Hs.
    rewrite filter_all.
    2: { constructor; [reflexivity|]. eapply Forall_impl; [exact Hch|]. intros c H. cbn in H. clear -H. lia. }
    rewrite take_while_all.
    2: { constructor; [reflexivity|]. eapply Forall_impl; [exact Hch|]. intros c H. cbn in H. clear -H. lia. }
    cbn [tail].
    assert (Hsplit : split_on (fun c => (c =? 47) || (c =? 92)) [] (percent_encode m' key)
      = map (percent_encode must) (split_slash key)).
    { rewrite pe_eq. pose proof (split_enc (enc1 must) (enc1 m')) as S.
      assert (S1 : forall c, c <> 47 -> enc1 m' c = enc1 must c).
      { intros c Hc. unfold enc1, m'. replace (c =? 47) with false by (symmetry; apply N.eqb_neq, Hc). cbn [negb]. rewrite andb_true_r. reflexivity. }
      assert (S2 : enc1 m' 47 = [47]).
      { unfold enc1, m'. change (47 =? 47) with true. cbn [negb]. rewrite andb_false_r. reflexivity. }
      specialize (S S1 S2 (fun c => (c =? 47) || (c =? 92)) [] key eq_refl).
      rewrite reverse_nil in S. cbn [map concat] in S. rewrite reverse_nil in S. apply S. clear S.
      intros c x Hin Hc Hx. assert (Hcb : c < 256) by (pose proof (proj1 (Forall_forall _ _) Hb c Hin) as H; exact H).
      unfold enc1 in Hx. destruct (m' c) eqn:Em.
      - destruct (byte_nibbles c Hcb) as (Hn1 & Hn2 & _). unfold pct in Hx.
        apply elem_of_cons in Hx as [->|Hx]; [reflexivity|].
        apply elem_of_cons in Hx as [->|Hx]; [apply hex_range in Hn1; clear -Hn1; lia|].
        apply elem_of_list_singleton in Hx as ->. apply hex_range in Hn2; clear -Hn2; lia.
      - apply elem_of_list_singleton in Hx as ->. destruct (m'_clean c Hin Em) as [->|H]; [congruence|]. clear -H Hc. lia. }
    rewrite Hsplit.
    assert (Hseg : Forall (fun p => Forall is_byte p /\ forall b, b ∈ p -> must b = false -> b <> 37) (split_slash key)).
    { apply Forall_forall. intros p Hp. unfold split_slash in Hp. split.
      - apply Forall_forall. intros c Hc. destruct (split_on_mem _ _ _ _ _ Hp Hc) as [H|H]; [apply elem_of_nil in H as []|].
        exact (proj1 (Forall_forall _ _) Hb c H).
      - intros c Hc Hm. destruct (split_on_mem _ _ _ _ _ Hp Hc) as [H|H]; [apply elem_of_nil in H as []|].
        destruct (Hclean c H Hm) as (_ & K & _). exact K. }
    rewrite path_segments_plain.
    2: { apply Forall_forall. intros e He. change (map ?f ?l) with (f <$> l) in He. apply elem_of_list_fmap in He as (p & -> & Hp).
         destruct (proj1 (Forall_forall _ _) Hseg p Hp) as [Hp1 Hp2].
         destruct (proj1 (Forall_forall _ _) Hdots p Hp) as [N1 N2].
         destruct (is_dot_enc must p must_dot Hp1 Hp2) as [D1 D2].
         split.
         - destruct (is_double_dot (percent_encode must p)); [destruct (N2 (D2 eq_refl))|reflexivity].
         - destruct (is_single_dot (percent_encode must p)); [destruct (N1 (D1 eq_refl))|reflexivity]. }
    rewrite reverse_nil. cbn [app]. rewrite !map_map.
    transitivity (concat (map (fun p => 47 :: concat (map (enc1 (fun b => must b || path_must b)) p)) (split_slash key))).
    { f_equal. apply map_ext_in. intros p Hp. apply elem_of_list_In in Hp.
      destruct (proj1 (Forall_forall _ _) Hseg p Hp) as [Hp1 _].
      rewrite pe_compose; [reflexivity|exact Hp1|reflexivity|].
      intros v Hv. unfold path_must, existsb. apply hex_range in Hv. clear -Hv. lia. }
    unfold split_slash. rewrite pe_eq.
    rewrite (join_split (enc1 (fun b => must b || path_must b)) (enc1 (fun b => m' b || (path_must b && negb (b =? 47))))).
    - rewrite reverse_nil. reflexivity.
    - intros c Hc. unfold enc1, m'. replace (c =? 47) with false by (symmetry; apply N.eqb_neq, Hc). cbn [negb]. rewrite !andb_true_r. reflexivity.
    - unfold enc1, m'. change (47 =? 47) with true. cbn [negb]. rewrite !andb_false_r. reflexivity.
    - constructor.
  Qed.

  Lemma key_seen : parse_key (url_path (build_path must key)) = key.
  Proof using Hb Hclean Hlast Hdots must_dot.
    rewrite url_path_eq. unfold parse_key. cbn [tail]. apply decode_encode; [exact Hb|].
    intros b Hin H. apply orb_false_iff in H as [H _]. destruct (m'_clean b Hin H) as [->|K]; [discriminate|].
    destruct K as (_ & _ & K & _). exact K.
  Qed.
End client.

(** ** Keys *)
(** Every key (a UTF-8 byte string) none of whose slash-separated segments is
    "." or ".." reaches the server unchanged from the JavaScript client. *)
Theorem C43_js_key_partial key :
  Forall is_byte key -> plain_segments key -> js_key_seen key = key.
Proof.
  intros Hb Hd. apply key_seen; [reflexivity|exact Hb| |..].
  - intros b _ H. unfold js_must, existsb in H. clear -H. lia.
  - intros k b E. subst key. apply Forall_app in Hb as [_ Hb]. apply Forall_cons_1 in Hb as [Hb _]. unfold is_byte in Hb.
    destruct (js_must b) eqn:Em; [left; reflexivity|right]. unfold js_must, existsb in Em. clear -Em. lia.
  - exact Hd.
Qed.
(** From the Rust client this holds for keys without '%', '?', '#' and '\'
    that do not end in a space. *)
Theorem C43_rust_key_partial key :
  Forall is_byte key -> plain_segments key ->
  37 ∉ key -> 63 ∉ key -> 35 ∉ key -> 92 ∉ key -> (forall k, key <> k ++ [32]) ->
  rust_key_seen key = key.
Proof.
  intros Hb Hd H1 H2 H3 H4 H5. apply key_seen; [reflexivity|exact Hb| |..].
  - intros b Hin H. unfold rust_must in H.
    split; [clear -H; lia|]. repeat split; intros ->; contradiction.
  - intros k b E. destruct (N.eqb_spec b 32) as [->|n]; [destruct (H5 k E)|].
    unfold rust_must. destruct (N.ltb_spec b 32) as [G|G]; [left; reflexivity|right; clear -G n; lia].
  - exact Hd.
Qed.
(** Keys that arrive as a different key.  "a?b", "a#b" lose their end, "%41"
    becomes "A", "a\b" becomes "a/b", "a " loses its space, and "a/../b"
    becomes "b" (the last one with both clients). *)
Theorem C43_keys_refuted :
  rust_key_seen [97;63;98] = [97] /\ rust_key_seen [97;35;98] = [97]
  /\ rust_key_seen [37;52;49] = [65] /\ rust_key_seen [97;92;98] = [97;47;98]
  /\ rust_key_seen [97;32] = [97] /\ rust_key_seen [97;47;46;46;47;98] = [98]
  /\ js_key_seen [97;47;46;46;47;98] = [98] /\ js_key_seen [46] = [].
Proof. vm_compute. repeat split. Qed.
Theorem C43_key_example :
  rust_key_seen [195;169;47;32;60;97] = [195;169;47;32;60;97]
  /\ js_key_seen [97;37;52;49;63;35;92;47;32] = [97;37;52;49;63;35;92;47;32]
  /\ plain_segments [97;37;52;49;63;35;92;47;32] /\ plain_segments [195;169;47;32;60;97].
Proof. split; [vm_compute; reflexivity|]. split; [vm_compute; reflexivity|]. split; repeat constructor; discriminate. Qed.

(** ** Ranges *)
(** What a caller means by [start] and [end] (exclusive). *)
Definition asked (data : list N) (start fin : option N) : list N :=
  let s := N.to_nat (default 0 start) in
  let e := N.to_nat (default (len data) fin) in
  take (e - s) (drop s data).
(** The body the server sends for the range header of a client. *)
Definition body_of (a : answer) : option (list N) := match a with Body _ _ _ b => Some b | Status _ => None end.

(** The JavaScript client serves what was asked for when it sends both ends
    and the end is not 0, only a start, or nothing. *)
Theorem C43_js_range_partial data start fin :
  len data < 2 ^ 64 -> default 0 start <= default (len data) fin -> default (len data) fin <= len data ->
  (forall e, fin = Some e -> start <> None /\ 0 < e) ->
  body_of (endpoint_read (Some data) (js_range start fin)) = Some (asked data start fin).
Proof.
  intros Hl Hs He Hf. destruct start as [s|], fin as [e|]; unfold js_range; cbn [mbind option_bind].
  - destruct (Hf e eq_refl) as [_ H0]. change (default 0 (Some s)) with s in *. change (default (len data) (Some e)) with e in *.
    replace (e =? 0) with false by (clear -H0; lia).
    change (bytes_eq ++ dec s ++ [45] ++ dec (e - 1)) with (bytes_eq ++ bound_text (Some s) ++ [45] ++ bound_text (Some (e - 1))).
    erewrite read_one by (apply range_text; intros v E; injection E as <-; clear -Hs He Hl; lia).
    cbn [bound_of fst snd range_start range_end]. cbv zeta. rewrite u64_add_1 by (clear -He Hl H0; lia).
    replace (e - 1 + 1) with e by (clear -H0; lia).
    unfold read_check. replace ((e <? s) || (len data <? s) || (len data <? e)) with false by (clear -Hs He; lia).
    cbn [body_of]. unfold asked. change (default 0 (Some s)) with s. change (default (len data) (Some e)) with e.
    replace (N.to_nat (e - s)) with (N.to_nat e - N.to_nat s)%nat by (clear; lia). reflexivity.
  - change (default 0 (Some s)) with s in *. change (default (len data) None) with (len data) in *.
    change (bytes_eq ++ dec s ++ [45] ++ []) with (bytes_eq ++ bound_text (Some s) ++ [45] ++ bound_text None).
    erewrite read_one by (apply range_text; intros v E; simplify_eq; clear -Hs Hl; lia).
    cbn [bound_of fst snd range_start range_end]. cbv zeta.
    unfold read_check. replace ((len data <? s) || (len data <? s) || (len data <? len data)) with false by (clear -Hs; lia).
    cbn [body_of]. unfold asked. change (default 0 (Some s)) with s. change (default (len data) None) with (len data).
    replace (N.to_nat (len data - s)) with (N.to_nat (len data) - N.to_nat s)%nat by (clear; lia). reflexivity.
  - destruct (Hf e eq_refl) as [H _]. congruence.
  - rewrite C41_no_range. cbn [body_of]. unfold asked. change (default 0 None) with 0. change (default (len data) None) with (len data).
    unfold len. rewrite Nat2N.id. change (N.to_nat 0) with 0%nat. cbn [drop]. rewrite Nat.sub_0_r, firstn_all. reflexivity.
Qed.
(** Asking the JavaScript client for the empty range 0..0 returns the whole
    object, and an end without a start is ignored. *)
Theorem C43_js_range_refuted data :
  endpoint_read (Some data) (js_range (Some 0) (Some 0)) = endpoint_read (Some data) None
  /\ forall e, endpoint_read (Some data) (js_range None (Some e)) = endpoint_read (Some data) None.
Proof. split; reflexivity. Qed.
(** The Rust client sends the exclusive end as an inclusive one: a read up to
    [e] returns one byte more, and a read up to the end of the object fails. *)
Theorem C43_rust_range_refuted data s e :
  s <= e -> len data < 2 ^ 64 ->
  (e < len data -> body_of (endpoint_read (Some data) (rust_range (Some s) (Some e)))
                   = Some (asked data (Some s) (Some (e + 1))))
  /\ (e = len data -> len data + 1 < 2 ^ 64 -> endpoint_read (Some data) (rust_range (Some s) (Some e)) = Status 416).
Proof.
  intros Hs Hl. unfold rust_range. cbn [mbind option_bind].
  change (bytes_eq ++ dec s ++ [45] ++ dec e) with (closed_range s e). split.
  - intros He. rewrite (proj1 (C41_closed_range data s e Hs He Hl)). cbn [body_of]. f_equal.
    unfold bytes_between, asked. change (default 0 (Some s)) with s. change (default (len data) (Some (e + 1))) with (e + 1).
    replace (N.to_nat (e + 1 - s)) with (N.to_nat (e + 1) - N.to_nat s)%nat by (clear; lia). reflexivity.
  - intros -> Hl1. apply C41_out_of_bounds_rejected; [clear -Hs Hl; lia|exact Hl1|right; clear; lia].
Qed.
(** Without an end the Rust client gets what it asks for. *)
Theorem C43_rust_range_partial data start :
  len data < 2 ^ 64 -> default 0 start <= len data ->
  body_of (endpoint_read (Some data) (rust_range start None)) = Some (asked data start None).
Proof.
  intros Hl Hs. pose proof (C43_js_range_partial data start None Hl Hs) as H. apply H; [clear; reflexivity|]. intros e E. discriminate E.
Qed.
Theorem C43_range_example :
  body_of (endpoint_read (Some [1;2;3;4]) (js_range (Some 1) (Some 3))) = Some [2;3]
  /\ body_of (endpoint_read (Some [1;2;3;4]) (rust_range (Some 1) (Some 3))) = Some [2;3;4]
  /\ body_of (endpoint_read (Some [1;2;3;4]) (js_range (Some 0) (Some 0))) = Some [1;2;3;4].
Proof. vm_compute. repeat split. Qed.

Print Assumptions C43_js_key_partial.
Print Assumptions C43_rust_key_partial.
Print Assumptions C43_keys_refuted.
Print Assumptions C43_js_range_partial.
Print Assumptions C43_js_range_refuted.
Print Assumptions C43_rust_range_refuted.
Print Assumptions C43_rust_range_partial.
