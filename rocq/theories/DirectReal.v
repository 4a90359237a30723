(** Concurrent calls and time: what a read or inspect returns that begins after a
    commit or delete has returned. *)
From Coq Require Import ZifyBool ZifyNat ZifyN.
From stdpp Require Import base numbers option gmap sets functions list.
From Verif Require Import Util PageIOModel PageIOSpec DirectModel DirectSpec DirectSeqSpec DirectHistSpec DirectHist DirectRealSpec.
Open Scope N_scope.
Ltac Zify.zify_post_hook ::= idtac.

(** ** Order *)
Lemma precedes_index {A} (ls : list A) a b : precedes ls a b <-> exists p q, (p < q)%nat /\ ls !! p = Some a /\ ls !! q = Some b.
Proof.
  split.
  - intros (l1 & l2 & l3 & ->). exists (length l1), (length l1 + S (length l2))%nat. split; [lia|]. split.
    + now apply list_lookup_middle.
    + rewrite lookup_app_r by lia. replace (length l1 + S (length l2) - length l1)%nat with (S (length l2)) by lia. change ((l2 ++ b :: l3) !! length l2 = Some b). now apply list_lookup_middle.
  - intros (p & q & Hlt & Hp & Hq). exists (take p ls), (take (q - S p) (drop (S p) ls)), (drop (S q) ls).
    rewrite <- (take_drop_middle ls p a Hp) at 1. f_equal. f_equal.
    rewrite <- (take_drop_middle (drop (S p) ls) (q - S p) b) at 1.
    + f_equal. f_equal. rewrite drop_drop. replace (S p + S (q - S p))%nat with (S q) by lia. reflexivity.
    + rewrite lookup_drop. rewrite <- Hq. replace (S p + (q - S p))%nat with q by lia. reflexivity.
Qed.
Lemma precedes_visible ls a b : is_visible a = true -> is_visible b = true -> precedes (visible ls) a b <-> precedes ls a b.
Proof.
  intros Ha Hb. split.
  - intros (l1 & l2 & l3 & E). apply visible_split in E as (a' & b' & -> & _ & E). apply visible_split in E as (c & d & -> & _ & _).
    exists a', c, d. reflexivity.
  - intros (l1 & l2 & l3 & ->). unfold visible. exists (visible l1), (visible l2), (visible l3). unfold visible.
    rewrite List.filter_app. cbn. rewrite Ha. rewrite List.filter_app. cbn. rewrite Hb. reflexivity.
Qed.

(** ** Steps *)
Lemma step_key lpage S ps s S' s' v tok u' : sstep lpage S ps s S' s' v -> ss_up S' !! tok = Some u' ->
  (exists u, ss_up S !! tok = Some u /\ up_key u' = up_key u /\ up_size u' = up_size u) \/
  (s = SCall (OCreate (up_key u') (up_size u')) /\ v = Some (VRet (RCreated tok)) /\ tok ∉ ss_ids S).
Proof.
  intros St E.
  assert (Hp : forall tk o f, ss_up (on_part S tk o f) !! tok = Some u' -> exists u, ss_up S !! tok = Some u /\ up_key u' = up_key u /\ up_size u' = up_size u).
  { intros tk o f Ho. unfold on_part in Ho. cbn in Ho. destruct (decide (tk = tok)) as [->|Hne].
    - rewrite lookup_alter in Ho. destruct (ss_up S !! tok) as [u|] eqn:Eu; [|discriminate]. inversion Ho; subst u'. exists u. auto.
    - rewrite lookup_alter_ne in Ho by exact Hne. eauto. }
  destruct St; try solve [left; eapply Hp; exact E]; cbn in E; try solve [left; eauto].
  - destruct (decide (tok0 = tok)) as [->|Hne].
    + rewrite lookup_insert in E. inversion E; subst. right. auto.
    + rewrite lookup_insert_ne in E by exact Hne. left. eauto.
  - destruct (decide (tok0 = tok)) as [->|Hne].
    + rewrite lookup_insert in E. inversion E; subst. left. exists u. split; [apply H|]. split; reflexivity.
    + rewrite lookup_insert_ne in E by exact Hne. left. eauto.
  - apply lookup_delete_Some in E as [_ E]. left. eauto.
  - apply lookup_delete_Some in E as [_ E]. left. eauto.
Qed.
(** A step that changes what is stored under a key. *)
Definition changing (key : list N) (S : sstate) (s s' : sproc) : Prop :=
  (exists tok ine u id r, s = SCommitting tok ine /\ s' = SPublished tok id r /\ ss_up S !! tok = Some u /\ up_key u = key) \/
  (exists id x, s = SCall (ODelete key id) /\ s' = SDeleted x).
Lemma step_com lpage S ps s S' s' v key : sstep lpage S ps s S' s' v -> ss_com S' !! key = ss_com S !! key \/ changing key S s s'.
Proof.
  intros St. destruct St; cbn; try solve [now left].
  - destruct (decide (up_key u = key)) as [<-|Hk]; [|left; now rewrite lookup_insert_ne by exact Hk].
    right. left. exists tok, ine, u, id, (co_id <$> ss_com S !! up_key u). auto.
  - destruct (decide (key0 = key)) as [<-|Hk]; [|left; now rewrite lookup_delete_ne by exact Hk].
    right. right. exists id, (co_id co). auto.
Qed.
Lemma step_published lpage S ps s S' s' v tok id r : sstep lpage S ps s S' s' v -> s' = SPublished tok id r ->
  exists ine u bytes, s = SCommitting tok ine /\ ss_up S !! tok = Some u /\ extends u bytes /\
    ss_com S' !! up_key u = Some {| co_id := id; co_size := up_size u; co_created := up_created u; co_bytes := bytes |}.
Proof.
  intros St E. destruct St; try discriminate. inversion E; subst. exists ine, u, bytes. cbn. rewrite lookup_insert. auto.
Qed.
Lemma step_deleted lpage S ps s S' s' v id : sstep lpage S ps s S' s' v -> s' = SDeleted id ->
  exists key i, s = SCall (ODelete key i) /\ ss_com S' !! key = None.
Proof. intros St E. destruct St; try discriminate. inversion E; subst. exists key, id0. cbn. rewrite lookup_delete. auto. Qed.
(** Calls that took effect do not fail. *)
Definition took (s : sproc) : Prop := match s with SPublished _ _ _ | SDeleted _ => True | _ => False end.
Lemma step_took lpage S ps s S' s' v : sstep lpage S ps s S' s' v -> took s -> s' = SDone /\ forall e, v <> Some (VRet (RFailed e)).
Proof. intros St H. destruct St; cbn in H; try contradiction; split; congruence. Qed.
Lemma step_done lpage S ps S' s' v : ~ sstep lpage S ps SDone S' s' v.
Proof. intros St. inversion St. Qed.
Lemma step_final lpage S ps s S' s' v : sstep lpage S ps s S' s' (Some v) -> is_final v = true -> s' = SDone.
Proof. intros St H. inversion St; subst; try reflexivity; discriminate. Qed.

(** ** Writers of a part *)
Definition wr (tok off : N) (s : sproc) : bool := match s with SWriting t o _ _ => (t =? tok) && (o =? off) | _ => false end.
Fixpoint cnt (tok off : N) (l : list sproc) : nat :=
  match l with [] => 0%nat | s :: l => ((if wr tok off s then 1 else 0) + cnt tok off l)%nat end.
Lemma cnt_app tok off a b : cnt tok off (a ++ b) = (cnt tok off a + cnt tok off b)%nat.
Proof. induction a as [|s a IH]; [reflexivity|]. cbn. rewrite IH. lia. Qed.
Lemma cnt_insert tok off l i s s' : l !! i = Some s ->
  (cnt tok off (<[i := s']> l) + (if wr tok off s then 1 else 0) = cnt tok off l + (if wr tok off s' then 1 else 0))%nat.
Proof.
  revert i. induction l as [|t l IH]; intros i Hi; [discriminate|]. destruct i as [|i].
  - cbn in Hi. inversion Hi; subst. cbn. lia.
  - cbn in Hi. specialize (IH i Hi). change (<[S i := s']> (t :: l)) with (t :: <[i := s']> l). cbn. lia.
Qed.
Lemma cnt_pos tok off l i s : l !! i = Some s -> wr tok off s = true -> (1 <= cnt tok off l)%nat.
Proof.
  revert i. induction l as [|t l IH]; intros i Hi Hw; [discriminate|]. destruct i as [|i]; cbn in Hi |- *.
  - inversion Hi; subst. rewrite Hw. lia.
  - specialize (IH i Hi Hw). lia.
Qed.
Lemma cnt_zero tok off l : (forall i s, l !! i = Some s -> wr tok off s = false) -> cnt tok off l = 0%nat.
Proof.
  induction l as [|t l IH]; intros H; [reflexivity|]. cbn. rewrite (H 0%nat t eq_refl). rewrite IH; [reflexivity|]. intros i s Hi. exact (H (S i) s Hi).
Qed.
Lemma step_cnt lpage S ps s S' s' v tok u' off : sstep lpage S ps s S' s' v -> ss_up S' !! tok = Some u' ->
  (wr tok off s = true -> forall u, ss_up S !! tok = Some u -> (1 <= pt_writers (up_parts u off))%nat) ->
  (exists u, ss_up S !! tok = Some u /\
     (pt_writers (up_parts u' off) + (if wr tok off s then 1 else 0) = pt_writers (up_parts u off) + (if wr tok off s' then 1 else 0))%nat) \/
  (tok ∉ ss_ids S /\ pt_writers (up_parts u' off) = 0%nat /\ wr tok off s = false /\ wr tok off s' = false).
Proof.
  intros St E Hpos.
  assert (Hp : forall tk o f, ss_up (on_part S tk o f) !! tok = Some u' ->
    (exists l x, s = SWriting tk o l x) /\ wr tok off s' = false /\ (forall q, pt_writers (f q) = pred (pt_writers q)) \/
    wr tok off s = false /\ (exists l x, s' = SWriting tk o l x) /\ (forall q, pt_writers (f q) = Datatypes.S (pt_writers q)) ->
    exists u, ss_up S !! tok = Some u /\
     (pt_writers (up_parts u' off) + (if wr tok off s then 1 else 0) = pt_writers (up_parts u off) + (if wr tok off s' then 1 else 0))%nat).
  { intros tk o f Ho Hs. unfold on_part in Ho. cbn in Ho. destruct (decide (tk = tok)) as [->|Hne].
    - rewrite lookup_alter in Ho. destruct (ss_up S !! tok) as [u|] eqn:Eu; [|discriminate]. inversion Ho; subst u'. exists u. split; [reflexivity|]. cbn.
      destruct (decide (o = off)) as [->|Hof].
      + rewrite fn_lookup_insert. destruct Hs as [((l & x & ->) & -> & Hf)|(-> & (l & x & ->) & Hf)]; cbn [wr] in *; rewrite !N.eqb_refl in *; cbn [andb] in *; rewrite Hf.
        * specialize (Hpos eq_refl u eq_refl). lia.
        * lia.
      + rewrite fn_lookup_insert_ne by exact Hof. assert (o =? off = false) as Ef by (now apply N.eqb_neq).
        destruct Hs as [((l & x & ->) & -> & _)|(-> & (l & x & ->) & _)]; cbn [wr]; rewrite Ef, andb_false_r; lia.
    - rewrite lookup_alter_ne in Ho by exact Hne. exists u'. split; [exact Ho|]. assert (tk =? tok = false) as Ef by (now apply N.eqb_neq).
      destruct Hs as [((l & x & ->) & -> & _)|(-> & (l & x & ->) & _)]; cbn [wr]; rewrite Ef; cbn [andb]; lia. }
  destruct St; try solve [left; eapply Hp; [exact E|]; first [left; split; [eauto|]; split; [reflexivity|intros q; reflexivity] | right; split; [reflexivity|]; split; [eauto|intros q; reflexivity]]];
    cbn in E; cbn [wr]; try solve [left; eauto].
  - destruct (decide (tok0 = tok)) as [->|Hne].
    + rewrite lookup_insert in E. inversion E; subst. right. auto.
    + rewrite lookup_insert_ne in E by exact Hne. left. eauto.
  - destruct (decide (tok0 = tok)) as [->|Hne].
    + rewrite lookup_insert in E. inversion E; subst. left. exists u. split; [apply H|]. reflexivity.
    + rewrite lookup_insert_ne in E by exact Hne. left. eauto.
  - apply lookup_delete_Some in E as [_ E]. left. eauto.
  - apply lookup_delete_Some in E as [_ E]. left. eauto.
Qed.

(** ** Traces *)
Lemma trace_of lpage z0 ls z : spec_steps lpage z0 ls z ->
  exists zs : nat -> ssys, zs 0%nat = z0 /\ zs (length ls) = z /\ forall p l, ls !! p = Some l -> spec_step lpage (zs p) l (zs (S p)).
Proof.
  induction 1 as [z|z ls z1 l z2 H (zs & E0 & E1 & Hst) St].
  - exists (fun _ => z). split; [reflexivity|]. split; [reflexivity|]. intros p l Hp. discriminate.
  - exists (fun p => if (p <=? length ls)%nat then zs p else z2). split; [exact E0|]. split.
    { rewrite app_length. cbn. replace (length ls + 1 <=? length ls)%nat with false by (symmetry; apply Nat.leb_gt; lia). reflexivity. }
    intros p l' Hp. destruct (decide (p < length ls)%nat) as [Hlt|Hge].
    + rewrite lookup_app_l in Hp by exact Hlt. replace (p <=? length ls)%nat with true by (symmetry; apply Nat.leb_le; lia).
      replace (S p <=? length ls)%nat with true by (symmetry; apply Nat.leb_le; lia). auto.
    + assert (p = length ls) as ->.
      { apply lookup_lt_Some in Hp. rewrite app_length in Hp. cbn in Hp. lia. }
      rewrite list_lookup_middle in Hp by reflexivity. inversion Hp; subst l'. rewrite Nat.leb_refl.
      replace (S (length ls) <=? length ls)%nat with false by (symmetry; apply Nat.leb_gt; lia). rewrite E1. exact St.
Qed.

Section Trace.
  Context (lpage : N) (ls : list label) (zs : nat -> ssys).
  Hypothesis Hz0 : zs 0%nat = {| z_state := ss_empty; z_procs := [] |}.
  Hypothesis Hzs : forall p l, ls !! p = Some l -> spec_step lpage (zs p) l (zs (S p)).
  Notation stt p := (z_state (zs p)).
  Notation ps p := (z_procs (zs p)).

  Lemma steps_at p : (p <= length ls)%nat -> spec_steps lpage {| z_state := ss_empty; z_procs := [] |} (take p ls) (zs p).
  Proof.
    induction p as [|p IH]; intros Hp.
    - rewrite take_0, Hz0. constructor.
    - destruct (lookup_lt_is_Some_2 ls p ltac:(lia)) as [l Hl]. rewrite (take_S_r _ _ _ Hl). econstructor; [apply IH; lia|]. auto.
  Qed.
  Lemma linv_at p : (p <= length ls)%nat -> LInv (take p ls) (ps p).
  Proof. intros Hp. destruct (spec_history _ _ _ (steps_at p Hp)) as (B & HL & _). exact HL. Qed.

  Lemma next p : (p < length ls)%nat ->
    (exists op, ls !! p = Some (LCall (length (ps p)) op) /\ stt (S p) = stt p /\ ps (S p) = ps p ++ [SCall op]) \/
    (exists i s s' v, ls !! p = Some (lab i v) /\ ps p !! i = Some s /\ sstep lpage (stt p) (ps p) s (stt (S p)) s' v /\ ps (S p) = <[i := s']> (ps p)).
  Proof.
    intros Hp. destruct (lookup_lt_is_Some_2 ls p Hp) as [l Hl]. pose proof (Hzs p l Hl) as Hs. remember (zs p) as z eqn:Ez. remember (zs (S p)) as z' eqn:Ez'.
    destruct Hs as [z op|z i s S' s' v Hi Hst].
    - left. exists op. auto.
    - right. exists i, s, s', v. cbn. auto.
  Qed.
  Lemma in_take p x : x ∈ take p ls <-> exists q, (q < p)%nat /\ ls !! q = Some x.
  Proof.
    rewrite elem_of_list_lookup. split.
    - intros [q Hq]. apply lookup_take_Some in Hq as [Hq Hlt]. eauto.
    - intros (q & Hlt & Hq). exists q. now apply lookup_take_Some.
  Qed.

  (** Calls *)
  Lemma at_call p i op : ls !! p = Some (LCall i op) -> ps p !! i = None /\ ps (S p) !! i = Some (SCall op) /\ stt (S p) = stt p.
  Proof.
    intros Hp. destruct (next p (lookup_lt_Some _ _ _ Hp)) as [(op' & H1 & H2 & H3)|(j & s & s' & v & H1 & _)].
    - rewrite Hp in H1. inversion H1; subst. split; [now apply lookup_ge_None|]. rewrite H3. split; [|exact H2]. now rewrite list_lookup_middle.
    - rewrite Hp in H1. destruct v; discriminate.
  Qed.
  Lemma at_vis p i v : ls !! p = Some (LVis i v) ->
    exists s s', ps p !! i = Some s /\ sstep lpage (stt p) (ps p) s (stt (S p)) s' (Some v) /\ ps (S p) = <[i := s']> (ps p) /\ ps (S p) !! i = Some s'.
  Proof.
    intros Hp. destruct (next p (lookup_lt_Some _ _ _ Hp)) as [(op' & H1 & _)|(j & s & s' & w & H1 & H2 & H3 & H4)].
    - rewrite Hp in H1. discriminate.
    - rewrite Hp in H1. destruct w as [w|]; [|discriminate]. inversion H1; subst. exists s, s'.
      split; [exact H2|]. split; [exact H3|]. split; [exact H4|]. rewrite H4. apply list_lookup_insert. now apply lookup_lt_Some in H2.
  Qed.
  (** The next state of a call. *)
  Lemma proc_next p i s : (p < length ls)%nat -> ps p !! i = Some s ->
    ps (S p) !! i = Some s \/ exists s' v, ls !! p = Some (lab i v) /\ sstep lpage (stt p) (ps p) s (stt (S p)) s' v /\ ps (S p) !! i = Some s'.
  Proof.
    intros Hp Hi. destruct (next p Hp) as [(op' & H1 & H2 & H3)|(j & t & s' & w & H1 & H2 & H3 & H4)].
    - left. rewrite H3. now apply lookup_app_l_Some.
    - destruct (decide (j = i)) as [->|Hne].
      + right. assert (t = s) as -> by congruence. exists s', w. split; [exact H1|]. split; [exact H3|]. rewrite H4. apply list_lookup_insert. now apply lookup_lt_Some in Hi.
      + left. rewrite H4. now rewrite list_lookup_insert_ne.
  Qed.
  Lemma proc_prev p i s' : (p < length ls)%nat -> ps (S p) !! i = Some s' ->
    ps p !! i = Some s' \/ (exists op, ls !! p = Some (LCall i op) /\ s' = SCall op) \/
    exists s v, ls !! p = Some (lab i v) /\ ps p !! i = Some s /\ sstep lpage (stt p) (ps p) s (stt (S p)) s' v.
  Proof.
    intros Hp Hi. destruct (next p Hp) as [(op' & H1 & H2 & H3)|(j & t & t' & w & H1 & H2 & H3 & H4)].
    - rewrite H3 in Hi. apply lookup_app_Some in Hi as [Hi|[Hge Hi]]; [now left|]. right. left. apply list_lookup_singleton_Some in Hi as [E <-].
      exists op'. rewrite H1. split; [|reflexivity]. do 2 f_equal. lia.
    - rewrite H4 in Hi. destruct (decide (j = i)) as [->|Hne].
      + rewrite list_lookup_insert in Hi by (now apply lookup_lt_Some in H2). inversion Hi; subst. right. right. eauto 10.
      + rewrite list_lookup_insert_ne in Hi by exact Hne. now left.
  Qed.
  Lemma stays_done p q i : (p <= q <= length ls)%nat -> ps p !! i = Some SDone -> ps q !! i = Some SDone.
  Proof.
    intros Hpq Hi. induction q as [|q IH]; [now replace 0%nat with p by lia|].
    destruct (decide (p = S q)) as [->|Hne]; [exact Hi|].
    destruct (proc_next q i SDone ltac:(lia) (IH ltac:(lia))) as [H|(s' & v & _ & H & _)]; [exact H|]. now apply step_done in H.
  Qed.
  Lemma stays_proc p q i : (p <= q <= length ls)%nat -> is_Some (ps p !! i) -> is_Some (ps q !! i).
  Proof.
    intros Hpq Hi. induction q as [|q IH]; [now replace 0%nat with p by lia|].
    destruct (decide (p = S q)) as [->|Hne]; [exact Hi|]. destruct (IH ltac:(lia)) as [s Hs].
    destruct (proc_next q i s ltac:(lia) Hs) as [H|(s' & v & _ & _ & H)]; rewrite H; eauto.
  Qed.
  Lemma final_done p i v : ls !! p = Some (LVis i v) -> is_final v = true -> ps (S p) !! i = Some SDone.
  Proof. intros Hp Hf. destruct (at_vis p i v Hp) as (s & s' & H1 & H2 & _ & H3). now rewrite (step_final _ _ _ _ _ _ _ H2 Hf) in H3. Qed.
  Lemma call_once p q i op op' : ls !! p = Some (LCall i op) -> ls !! q = Some (LCall i op') -> p = q.
  Proof.
    assert (forall p q op op', ls !! p = Some (LCall i op) -> ls !! q = Some (LCall i op') -> ~ (p < q)%nat) as H.
    { intros p1 q1 o1 o2 H1 H2 Hlt. destruct (at_call _ _ _ H1) as (_ & A & _). destruct (at_call _ _ _ H2) as (B & _).
      destruct (stays_proc (S p1) q1 i) as [s Hs]; [apply lookup_lt_Some in H2; lia|eauto|]. congruence. }
    intros H1 H2. destruct (lt_eq_lt_dec p q) as [[Hlt|E]|Hlt]; [|exact E|]; exfalso; [exact (H _ _ _ _ H1 H2 Hlt)|exact (H _ _ _ _ H2 H1 Hlt)].
  Qed.
  Lemma call_op p q i op op' : ls !! p = Some (LCall i op) -> ls !! q = Some (LCall i op') -> op = op'.
  Proof. intros H1 H2. pose proof (call_once _ _ _ _ _ H1 H2) as ->. congruence. Qed.
  (** Nothing is seen of a call before it is made. *)
  Lemma call_first p q i op v : ls !! p = Some (LCall i op) -> ls !! q = Some (LVis i v) -> (p < q)%nat.
  Proof.
    intros H1 H2. destruct (at_call _ _ _ H1) as (A & _). destruct (at_vis _ _ _ H2) as (s & s' & _ & _ & _ & B).
    destruct (decide (p = q)) as [->|Hne]; [congruence|]. destruct (decide (p < q)%nat) as [|Hge]; [assumption|]. exfalso.
    destruct (stays_proc (S q) p i) as [t Ht]; [apply lookup_lt_Some in H1; lia|eauto|]. congruence.
  Qed.
  (** A call's operation, from its state. *)
  Lemma call_of p i s : (p <= length ls)%nat -> ps p !! i = Some s -> proc_call (take p ls) i s.
  Proof. intros Hp Hi. exact (l_proc _ _ (linv_at p Hp) _ _ Hi). Qed.

  (** Uploads *)
  Lemma ids_mono p q : (p <= q <= length ls)%nat -> ss_ids (stt p) ⊆ ss_ids (stt q).
  Proof.
    intros Hpq. induction q as [|q IH]; [now replace 0%nat with p by lia|].
    destruct (decide (p = S q)) as [->|Hne]; [reflexivity|]. transitivity (ss_ids (stt q)); [apply IH; lia|].
    destruct (next q ltac:(lia)) as [(op' & _ & -> & _)|(j & t & t' & w & _ & _ & H3 & _)]; [reflexivity|]. eapply step_ids, H3.
  Qed.
  Lemma upload_call p tok u : (p <= length ls)%nat -> ss_up (stt p) !! tok = Some u -> created_as (take p ls) tok (up_key u) (up_size u).
  Proof.
    revert u. induction p as [|p IH]; intros u Hp Hu; [rewrite Hz0 in Hu; discriminate|].
    assert (Hm : forall k s, created_as (take p ls) tok k s -> created_as (take (S p) ls) tok k s).
    { intros k s (i & H1 & H2). exists i. rewrite in_take in H1, H2 |- *. rewrite in_take. destruct H1 as (q1 & L1 & H1). destruct H2 as (q2 & L2 & H2).
      split; [exists q1|exists q2]; (split; [lia|assumption]). }
    destruct (next p ltac:(lia)) as [(op' & _ & E & _)|(j & t & t' & w & H1 & H2 & H3 & _)].
    - rewrite E in Hu. apply Hm, IH; [lia|exact Hu].
    - destruct (step_key _ _ _ _ _ _ _ _ _ H3 Hu) as [(u0 & Hu0 & -> & ->)|(-> & -> & _)]; [apply Hm, IH; [lia|exact Hu0]|].
      pose proof (call_of p j _ ltac:(lia) H2) as Hc. cbn in Hc. exists j. rewrite (take_S_r _ _ _ H1). split; apply elem_of_app; [left; exact Hc|right; now apply elem_of_list_singleton].
  Qed.
  Lemma created_id p i tok : ls !! p = Some (LVis i (VRet (RCreated tok))) -> tok ∉ ss_ids (stt p) /\ tok ∈ ss_ids (stt (S p)).
  Proof. intros Hp. destruct (at_vis _ _ _ Hp) as (s & s' & _ & H & _). inversion H; subst. cbn. set_solver. Qed.
  Lemma created_once p q i j tok : ls !! p = Some (LVis i (VRet (RCreated tok))) -> ls !! q = Some (LVis j (VRet (RCreated tok))) -> p = q.
  Proof.
    assert (forall p q i j, ls !! p = Some (LVis i (VRet (RCreated tok))) -> ls !! q = Some (LVis j (VRet (RCreated tok))) -> ~ (p < q)%nat) as H.
    { intros p1 q1 i1 j1 H1 H2 Hlt. destruct (created_id _ _ _ H1) as [_ A]. destruct (created_id _ _ _ H2) as [B _]. apply B.
      eapply ids_mono; [|exact A]. apply lookup_lt_Some in H2. lia. }
    intros H1 H2. destruct (lt_eq_lt_dec p q) as [[Hlt|E]|Hlt]; [|exact E|]; exfalso; [exact (H _ _ _ _ H1 H2 Hlt)|exact (H _ _ _ _ H2 H1 Hlt)].
  Qed.
  Lemma created_unique tok k s k' s' : created_as ls tok k s -> created_as ls tok k' s' -> k' = k /\ s' = s.
  Proof.
    intros (i & A1 & A2) (j & B1 & B2). apply elem_of_list_lookup in A1 as [a1 A1], A2 as [a2 A2], B1 as [b1 B1], B2 as [b2 B2].
    pose proof (created_once _ _ _ _ _ A2 B2) as ->. rewrite A2 in B2. inversion B2; subst j. pose proof (call_op _ _ _ _ _ A1 B1) as E. inversion E. auto.
  Qed.
  Lemma created_take p tok k s : created_as (take p ls) tok k s -> created_as ls tok k s.
  Proof. intros (i & H1 & H2). exists i. rewrite <- (take_drop p ls). split; apply elem_of_app; now left. Qed.

  (** ** While nothing else changes a key *)
  (** Calls that took effect never fail. *)
  Lemma took_no_error p i s : (p <= length ls)%nat -> ps p !! i = Some s -> took s -> forall e, LVis i (VRet (RFailed e)) ∉ ls.
  Proof.
    intros Hp Hi Ht e Hin. apply elem_of_list_lookup in Hin as [q Hq]. pose proof (final_done _ _ _ Hq eq_refl) as Hd. pose proof (lookup_lt_Some _ _ _ Hq) as Hlt.
    destruct (decide (S q <= p)%nat) as [Hle|Hgt].
    { rewrite (stays_done (S q) p i ltac:(lia) Hd) in Hi. inversion Hi; subst. exact Ht. }
    assert (forall r, (p <= r <= q)%nat -> ps r !! i = Some s \/ ps r !! i = Some SDone) as K.
    { intros r. induction r as [|r IH]; intros Hr; [left; now replace 0%nat with p by lia|].
      destruct (decide (p = S r)) as [->|Hne]; [now left|]. destruct (IH ltac:(lia)) as [H|H].
      - destruct (proc_next r i s ltac:(lia) H) as [H'|(s' & v & _ & H' & H'')]; [now left|]. right. now destruct (step_took _ _ _ _ _ _ _ H' Ht) as [-> _].
      - right. apply (stays_done r (S r) i); [lia|exact H]. }
    destruct (at_vis _ _ _ Hq) as (t & t' & H1 & H2 & _). destruct (K q ltac:(lia)) as [H|H]; rewrite H in H1; inversion H1; subst t.
    - destruct (step_took _ _ _ _ _ _ _ H2 Ht) as [_ H']. now apply (H' e).
    - now apply step_done in H2.
  Qed.
  (** From [a] to [b], only call [j0] changes what is stored under [key]. *)
  Definition only (key : list N) (j0 : nat) (a b : nat) : Prop :=
    forall p s s' v j, (a < p)%nat -> (p < b)%nat -> ls !! p = Some (lab j v) -> ps p !! j = Some s -> sstep lpage (stt p) (ps p) s (stt (S p)) s' v ->
      ps (S p) !! j = Some s' -> changing key (stt p) s s' -> j = j0.
  Lemma apart_only key j0 a b la lb : ls !! a = Some la -> ls !! b = Some lb ->
    (exists op0, la = LCall j0 op0) -> (exists i v, lb = LVis i v /\ is_final v = true) ->
    (forall j op, LCall j op ∈ ls -> may_change ls key j op -> j <> j0 -> apart ls j op la lb) -> only key j0 a b.
  Proof.
    intros Ha Hb (op0 & ->) (iv & vv & -> & Hfin) Hap p s s' v j Hap1 Hpb Hl Hi Hst Hi' Hne.
    destruct (decide (j = j0)) as [|Hj]; [assumption|]. exfalso. pose proof (lookup_lt_Some _ _ _ Hl) as Hlen.
    assert (exists q op, (q < p)%nat /\ ls !! q = Some (LCall j op) /\ may_change ls key j op) as (q & op & Hq & Hcall & Hmc).
    { destruct Hne as [(tok & ine & u & id & r & -> & -> & Hu & Hk)|(id & x & -> & ->)].
      - pose proof (call_of p j _ ltac:(lia) Hi) as Hc. cbn in Hc. apply in_take in Hc as (q & Hq & Hc). exists q, (OCommit tok ine). split; [exact Hq|]. split; [exact Hc|].
        split; [|eapply (took_no_error (S p) j); [lia|exact Hi'|exact I]]. exists (up_size u). rewrite <- Hk. eapply created_take, upload_call; [|exact Hu]. lia.
      - pose proof (call_of p j _ ltac:(lia) Hi) as Hc. cbn in Hc. apply in_take in Hc as (q & Hq & Hc). exists q, (ODelete key id). split; [exact Hq|]. split; [exact Hc|].
        split; [reflexivity|]. eapply (took_no_error (S p) j); [lia|exact Hi'|exact I]. }
    destruct (Hap j op (elem_of_list_lookup_2 _ _ _ Hcall) Hmc Hj) as [(w & Hw & Hpre)|Hpre]; apply precedes_index in Hpre as (p1 & p2 & Hlt & H1 & H2).
    - assert (p2 = a) as -> by (eapply call_once; eassumption). pose proof (final_done _ _ _ H1 Hw) as Hd.
      rewrite (stays_done (S p1) p j ltac:(lia) Hd) in Hi. inversion Hi; subst s. now apply step_done in Hst.
    - assert (p2 = q) as -> by (eapply call_once; eassumption).
      (* the final label is unique *)
      assert (p1 = b) as ->; [|lia].
      destruct (lt_eq_lt_dec p1 b) as [[Hl1|E]|Hl1]; [|exact E|]; exfalso.
      + pose proof (final_done _ _ _ H1 Hfin) as Hd. destruct (at_vis _ _ _ Hb) as (t & t' & T1 & T2 & _). pose proof (lookup_lt_Some _ _ _ Hb).
        rewrite (stays_done (S p1) b iv ltac:(lia) Hd) in T1. inversion T1; subst t. now apply step_done in T2.
      + pose proof (final_done _ _ _ Hb Hfin) as Hd. destruct (at_vis _ _ _ H1) as (t & t' & T1 & T2 & _). pose proof (lookup_lt_Some _ _ _ H1).
        rewrite (stays_done (S b) p1 iv ltac:(lia) Hd) in T1. inversion T1; subst t. now apply step_done in T2.
  Qed.
  (** Between, once [j0] has taken effect, the key keeps what it has. *)
  Lemma key_stays key j0 a b p q s : only key j0 a b -> (a < p)%nat -> (p <= q)%nat -> (q <= b)%nat -> (b <= length ls)%nat ->
    ps p !! j0 = Some s -> took s \/ s = SDone -> ss_com (stt q) !! key = ss_com (stt p) !! key.
  Proof.
    intros Ho Hap Hpq Hqb Hb Hi Ht. induction q as [|q IH]; [now replace 0%nat with p by lia|].
    destruct (decide (p = S q)) as [->|Hne]; [reflexivity|]. rewrite <- (IH ltac:(lia) ltac:(lia)).
    destruct (next q ltac:(lia)) as [(op' & _ & E & _)|(j & t & t' & w & H1 & H2 & H3 & H4)]; [now rewrite E|].
    assert (ps (S q) !! j = Some t') as H5 by (rewrite H4; apply list_lookup_insert; now apply lookup_lt_Some in H2).
    destruct (step_com _ _ _ _ _ _ _ key H3) as [|Hd]; [assumption|exfalso].
    assert (j = j0) as -> by (eapply (Ho q); [lia|lia|exact H1|exact H2|exact H3|exact H5|exact Hd]).
    assert (forall r, (p <= r <= q)%nat -> ps r !! j0 = Some s \/ ps r !! j0 = Some SDone) as K.
    { intros r. induction r as [|r IHr]; intros Hr; [left; now replace 0%nat with p by lia|].
      destruct (decide (p = S r)) as [->|]; [now left|]. destruct (IHr ltac:(lia)) as [H|H].
      - destruct (proc_next r j0 s ltac:(lia) H) as [H'|(s' & v & _ & H' & H'')]; [now left|]. destruct Ht as [Ht| ->]; [|now apply step_done in H']. right. now destruct (step_took _ _ _ _ _ _ _ H' Ht) as [-> _].
      - right. apply (stays_done r (S r) j0); [lia|exact H]. }
    destruct (K q ltac:(lia)) as [H|H]; rewrite H in H2; inversion H2; subst t.
    - destruct Hd as [(tok & ine & u & id & r & -> & _)|(id & x & -> & _)]; destruct Ht as [[]|Ht]; discriminate Ht.
    - now apply step_done in H3.
  Qed.

  (** ** When a commit or delete takes effect *)
  Lemma commit_point pc pr jc tok ine oid : ls !! pc = Some (LCall jc (OCommit tok ine)) -> ls !! pr = Some (LVis jc (VRet (RCommitted (Some oid)))) ->
    exists q u bytes r, (pc < q)%nat /\ (q < pr)%nat /\ ps q !! jc = Some (SCommitting tok ine) /\ ss_up (stt q) !! tok = Some u /\ extends u bytes /\
      ss_com (stt (S q)) !! up_key u = Some {| co_id := oid; co_size := up_size u; co_created := up_created u; co_bytes := bytes |} /\
      ps (S q) !! jc = Some (SPublished tok oid r).
  Proof.
    intros Hc Hr. pose proof (call_first _ _ _ _ _ Hc Hr) as Hlt. pose proof (lookup_lt_Some _ _ _ Hr) as Hlen.
    assert (exists tk r, ps pr !! jc = Some (SPublished tk oid r)) as (tk & r & Hp).
    { destruct (at_vis _ _ _ Hr) as (s & s' & H1 & H2 & _). inversion H2; subst. eauto. }
    destruct (at_call _ _ _ Hc) as (_ & Hcall & _).
    assert (forall p, (S pc <= p <= pr)%nat -> ps p !! jc = Some (SPublished tk oid r) -> exists q, (pc < q < p)%nat /\ ps q !! jc <> Some (SPublished tk oid r) /\ ps (S q) !! jc = Some (SPublished tk oid r)) as K.
    { induction p as [|p IH]; intros Hpp Hps; [lia|]. destruct (decide (S pc = S p)) as [E|Hne]; [rewrite <- E in Hps; rewrite Hcall in Hps; discriminate|].
      destruct (proc_prev p jc _ ltac:(lia) Hps) as [H|[(op & _ & E)|(s & v & H1 & H2 & H3)]]; [|discriminate|].
      - destruct (IH ltac:(lia) H) as (q & ? & ? & ?). exists q. split; [lia|]. auto.
      - exists p. split; [lia|]. split; [|exact Hps]. rewrite H2. intros E. inversion E; subst. destruct (step_took _ _ _ _ _ _ _ H3 I) as [E' _]. discriminate. }
    destruct (K pr ltac:(lia) Hp) as (q & Hq & Hn & Hy).
    destruct (proc_prev q jc _ ltac:(lia) Hy) as [H|[(op & _ & E)|(s & v & H1 & H2 & H3)]]; [contradiction|discriminate|].
    destruct (step_published _ _ _ _ _ _ _ _ _ _ H3 eq_refl) as (ine' & u & bytes & -> & Hu & He & Hcom).
    pose proof (call_of q jc _ ltac:(lia) H2) as Hcc. cbn in Hcc. apply in_take in Hcc as (q1 & _ & Hcc). pose proof (call_op _ _ _ _ _ Hc Hcc) as E. inversion E; subst tk ine'.
    exists q, u, bytes, r. repeat (split; [first [assumption|lia]|]). exact Hy.
  Qed.
  Lemma delete_point pc pr jc key id : ls !! pc = Some (LCall jc (ODelete key id)) -> ls !! pr = Some (LVis jc (VRet RDeleted)) ->
    exists q x, (pc < q)%nat /\ (q < pr)%nat /\ ss_com (stt (S q)) !! key = None /\ ps (S q) !! jc = Some (SDeleted x).
  Proof.
    intros Hc Hr. pose proof (call_first _ _ _ _ _ Hc Hr) as Hlt. pose proof (lookup_lt_Some _ _ _ Hr) as Hlen.
    assert (exists r, ps pr !! jc = Some (SDeleted r)) as [r Hp].
    { destruct (at_vis _ _ _ Hr) as (s & s' & H1 & H2 & _). inversion H2; subst. eauto. }
    destruct (at_call _ _ _ Hc) as (_ & Hcall & _).
    assert (forall p, (S pc <= p <= pr)%nat -> ps p !! jc = Some (SDeleted r) -> exists q, (pc < q < p)%nat /\ ps q !! jc <> Some (SDeleted r) /\ ps (S q) !! jc = Some (SDeleted r)) as K.
    { induction p as [|p IH]; intros Hpp Hps; [lia|]. destruct (decide (S pc = S p)) as [E|Hne]; [rewrite <- E in Hps; rewrite Hcall in Hps; discriminate|].
      destruct (proc_prev p jc _ ltac:(lia) Hps) as [H|[(op & _ & E)|(s & v & H1 & H2 & H3)]]; [|discriminate|].
      - destruct (IH ltac:(lia) H) as (q & ? & ? & ?). exists q. split; [lia|]. auto.
      - exists p. split; [lia|]. split; [|exact Hps]. rewrite H2. intros E. inversion E; subst. destruct (step_took _ _ _ _ _ _ _ H3 I) as [E' _]. discriminate. }
    destruct (K pr ltac:(lia) Hp) as (q & Hq & Hn & Hy).
    destruct (proc_prev q jc _ ltac:(lia) Hy) as [H|[(op & _ & E)|(s & v & H1 & H2 & H3)]]; [contradiction|discriminate|].
    destruct (step_deleted _ _ _ _ _ _ _ _ H3 eq_refl) as (key' & id' & -> & Hcom).
    pose proof (call_of q jc _ ltac:(lia) H2) as Hcc. cbn in Hcc. apply in_take in Hcc as (q1 & _ & Hcc). pose proof (call_op _ _ _ _ _ Hc Hcc) as E. inversion E; subst key' id'.
    exists q, r. repeat (split; [first [assumption|lia]|]). exact Hy.
  Qed.
  (** ** Parts written once and for all *)
  Lemma toks_at p tok u : (p <= length ls)%nat -> ss_up (stt p) !! tok = Some u -> tok ∈ ss_ids (stt p).
  Proof. intros Hp Hu. destruct (spec_history _ _ _ (steps_at p Hp)) as (B & _ & HG & _). exact (g_toks _ _ _ _ HG _ _ Hu). Qed.
  Lemma writing_id p i s : (p <= length ls)%nat -> ps p !! i = Some s -> forall tok off, wr tok off s = true -> tok ∈ ss_ids (stt p).
  Proof.
    revert i s. induction p as [|p IH]; intros i s Hp Hi tok off Hw; [rewrite Hz0 in Hi; discriminate|].
    destruct (proc_prev p i s ltac:(lia) Hi) as [H|[(op & _ & ->)|(t & v & H1 & H2 & H3)]].
    - eapply ids_mono; [|eapply IH; [lia|exact H|exact Hw]]. lia.
    - discriminate.
    - destruct s; try discriminate. cbn in Hw. apply andb_true_iff in Hw as [E1 E2]. apply N.eqb_eq in E1, E2. subst.
      assert (exists u, is_open (stt p) tok u) as (u & Hu & _) by (inversion H3; eauto).
      eapply ids_mono; [|eapply toks_at; [|exact Hu]]; lia.
  Qed.
  Lemma cnt_at p : (p <= length ls)%nat -> forall tok u off, ss_up (stt p) !! tok = Some u -> pt_writers (up_parts u off) = cnt tok off (ps p).
  Proof.
    induction p as [|p IH]; intros Hp tok u off Hu; [rewrite Hz0 in Hu; discriminate|].
    destruct (next p ltac:(lia)) as [(op' & _ & E & E')|(j & t & t' & w & H1 & H2 & H3 & H4)].
    - rewrite E in Hu. rewrite E', cnt_app. cbn. rewrite (IH ltac:(lia) tok u off Hu). lia.
    - rewrite H4. pose proof (cnt_insert tok off (ps p) j t t' H2) as Hci.
      destruct (step_cnt _ _ _ _ _ _ _ tok u off H3 Hu) as [(u0 & Hu0 & Hc)|(Hn & -> & W1 & W2)].
      + intros Hw u1 Hu1. rewrite (IH ltac:(lia) tok u1 off Hu1). eapply cnt_pos; eassumption.
      + rewrite (IH ltac:(lia) tok u0 off Hu0) in Hc. lia.
      + rewrite W1, W2 in Hci. symmetry. enough (cnt tok off (ps p) = 0%nat) by lia. apply cnt_zero. intros i s Hi.
        destruct (wr tok off s) eqn:Ew; [|reflexivity]. exfalso. apply Hn. eapply writing_id; [|exact Hi|exact Ew]. lia.
  Qed.

  Section Part.
    Context (i : nat) (tok off len : N) (sm : list item) (pw b : nat).
    Hypothesis Hpw : ls !! pw = Some (LCall i (OWrite tok off len sm)).
    Hypothesis Hb : (b <= length ls)%nat.
    Definition wants (s : sproc) : Prop := wr tok off s = true \/ exists l x, s = SCall (OWrite tok off l x).
    Hypothesis Hother : forall p j s, (pw < p)%nat -> (p <= b)%nat -> j <> i -> ps p !! j = Some s -> ~ wants s.
    Definition has_part (p : nat) : Prop := tok ∈ ss_ids (stt p) /\ forall u, ss_up (stt p) !! tok = Some u -> pt_data (up_parts u off) = Some (stream_bytes sm).
    Definition part_at (p : nat) (s : sproc) : Prop :=
      match s with
      | SCall op => op = OWrite tok off len sm
      | SWriting t o l x => SWriting t o l x = SWriting tok off len sm /\ tok ∈ ss_ids (stt p) /\
          forall u, ss_up (stt p) !! tok = Some u -> up_parts u off = {| pt_writers := 1; pt_clean := true; pt_data := None |}
      | SWrote x => x = sm /\ has_part p
      | SDone => LVis i (VRet RWritten) ∈ take p ls -> has_part p
      | _ => False
      end.
    (** Steps of other calls leave the part alone. *)
    Lemma part_other p j t t' v : (pw < p)%nat -> (p < b)%nat -> j <> i -> ps p !! j = Some t -> sstep lpage (stt p) (ps p) t (stt (S p)) t' v ->
      tok ∈ ss_ids (stt p) -> forall u', ss_up (stt (S p)) !! tok = Some u' -> exists u, ss_up (stt p) !! tok = Some u /\ up_parts u' off = up_parts u off.
    Proof.
      intros H1 H2 Hj Hi Hst Hin u' Hu'. destruct (step_part _ _ _ _ _ _ _ tok u' off Hst Hu') as [(u & Hu & [He|(x & Hs)])|[Hn _]]; [eauto| |contradiction].
      exfalso. apply (Hother p j t); try assumption; [lia|]. unfold wants.
      destruct Hs as [(l & -> & _)|[(l & -> & _)|(l & -> & _)]]; [right; eauto|left|left]; cbn; now rewrite !N.eqb_refl.
    Qed.
    Lemma written_once p s : (p <= b)%nat -> ps p !! i = Some s -> LVis i (VRet RWritten) ∈ take p ls -> s = SDone.
    Proof.
      intros Hp Hi Hin. apply in_take in Hin as (q & Hq & Hin). pose proof (final_done _ _ _ Hin eq_refl) as Hd.
      rewrite (stays_done (S q) p i ltac:(lia) Hd) in Hi. now inversion Hi.
    Qed.
    Lemma part_inv p : (pw < p)%nat -> (p <= b)%nat -> exists s, ps p !! i = Some s /\ part_at p s.
    Proof.
      induction p as [|p IH]; intros H1 H2; [lia|]. destruct (decide (p = pw)) as [->|Hne].
      { exists (SCall (OWrite tok off len sm)). split; [apply at_call, Hpw|]. reflexivity. }
      destruct (IH ltac:(lia) ltac:(lia)) as (s & Hs & Hpa). clear IH.
      assert (Hids : ss_ids (stt p) ⊆ ss_ids (stt (S p))) by (apply ids_mono; lia).
      destruct (next p ltac:(lia)) as [(op' & L & E & E')|(j & t & t' & w & L & L2 & L3 & L4)].
      - exists s. split; [rewrite E'; now apply lookup_app_l_Some|]. unfold part_at, has_part in *. rewrite E. destruct s; try exact Hpa.
        rewrite (take_S_r _ _ _ L), elem_of_app, elem_of_list_singleton. intros [H|H]; [exact (Hpa H)|discriminate].
      - destruct (decide (j = i)) as [->|Hj].
        + assert (t = s) as -> by congruence.
          exists t'. split; [rewrite L4; apply list_lookup_insert; now apply lookup_lt_Some in Hs|].
          assert (Hcnt : forall u, s = SCall (OWrite tok off len sm) -> ss_up (stt p) !! tok = Some u -> pt_writers (up_parts u off) = 0%nat).
          { intros u -> Hu. rewrite (cnt_at p ltac:(lia) tok u off Hu). apply cnt_zero. intros k x Hk. destruct (wr tok off x) eqn:Ew; [|reflexivity]. exfalso.
            destruct (decide (k = i)) as [->|Hk2]; [rewrite Hs in Hk; inversion Hk; subst; discriminate|].
            apply (Hother p k x ltac:(lia) ltac:(lia) Hk2 Hk). now left. }
          assert (Hw : forall v, w = Some v -> v <> VRet RWritten -> LVis i (VRet RWritten) ∈ take (S p) ls -> s = SDone).
          { intros v -> Hv Hin. rewrite (take_S_r _ _ _ L), elem_of_app, elem_of_list_singleton in Hin. destruct Hin as [H|H]; [|inversion H; congruence].
            eapply written_once; [|exact Hs|exact H]. lia. }
          destruct s; cbn [part_at] in Hpa; try contradiction.
          * subst op. pose proof L3 as L3'. inversion L3; subst; cbn [part_at]; try (intros Hin; exfalso; discriminate (Hw _ eq_refl ltac:(discriminate) Hin)).
            match goal with H : is_open _ _ ?u0 |- _ => destruct H as [Hu0 Ho0] end.
            split; [reflexivity|]. split; [apply Hids; eapply toks_at; [|exact Hu0]; lia|]. intros u' Hu'.
            match goal with H : _ = stt (S p) |- _ => rewrite <- H in Hu' end. unfold on_part in Hu'. cbn in Hu'. rewrite lookup_alter, Hu0 in Hu'. inversion Hu'; subst. cbn.
            rewrite fn_lookup_insert. unfold part_start. rewrite (Hcnt _ eq_refl Hu0). reflexivity.
          * destruct Hpa as (E & Hin & Hpart). inversion E; subst tok0 offset len0 st. inversion L3; subst; cbn [part_at]; try (intros Hx; exfalso; discriminate (Hw _ eq_refl ltac:(discriminate) Hx)).
            split; [reflexivity|]. split; [now apply Hids|]. intros u' Hu'. match goal with H : _ = stt (S p) |- _ => rewrite <- H in Hu' end.
            unfold on_part in Hu'. cbn in Hu'. rewrite lookup_alter in Hu'. destruct (ss_up (stt p) !! tok) as [u0|] eqn:Hu0; [|discriminate]. inversion Hu'; subst. cbn.
            rewrite fn_lookup_insert. unfold part_finish. rewrite (Hpart u0 eq_refl). reflexivity.
          * destruct Hpa as (-> & Hin & Hpart). inversion L3; subst; cbn [part_at]; intros _; (split; [now apply Hids|]);
              intros u' Hu'; apply Hpart; congruence.
          * now apply step_done in L3.
        + exists s. split; [rewrite L4; now rewrite list_lookup_insert_ne|].
          pose proof (fun Hin => part_other p j t t' w ltac:(lia) ltac:(lia) Hj L2 L3 Hin) as Hp.
          assert (Hhas : has_part p -> has_part (S p)).
          { intros [Hin Hd]. split; [now apply Hids|]. intros u' Hu'. destruct (Hp Hin u' Hu') as (u & Hu & ->). auto. }
          destruct s; cbn [part_at] in *; try contradiction.
          * exact Hpa.
          * destruct Hpa as (E & Hin & Hd). split; [exact E|]. split; [now apply Hids|]. intros u' Hu'. destruct (Hp Hin u' Hu') as (u & Hu & ->). auto.
          * destruct Hpa as [-> Hd]. auto.
          * rewrite (take_S_r _ _ _ L), elem_of_app, elem_of_list_singleton. intros [H|H]; [auto|]. destruct w; cbn in H; [inversion H; subst; contradiction|discriminate].
    Qed.
  End Part.

  (** The last thing a call does happens once. *)
  Lemma final_once p q i v w : ls !! p = Some (LVis i v) -> is_final v = true -> ls !! q = Some (LVis i w) -> (q <= p)%nat.
  Proof.
    intros H1 Hf H2. destruct (decide (q <= p)%nat) as [|Hgt]; [assumption|exfalso]. pose proof (final_done _ _ _ H1 Hf) as Hd. destruct (at_vis _ _ _ H2) as (t & t' & T1 & T2 & _).
    pose proof (lookup_lt_Some _ _ _ H2). rewrite (stays_done (S p) q i ltac:(lia) Hd) in T1. inversion T1; subst t. now apply step_done in T2.
  Qed.

  Lemma settled_at tok off data la b lb jv vv : settled_part ls tok off data la lb -> ls !! b = Some lb -> lb = LVis jv vv -> is_final vv = true ->
    forall a q u, ls !! a = Some la -> (exists j op, la = LCall j op) -> (a < q)%nat -> (q <= b)%nat -> ss_up (stt q) !! tok = Some u -> pt_data (up_parts u off) = Some data.
  Proof.
    intros (i & len & sm & Hw & Hret & <- & Hap) Hb -> Hfin a q u Ha (ja & oa & ->) Haq Hqb Hu.
    apply precedes_index in Hret as (r & a' & Hra & Hr & Ha'). assert (a' = a) as -> by (eapply call_once; eassumption).
    apply elem_of_list_lookup in Hw as [pw Hw]. pose proof (call_first _ _ _ _ _ Hw Hr) as Hpr. pose proof (lookup_lt_Some _ _ _ Hb) as Hlen.
    destruct (part_inv i tok off len sm pw b Hw) with (p := q) as (s & Hs & Hpa); [lia| |lia|lia|].
    { intros p j s Hp1 Hp2 Hj Hi Hwant.
      assert (exists l x, LCall j (OWrite tok off l x) ∈ take p ls) as (l & x & Hin).
      { pose proof (call_of p j s ltac:(lia) Hi) as Hc. destruct Hwant as [Hwr|(l & x & ->)]; [|eauto]. destruct s; try discriminate. cbn in Hwr.
        apply andb_true_iff in Hwr as [E1 E2]. apply N.eqb_eq in E1, E2. subst. eauto. }
      apply in_take in Hin as (q1 & Hq1 & Hin).
      destruct (Hap j l x (elem_of_list_lookup_2 _ _ _ Hin) Hj) as [(w & Hwf & Hpre)|Hpre]; apply precedes_index in Hpre as (p1 & p2 & Hlt & G1 & G2).
      - assert (p2 = pw) as -> by (eapply call_once; eassumption). pose proof (final_done _ _ _ G1 Hwf) as Hd.
        rewrite (stays_done (S p1) p j ltac:(lia) Hd) in Hi. inversion Hi; subst s. destruct Hwant as [Hwr|(l' & x' & E)]; discriminate.
      - assert (p2 = q1) as -> by (eapply call_once; eassumption). pose proof (final_once _ _ _ _ _ G1 Hfin Hb). lia. }
    pose proof (final_done _ _ _ Hr eq_refl) as Hd. rewrite (stays_done (S r) q i ltac:(lia) Hd) in Hs. inversion Hs; subst s. cbn in Hpa.
    apply Hpa; [|exact Hu]. apply in_take. exists r. split; [lia|exact Hr].
  Qed.

  (** ** Reading while a key keeps its object *)
  Lemma vis_of_app i a b : vis_of i (a ++ b) = vis_of i a ++ vis_of i b.
  Proof. induction a as [|l a IH]; [reflexivity|]. destruct l; cbn; try exact IH. now rewrite IH, app_assoc. Qed.
  Lemma vis_of_S p i l : ls !! p = Some l -> vis_of i (take (S p) ls) = vis_of i (take p ls) ++ (match l with LVis j v => if (j =? i)%nat then [v] else [] | _ => [] end).
  Proof. intros H. rewrite (take_S_r _ _ _ H), vis_of_app. f_equal. destruct l; cbn; rewrite ?app_nil_r; reflexivity. Qed.
  Lemma vis_none i l : (forall v, LVis i v ∉ l) -> vis_of i l = [].
  Proof.
    induction l as [|x l IH]; intros H; [reflexivity|]. assert (forall v, LVis i v ∉ l) by (intros v Hv; apply (H v); now right).
    destruct x; cbn; auto. destruct (Nat.eqb_spec i0 i) as [->|]; [exfalso; eapply H; now left|]. auto.
  Qed.

  Definition looks (key : list N) (op : dop) : Prop := (exists id, op = OInspect key id) \/ (exists id start fin buffer, op = ORead key id start fin buffer).
  Lemma find_find S Q key id o co : ss_com S !! key = o -> q_com Q !! key = o -> sfind S key id co <-> q_find Q key id co.
  Proof. intros E1 E2. unfold sfind, q_find. now rewrite E1, E2. Qed.
  Lemma byte_range_app f a m b : a <= m -> m <= b -> byte_range f a b = byte_range f a m ++ byte_range f m b.
  Proof.
    intros H1 H2. unfold byte_range. replace (N.to_nat (b - a)) with (N.to_nat (m - a) + N.to_nat (b - m))%nat by lia. rewrite seq_app, fmap_app. f_equal.
    replace (0 + N.to_nat (m - a))%nat with (N.to_nat (m - a) + 0)%nat by lia. rewrite <- fmap_add_seq, <- list_fmap_compose.
    apply list_fmap_ext. intros i x Hx. cbn. f_equal. lia.
  Qed.
  Lemma byte_range_data f a data : (forall i b, data !! i = Some b -> f (a + N.of_nat i) = b) -> data = byte_range f a (a + N.of_nat (length data)).
  Proof.
    intros H. unfold byte_range. replace (N.to_nat (a + N.of_nat (length data) - a)) with (length data) by lia. apply list_eq. intros i.
    rewrite list_lookup_fmap. destruct (data !! i) as [b|] eqn:E.
    - rewrite lookup_seq_lt by (now apply lookup_lt_Some in E). cbn. now rewrite (H i b E).
    - rewrite lookup_seq_ge by (now apply lookup_ge_None). reflexivity.
  Qed.

  Section Look.
    Context (key : list N) (op : dop) (ir pl e : nat) (o : option cobj) (Q : qstate).
    Hypothesis Hop : looks key op.
    Hypothesis Hpl : ls !! pl = Some (LCall ir op).
    Hypothesis Hkey : forall p, (pl < p)%nat -> (p <= e)%nat -> ss_com (stt p) !! key = o.
    Hypothesis HQ : q_com Q !! key = o.
    Definition look_at (p : nat) (s : sproc) : Prop :=
      match s with
      | SCall op' => op' = op /\ vis_of ir (take p ls) = []
      | SReading k id pos fin buffer =>
          exists ido start fin0 buffer0 co chunks, op = ORead key ido start fin0 buffer0 /\ o = Some co /\ q_find Q key ido co /\ k = key /\ id = co_id co /\
            start <= default (co_size co) fin0 <= co_size co /\ fin = default (co_size co) fin0 /\
            start <= pos <= fin /\ vis_of ir (take p ls) = VRet (RReading (co_id co) (co_size co) start fin) :: map VChunk chunks /\
            concat chunks = byte_range (co_bytes co) start pos
      | SDone => answers lpage Q op (vis_of ir (take p ls)) Q
      | _ => False
      end.
    Lemma look_inv p : (pl < p)%nat -> (p <= S e)%nat -> (p <= length ls)%nat -> exists s, ps p !! ir = Some s /\ look_at p s.
    Proof.
      induction p as [|p IH]; intros H1 H2 H3; [lia|]. destruct (decide (p = pl)) as [->|Hne].
      { exists (SCall op). split; [apply (at_call _ _ _ Hpl)|]. split; [reflexivity|]. apply vis_none. intros v Hv. apply in_take in Hv as (q & Hq & Hv).
        pose proof (call_first _ _ _ _ _ Hpl Hv). lia. }
      destruct (IH ltac:(lia) ltac:(lia) ltac:(lia)) as (s & Hs & Hl). clear IH.
      assert (Hk : ss_com (stt p) !! key = o) by (apply Hkey; lia).
      assert (Hff : forall id co, sfind (stt p) key id co <-> q_find Q key id co) by (intros; eapply find_find; eassumption).
      destruct (next p ltac:(lia)) as [(op' & L & E & E')|(j & t & t' & w & L & L2 & L3 & L4)].
      { exists s. split; [rewrite E'; now apply lookup_app_l_Some|]. unfold look_at in *. rewrite (vis_of_S _ ir _ L), app_nil_r. exact Hl. }
      destruct (decide (j = ir)) as [->|Hj].
      2: { exists s. split; [rewrite L4; now rewrite list_lookup_insert_ne|]. unfold look_at in *.
           assert (vis_of ir (take (S p) ls) = vis_of ir (take p ls)) as Ev.
           { rewrite (vis_of_S _ ir _ L). destruct w; cbn; [|apply app_nil_r]. destruct (Nat.eqb_spec j ir); [contradiction|apply app_nil_r]. }
           rewrite Ev. exact Hl. }
      assert (t = s) as -> by congruence. exists t'. split; [rewrite L4; apply list_lookup_insert; now apply lookup_lt_Some in Hs|].
      assert (Ev : vis_of ir (take (S p) ls) = vis_of ir (take p ls) ++ (match w with Some v => [v] | None => [] end)).
      { rewrite (vis_of_S _ ir _ L). destruct w; cbn; [now rewrite Nat.eqb_refl|reflexivity]. }
      destruct s; cbn [look_at] in Hl; try contradiction.
      - destruct Hl as [-> Hl]. rewrite Hl in Ev. cbn [app] in Ev. destruct Hop as [(id & E)|(id & start & fin & buffer & E)]; rewrite E in L3; inversion L3; subst; cbn [look_at]; rewrite ?Ev; rewrite ?E.
        + apply an_inspect_nf. intros co Hf. apply Hff in Hf. match goal with H : forall co, ~ sfind _ _ _ co |- _ => exact (H co Hf) end.
        + match goal with H : sfind _ _ _ _ |- _ => apply Hff in H; now constructor end.
        + apply an_read_nf. intros co Hf. apply Hff in Hf. match goal with H : forall co, ~ sfind _ _ _ co |- _ => exact (H co Hf) end.
        + match goal with H : sfind _ _ _ _ |- _ => apply Hff in H; econstructor; [exact H|eassumption] end.
        + match goal with H : sfind _ _ _ ?co |- _ => pose proof (proj1 (Hff _ _) H) as Hq; destruct H as [Hc _];
            exists id, start, fin, buffer, co, []; repeat (split; [first [reflexivity|assumption|congruence|lia]|]) end.
          cbn. unfold byte_range. now rewrite N.sub_diag.
      - destruct Hl as (ido & start & fin0 & buffer0 & co & chunks & Eop & Eo & Hq & -> & -> & Hr & -> & Hpos & Hv & Hcc). inversion L3; subst; cbn [look_at].
        + match goal with H : forall co i b, _ |- _ => rename H into Hbytes end.
          pose proof (byte_range_data (co_bytes co) pos data) as Hd. rewrite Hk, Eo in Hbytes.
          specialize (Hd (fun i b Hi => Hbytes co i b eq_refl eq_refl Hi)).
          exists ido, start, fin0, buffer0, co, (chunks ++ [data]). rewrite Ev, Hv.
          repeat (split; [first [reflexivity|assumption|lia]|]). split; [rewrite map_app; reflexivity|].
          rewrite concat_app, Hcc. cbn. rewrite app_nil_r. rewrite (byte_range_app _ start pos (pos + N.of_nat (length data))) by lia. now rewrite <- Hd.
        + rewrite Ev, Hv, Eop. cbn. apply an_read; assumption.
      - now apply step_done in L3.
    Qed.
    Lemma look_end v : ls !! e = Some (LVis ir v) -> is_final v = true -> answers lpage Q op (vis_of ir ls) Q.
    Proof.
      intros He Hf. pose proof (call_first _ _ _ _ _ Hpl He). pose proof (lookup_lt_Some _ _ _ He).
      destruct (look_inv (S e) ltac:(lia) ltac:(lia) ltac:(lia)) as (s & Hs & Hl). rewrite (final_done _ _ _ He Hf) in Hs. inversion Hs; subst s. cbn in Hl.
      enough (vis_of ir ls = vis_of ir (take (S e) ls)) as -> by exact Hl. rewrite <- (take_drop (S e) ls) at 1. rewrite vis_of_app.
      rewrite (vis_none ir (drop (S e) ls)); [apply app_nil_r|]. intros w Hw. apply elem_of_list_lookup in Hw as [q Hq]. rewrite lookup_drop in Hq.
      pose proof (final_once _ _ _ _ _ He Hf Hq). lia.
    Qed.
  End Look.
End Trace.

(** ** The specification *)
Theorem spec_commit_look lpage ls z key size tok jc ine oid ir op v :
  spec_steps lpage {| z_state := ss_empty; z_procs := [] |} ls z ->
  created_as ls tok key size -> LCall jc (OCommit tok ine) ∈ ls ->
  precedes ls (LVis jc (VRet (RCommitted (Some oid)))) (LCall ir op) -> looks key op -> LVis ir v ∈ ls -> is_final v = true ->
  (forall j op', LCall j op' ∈ ls -> may_change ls key j op' -> j <> jc -> apart ls j op' (LCall jc (OCommit tok ine)) (LVis ir v)) ->
  exists created bytes,
    (forall off data, settled_part ls tok off data (LCall jc (OCommit tok ine)) (LVis jc (VRet (RCommitted (Some oid)))) -> bytes_at bytes off data) /\
    forall Q, q_com Q !! key = Some {| co_id := oid; co_size := size; co_created := created; co_bytes := bytes |} -> answers lpage Q op (vis_of ir ls) Q.
Proof.
  intros Hs Hcr Hc Hpre Hop Hv Hf Hap. destruct (trace_of _ _ _ _ Hs) as (zs & Hz0 & _ & Hzs).
  apply elem_of_list_lookup in Hc as [pc Hc]. apply precedes_index in Hpre as (pr & pl & Hlt & Hpr & Hpl). apply elem_of_list_lookup in Hv as [e He].
  destruct (commit_point lpage ls zs Hz0 Hzs _ _ _ _ _ _ Hc Hpr) as (q & u & bytes & r & Q1 & Q2 & Hq & Hu & Hext & Hcom & Hpub).
  pose proof (call_first lpage ls zs Hzs _ _ _ _ _ Hpl He) as Hle. pose proof (lookup_lt_Some _ _ _ He) as Hlen.
  destruct (created_unique lpage ls zs Hz0 Hzs _ _ _ _ _ Hcr (created_take ls _ _ _ _ (upload_call lpage ls zs Hz0 Hzs q tok u ltac:(lia) Hu))) as [Ek Es].
  assert (Hon : only lpage ls zs key jc pc e).
  { eapply apart_only; [exact Hz0|exact Hzs|exact Hc|exact He|eauto|eauto|exact Hap]. }
  exists (up_created u), bytes. split.
  - intros off data Hset k b Hk.
    pose proof (settled_at lpage ls zs Hz0 Hzs tok off data _ pr _ _ _ Hset Hpr eq_refl eq_refl pc q u Hc ltac:(eauto) Q1 ltac:(lia) Hu) as Hd.
    exact (Hext off data k b Hd Hk).
  - intros Q HQ. eapply (look_end lpage ls zs Hzs key op ir pl e); [exact Hop|exact Hpl| |exact HQ|exact He|exact Hf].
    intros p Hp1 Hp2. rewrite (key_stays lpage ls zs Hzs key jc pc e (S q) p _ Hon ltac:(lia) ltac:(lia) Hp2 ltac:(lia) Hpub ltac:(left; exact I)).
    rewrite <- Ek, <- Es. exact Hcom.
Qed.

Theorem spec_delete_look lpage ls z key jd rd ir op v :
  spec_steps lpage {| z_state := ss_empty; z_procs := [] |} ls z ->
  LCall jd (ODelete key None) ∈ ls -> rd = RDeleted \/ rd = RFailed ObjectNotFound ->
  precedes ls (LVis jd (VRet rd)) (LCall ir op) -> looks key op -> LVis ir v ∈ ls -> is_final v = true ->
  (forall j op', LCall j op' ∈ ls -> may_change ls key j op' -> j <> jd -> apart ls j op' (LCall jd (ODelete key None)) (LVis ir v)) ->
  vis_of ir ls = [VRet (RFailed ObjectNotFound)].
Proof.
  intros Hs Hc Hrd Hpre Hop Hv Hf Hap. destruct (trace_of _ _ _ _ Hs) as (zs & Hz0 & _ & Hzs).
  apply elem_of_list_lookup in Hc as [pc Hc]. apply precedes_index in Hpre as (pr & pl & Hlt & Hpr & Hpl). apply elem_of_list_lookup in Hv as [e He].
  pose proof (call_first lpage ls zs Hzs _ _ _ _ _ Hpl He) as Hle. pose proof (lookup_lt_Some _ _ _ He) as Hlen. pose proof (call_first lpage ls zs Hzs _ _ _ _ _ Hc Hpr) as Hcr.
  assert (Hon : only lpage ls zs key jd pc e).
  { eapply apart_only; [exact Hz0|exact Hzs|exact Hc|exact He|eauto|eauto|exact Hap]. }
  assert (exists q s, (pc < q)%nat /\ (q <= S pr)%nat /\ z_procs (zs q) !! jd = Some s /\ (took s \/ s = SDone) /\ ss_com (z_state (zs q)) !! key = None) as (q & s & Q1 & Q2 & Hs' & Ht & Hn).
  { destruct Hrd as [->| ->].
    - destruct (delete_point lpage ls zs Hz0 Hzs _ _ _ _ _ Hc Hpr) as (q & x & A1 & A2 & A3 & A4). exists (S q), (SDeleted x). repeat (split; [first [lia|assumption|left; exact I]|]). exact A3.
    - exists (S pr), SDone. split; [lia|]. split; [lia|]. split; [eapply final_done; [exact Hzs|exact Hpr|reflexivity]|]. split; [now right|].
      destruct (at_vis lpage ls zs Hzs _ _ _ Hpr) as (t & t' & T1 & T2 & _).
      assert (exists id k, t = SCall (ODelete k id)) as (id & k & ->).
      { pose proof (call_of lpage ls zs Hz0 Hzs pr jd t ltac:(lia) T1) as Hpc. destruct t; cbn in Hpc; try (now inversion T2).
        - apply (in_take ls) in Hpc as (q1 & _ & Hpc). pose proof (call_op lpage ls zs Hzs _ _ _ _ _ Hc Hpc) as <-. eauto.
        - apply (in_take ls) in Hpc as (q1 & _ & Hpc). pose proof (call_op lpage ls zs Hzs _ _ _ _ _ Hc Hpc). discriminate. }
      pose proof (call_of lpage ls zs Hz0 Hzs pr jd _ ltac:(lia) T1) as Hpc. cbn in Hpc. apply (in_take ls) in Hpc as (q1 & _ & Hpc). pose proof (call_op lpage ls zs Hzs _ _ _ _ _ Hc Hpc) as E. inversion E; subst k id.
      inversion T2; subst. match goal with H : forall co, ~ sfind _ _ _ co |- _ => rename H into Hnf end.
      destruct (ss_com (z_state (zs pr)) !! key) as [co|] eqn:Eco; [|reflexivity]. exfalso. apply (Hnf co). split; [exact Eco|]. discriminate. }
  assert (answers lpage q_empty op (vis_of ir ls) q_empty) as Ha.
  { eapply (look_end lpage ls zs Hzs key op ir pl e); [exact Hop|exact Hpl| |reflexivity|exact He|exact Hf].
    intros p Hp1 Hp2. rewrite (key_stays lpage ls zs Hzs key jd pc e q p _ Hon ltac:(lia) ltac:(lia) Hp2 ltac:(lia) Hs' Ht). exact Hn. }
  assert (forall k id co, ~ q_find q_empty k id co) as Hno by (intros k id co [Hx _]; discriminate Hx).
  destruct Hop as [(id & ->)|(id & start & fin & buffer & ->)]; inversion Ha; subst; try (exfalso; eapply Hno; eassumption); congruence.
Qed.

(** ** Internal steps left out *)
Lemma created_visible ls tok key size : created_as (visible ls) tok key size <-> created_as ls tok key size.
Proof. unfold created_as. setoid_rewrite in_visible; reflexivity. Qed.
Lemma may_visible ls key j op : may_change (visible ls) key j op <-> may_change ls key j op.
Proof.
  unfold may_change. setoid_rewrite in_visible; [|reflexivity]. destruct op; try reflexivity. setoid_rewrite created_visible. reflexivity.
Qed.
Lemma apart_visible ls j op a b : is_visible a = true -> is_visible b = true -> apart (visible ls) j op a b <-> apart ls j op a b.
Proof. intros Ha Hb. unfold apart. rewrite (precedes_visible ls b) by (assumption || reflexivity). setoid_rewrite precedes_visible; [reflexivity|reflexivity|assumption]. Qed.
Lemma settled_visible ls tok off data a b : is_visible a = true -> is_visible b = true ->
  settled_part (visible ls) tok off data a b <-> settled_part ls tok off data a b.
Proof.
  intros Ha Hb. unfold settled_part. split; intros (i & len & sm & H1 & H2 & H3 & H4); exists i, len, sm.
  - rewrite in_visible in H1 by reflexivity. rewrite precedes_visible in H2 by (assumption || reflexivity). repeat (split; [assumption|]).
    intros j l x Hj Hne. apply (proj2 (in_visible (LCall j (OWrite tok off l x)) ls eq_refl)) in Hj. apply apart_visible; [reflexivity|assumption|]. exact (H4 j l x Hj Hne).
  - rewrite in_visible by reflexivity. rewrite precedes_visible by (assumption || reflexivity). repeat (split; [assumption|]).
    intros j l x Hj Hne. apply (proj1 (in_visible (LCall j (OWrite tok off l x)) ls eq_refl)) in Hj. apply apart_visible; [reflexivity|assumption|]. exact (H4 j l x Hj Hne).
Qed.
Lemma vis_of_visible i ls : vis_of i (visible ls) = vis_of i ls.
Proof. induction ls as [|l ls IH]; [reflexivity|]. destruct l; cbn; unfold visible in *; rewrite ?IH; reflexivity. Qed.
