(** How the states of a direct partition and of its specification are related. *)
From Coq Require Import ZifyBool ZifyNat ZifyN.
From stdpp Require Import base numbers list_numbers option gmap sets functions list.
From Verif Require Import Util Bytes BuddyModel BuddySpec BuddyProofs BuddyInv LayoutModel LayoutProofs.
From Verif Require Import PageIOModel PageIOSpec PageIOProofs PageIOWrite PageIOSys TuplesModel.
From Verif Require Import DirectModel DirectBase DirectSteps DirectInv DirectTup DirectAlloc DirectDev DirectSpec.
Open Scope N_scope.
Ltac Zify.zify_post_hook ::= idtac.

(** ** One writer *)
Definition want_of (off : N) (st : list item) (i : N) : N := default 0 (stream_bytes st !! N.to_nat (i - off)).
Definition WFd (c : dcfg) (m : dmeta) (off len : N) (st : list item) (d : device) (w : writer) : Prop :=
  w_len w = len /\ WInv Direct (dc_spage c) (dc_lpage c) (obj_of m) (dpages c m) (want_of off st) off st d w.

Lemma polled_bytes w buf st : polled w buf st ->
  buf ++ stream_bytes st = w_buf w ++ stream_bytes (w_stream w) /\ (no_fail st -> no_fail (w_stream w)) /\
  (forall x, x ∈ st -> x ∈ w_stream w).
Proof.
  intros [chunk st' E|E Hb].
  - rewrite E. cbn [stream_bytes]. rewrite app_assoc. split; [reflexivity|]. split.
    + unfold no_fail. intros H Hin. apply elem_of_cons in Hin as [?|?]; [discriminate|auto].
    + intros x Hx. now constructor.
  - rewrite E. split; [reflexivity|]. split; [auto|]. auto.
Qed.

Lemma wf_start c m off len st w d : opg c m -> off + 2 ^ dc_lpage c < 2 ^ 64 ->
  write_start Direct (dc_spage c) (dc_lpage c) (obj_of m) off len st = Running w ->
  WFd c m off len st d w /\ w_stream w = st /\ w_written w = 0.
Proof.
  intros Hop Hw E. pose proof (start_ok Direct _ _ _ _ Hop (want_of off st) d off len st) as H.
  rewrite E in H. split; [|].
  - apply H. split; [exact Hw|]. intros i b Hi _. unfold want_of. rewrite N.add_comm, N.add_sub, Nat2N.id, Hi. reflexivity.
  - unfold write_start in E. repeat case_match; try discriminate. injection E as <-. cbn. auto.
Qed.

Lemma wf_with_buf c m off len st d w buf st' : polled w buf st' -> WFd c m off len st d w -> WFd c m off len st d (with_buf w buf st').
Proof.
  intros Hp [Hl [W1 W2 W3 W4 W5 W6 W7]]. apply polled_bytes in Hp as (Hb & Hn & _). split; [exact Hl|].
  constructor; cbn [with_buf w_len w_targets w_stream w_written w_page w_buf]; rewrite ?Hb; auto.
Qed.

Definition ready (w : writer) (buf : list N) (st : list item) : Prop :=
  polled w buf st /\ w_written w + N.of_nat (length buf) <= w_len w /\
  exists amt a, w_targets w !! w_page w = Some (amt, a) /\ amt <= N.of_nat (length buf).
Definition advanced (w : writer) (buf : list N) (st : list item) (amt : N) : writer :=
  {| w_len := w_len w; w_targets := w_targets w; w_stream := st; w_written := w_written w + amt;
     w_page := S (w_page w); w_buf := drop (N.to_nat amt) buf |}.

Lemma ready_continue spage junk d w buf st : ready w buf st -> exists amt a,
  w_targets w !! w_page w = Some (amt, a) /\
  write_continue Direct spage true junk d w buf st =
    (dev_write d a (take (N.to_nat amt) buf ++ ((fun i => junk (N.of_nat i)) <$> seq 0 (N.to_nat (padded_len Direct spage amt - amt)))),
     Running (advanced w buf st amt)) /\ amt <= N.of_nat (length buf).
Proof.
  intros (_ & Hl & amt & a & Et & Ha). exists amt, a. split; [exact Et|]. unfold write_continue.
  destruct (N.ltb_spec (w_len w) (w_written w + N.of_nat (length buf))) as [H|_]; [clear -Hl H; lia|]. rewrite Et.
  destruct (N.ltb_spec (N.of_nat (length buf)) amt) as [H|_]; [clear -Ha H; lia|]. auto.
Qed.

Lemma wf_continue c m off len st d w buf st' junk d' w' : opg c m -> ready w buf st' -> WFd c m off len st d w ->
  write_continue Direct (dc_spage c) true junk d w buf st' = (d', Running w') -> WFd c m off len st d' w'.
Proof.
  intros Hop (Hp & _) [Hl HW] E. apply polled_bytes in Hp as (Hb & Hn & _).
  pose proof (continue_ok Direct _ _ _ _ Hop _ off st true junk d w buf st' HW Hb Hn) as H. rewrite E in H.
  destruct H as [_ [Hl' HW']]. split; [congruence|exact HW'].
Qed.

Lemma wf_dev c m off len st d d' w : WFd c m off len st d w ->
  (forall i, i < w_written w -> byte_at d' (dpages c m) (off + i) = byte_at d (dpages c m) (off + i)) ->
  WFd c m off len st d' w.
Proof.
  intros [Hl [W1 W2 W3 W4 W5 W6 W7]] H. split; [exact Hl|]. constructor; auto. intros i Hi. rewrite H by exact Hi. auto.
Qed.

Lemma wf_frame c m off len st d w : off mod 2 ^ dc_lpage c = 0 -> WFd c m off len st d w -> wr_frame c m off w.
Proof. intros Hm [_ [W1 W2 _ _ _ _ _]]. split; [exact W1|]. split; [exact W2|exact Hm]. Qed.

Lemma asum_full ts j : (forall t, t ∈ ts -> 0 < fst t) -> asum (take j ts) = asum ts -> ts !! j = None.
Proof.
  intros Hp H. destruct (ts !! j) as [t|] eqn:E; [|reflexivity]. exfalso.
  pose proof (asum_take_S _ _ _ E) as HS. pose proof (asum_take_le ts (S j)) as Hle.
  specialize (Hp t (elem_of_list_lookup_2 _ _ _ E)). clear -HS Hle Hp H. lia.
Qed.
Lemma wf_targets_pos c m off len st d w t : WFd c m off len st d w -> t ∈ w_targets w -> 0 < fst t.
Proof.
  intros [_ [W1 _ _ _ _ _ _]] Ht. apply elem_of_list_lookup_1 in Ht as [j Hj]. destruct t as [amt a].
  now destruct (to_page _ _ _ _ _ _ _ W1 _ _ _ Hj).
Qed.
(** The writer has a target iff it has not written everything. *)
Lemma wf_end c m off len st d w : WFd c m off len st d w ->
  w_written w <= len /\ (w_targets w !! w_page w = None <-> w_written w = len).
Proof.
  intros HF. assert (Hpos : forall t, t ∈ w_targets w -> 0 < fst t) by (intros t; eapply wf_targets_pos; exact HF).
  pose proof HF as [Hl [W1 W2 W3 W4 W5 W6 W7]]. pose proof (to_sum _ _ _ _ _ _ _ W1) as Hs. rewrite Hl in Hs.
  split; [rewrite <- W3, <- Hs; apply asum_take_le|]. split.
  - intros H. apply lookup_ge_None_1 in H. rewrite take_ge in W3 by exact H. congruence.
  - intros H. apply asum_full; [exact Hpos|congruence].
Qed.

(** ** Calls *)
Definition act (tok off : N) (s : sproc) : nat :=
  match s with SWriting t o _ _ => if decide (t = tok /\ o = off) then 1%nat else 0%nat | _ => 0%nat end.
Fixpoint nact (tok off : N) (ss : list sproc) : nat :=
  match ss with [] => 0 | s :: ss => act tok off s + nact tok off ss end.
Lemma nact_perm tok off ss ss' : ss ≡ₚ ss' -> nact tok off ss = nact tok off ss'.
Proof. induction 1; cbn [nact]; lia. Qed.
Lemma nact_elem tok off ss s : s ∈ ss -> (act tok off s <= nact tok off ss)%nat.
Proof. induction 1 as [? ?|? ? ? H IH]; cbn [nact]; lia. Qed.
Lemma act_self tok off len st : act tok off (SWriting tok off len st) = 1%nat.
Proof. cbn. now rewrite decide_True. Qed.
Lemma act_ne tok off tok' off' len st : (tok', off') <> (tok, off) -> act tok off (SWriting tok' off' len st) = 0%nat.
Proof. intros H. cbn. rewrite decide_False; [reflexivity|]. intros [-> ->]. now apply H. Qed.

Definition clean (S : sstate) (tok off : N) : Prop :=
  exists u, ss_up S !! tok = Some u /\ pt_clean (up_parts u off) = true.

Definition wr_rel (c : dcfg) (h : shared) (S : sstate) (r : nat) (off : N) (w : writer) (tok off' len : N) (st : list item) : Prop :=
  off' = off /\ exists ob, h_objs h !! r = Some ob /\ b_id ob = tok /\ valid_part (dc_lpage c) (m_size (b_meta ob)) off len /\
    (exists d, WFd c (b_meta ob) off len st d w) /\ (clean S tok off -> WFd c (b_meta ob) off len st (h_dev h) w) /\
    (forall x, x ∈ w_stream w -> x ∈ st).
Definition unfinished (w : writer) (len : N) (st : list item) : Prop :=
  w_written w = len -> len = 0 \/ ~ (no_fail st /\ N.of_nat (length (stream_bytes st)) = len).
Definition wrote (c : dcfg) (h : shared) (r : nat) (off : N) (w : writer) (st : list item) : Prop :=
  exists m len d, WFd c m off len st d w /\ w_written w = len /\ N.of_nat (length (stream_bytes st)) = len /\ no_fail st /\
    (forall x, x ∈ w_stream w -> x ∈ st).

Definition has_id (h : shared) (r : nat) (id : N) : Prop := exists ob, h_objs h !! r = Some ob /\ b_id ob = id.
Definition vic (h : shared) (e : option nat) (v : option N) : Prop :=
  match e, v with Some r, Some id => has_id h r id | None, None => True | _, _ => False end.
Definition reading (c : dcfg) (h : shared) (r : nat) (rd : reader) (key : list N) (id pos fin : N) : Prop :=
  exists ob, h_objs h !! r = Some ob /\ b_id ob = id /\ m_key (b_meta ob) = key /\ r_next rd = pos /\ r_end rd = fin /\
    fin <= m_size (b_meta ob) /\
    (pos = fin \/ exists lc t, pages_view Direct (dc_spage c) (dc_lpage c) (obj_of (b_meta ob)) (dpages c (b_meta ob)) lc t /\
       RInv (dpages c (b_meta ob)) (obj_of (b_meta ob)) lc t rd).

Definition pc_rel (c : dcfg) (h : shared) (S : sstate) (p : pc) (s : sproc) : Prop :=
  match p, s with
  | PStart op, SCall op' => op = op' /\ valid_op (dc_lpage c) op
  | PCreate1 key size _ _, SCall (OCreate key' size') => key = key' /\ size = size'
  | PCreate2 m _ _ _, SCall (OCreate key size) | PCreate3 m _ _ _, SCall (OCreate key size)
  | PCreate4 m _ _ _ _, SCall (OCreate key size) => m_key m = key /\ m_size m = size
  | PWrite1 r off w, SWriting tok off' len st | PWrite5 r off w, SWriting tok off' len st =>
      wr_rel c h S r off w tok off' len st /\ unfinished w len st
  | PWrite2 r off w buf st', SWriting tok off' len st | PWrite3 r off w buf st', SWriting tok off' len st
  | PWrite4 r off w buf st', SWriting tok off' len st => wr_rel c h S r off w tok off' len st /\ ready w buf st'
  | PWrite1 r off w, SWrote st | PWrite5 r off w, SWrote st => wrote c h r off w st
  | PCommit1 _ tok ine, SCommitting tok' ine' | PCommit2 _ tok ine, SCommitting tok' ine' | PCommit3 _ tok ine, SCommitting tok' ine' =>
      tok = tok' /\ ine = ine'
  | PCommit4 tok id e, SPublished tok' id' v | PCommit5 tok _ id e, SPublished tok' id' v => tok = tok' /\ id = id' /\ vic h e v
  | PReap1 r k, _ | PReap2 r _ _ k, _ =>
      match k, s with
      | KCommit (Some id) _, SPublished _ id' (Some v) => id = id' /\ has_id h r v
      | KCommit None _, SDiscarded => True
      | KDelete, SDeleted v => has_id h r v
      | _, _ => False
      end
  | PReap3 _ k, _ | PFinish k, _ =>
      match k, s with
      | KCommit (Some id) _, SPublished _ id' _ => id = id'
      | KCommit None _, SDiscarded => True
      | KDelete, SDeleted _ => True
      | _, _ => False
      end
  | PRead r sbs rd, SReading key id pos fin buffer => sbs = buffer /\ 0 < sbs /\ reading c h r rd key id pos fin
  | PDone, SDone => True
  | _, _ => False
  end.

(** ** Uploads and committed objects *)
Definition cref (p : pc) : option (nat * N) :=
  match p with PCommit1 r tok _ | PCommit2 r tok _ | PCommit3 r tok _ => Some (r, tok) | _ => None end.
Definition uref (h : shared) (ps : list pc) (tok : N) (r : nat) : Prop :=
  h_inc h !! tok = Some r \/ exists p, p ∈ ps /\ cref p = Some (r, tok).

Definition part_rel (c : dcfg) (d : device) (ss : list sproc) (tok : N) (m : dmeta) (off : N) (p : part) : Prop :=
  pt_writers p = nact tok off ss /\ (pt_clean p = true -> pt_writers p = 1%nat) /\
  forall l, pt_data p = Some l -> pt_writers p = 0%nat /\ valid_part (dc_lpage c) (m_size m) off (N.of_nat (length l)) /\
    forall i b, l !! i = Some b -> byte_at d (dpages c m) (off + N.of_nat i) = b.
Definition up_rel (c : dcfg) (h : shared) (ss : list sproc) (tok : N) (r : nat) (u : upload) : Prop :=
  exists ob, h_objs h !! r = Some ob /\ b_id ob = tok /\ m_key (b_meta ob) = up_key u /\ m_size (b_meta ob) = up_size u /\
    m_created (b_meta ob) = up_created u /\ forall off, part_rel c (h_dev h) ss tok (b_meta ob) off (up_parts u off).
Definition com_rel (c : dcfg) (h : shared) (r : option nat) (co : option cobj) : Prop :=
  match r, co with
  | None, None => True
  | Some r, Some co => exists ob, h_objs h !! r = Some ob /\ b_id ob = co_id co /\ m_size (b_meta ob) = co_size co /\
      m_created (b_meta ob) = co_created co /\
      forall i, i < m_size (b_meta ob) -> byte_at (h_dev h) (dpages c (b_meta ob)) i = co_bytes co i
  | _, _ => False
  end.

Record Rel (c : dcfg) (h : shared) (S : sstate) (qs : list (pc * sproc)) : Prop := {
  rl_ref : forall tok u, ss_up S !! tok = Some u -> exists r, uref h qs.*1 tok r;
  rl_up : forall tok r, uref h qs.*1 tok r -> exists u, ss_up S !! tok = Some u /\ up_rel c h qs.*2 tok r u;
  rl_open : forall tok u, ss_up S !! tok = Some u -> up_open u = true <-> is_Some (h_inc h !! tok);
  rl_com : forall key, com_rel c h (h_com h !! key) (ss_com S !! key);
  rl_ids : forall id, id ∈ ss_ids S -> id ∈ h_used h /\ id ∉ qs.*1 ≫= pc_new_ids;
  rl_pcs : forall p s, (p, s) ∈ qs -> pc_rel c h S p s;
  rl_obj : forall r ob, h_objs h !! r = Some ob -> opg c (b_meta ob);
}.

Lemma uref_perm h ps ps' tok r : ps ≡ₚ ps' -> uref h ps tok r -> uref h ps' tok r.
Proof. intros Hp [H|(p & H & E)]; [left; exact H|]. right. exists p. rewrite <- Hp. auto. Qed.
Lemma Rel_perm c h S qs qs' : qs ≡ₚ qs' -> Rel c h S qs -> Rel c h S qs'.
Proof.
  intros Hp [R1 R2 R3 R4 R5 R6 R7].
  assert (H1 : qs.*1 ≡ₚ qs'.*1) by now rewrite Hp. assert (H2 : qs.*2 ≡ₚ qs'.*2) by now rewrite Hp.
  constructor; auto.
  - intros tok u Hu. destruct (R1 tok u Hu) as [r Hr]. exists r. eapply uref_perm; eassumption.
  - intros tok r Hr. destruct (R2 tok r) as (u & Hu & ob & E & A1 & A2 & A3 & A4 & A5); [eapply uref_perm; [symmetry|]; eassumption|].
    exists u. split; [exact Hu|]. exists ob. repeat (split; [assumption|]). intros off. destruct (A5 off) as (B1 & B2 & B3).
    split; [|split; assumption]. rewrite B1. now apply nact_perm.
  - intros id Hid. rewrite <- H1. auto.
  - intros p s Hin. apply R6. now rewrite Hp.
Qed.

(** An upload has one object. *)
Lemma uref_obj h ps tok r : SInv h ps -> uref h ps tok r ->
  exists ob, h_objs h !! r = Some ob /\ b_id ob = tok /\ r ∈ owners h ps.
Proof.
  intros HS [H|(p & Hp & Hc)].
  - destruct (s_inc _ _ HS _ _ H) as (ob & E & Hid & _). exists ob. split; [exact E|]. split; [exact Hid|].
    unfold owners. rewrite !elem_of_app. left. apply elem_of_vals. eauto.
  - pose proof (s_pcs _ _ HS _ Hp) as Hok.
    assert (Ho : r ∈ owners h ps).
    { unfold owners. rewrite !elem_of_app, elem_of_list_bind. right. right. exists p. split; [|exact Hp].
      destruct p; try discriminate; injection Hc as <- <-; constructor. }
    destruct p; try discriminate; injection Hc as <- <-; [destruct Hok as (ob & E & Hi)|destruct Hok as (ob & E & Hi & _)..];
      exists ob; auto.
Qed.
Lemma uref_unique h ps tok r r' : SInv h ps -> uref h ps tok r -> uref h ps tok r' -> r = r'.
Proof.
  intros HS H H'. destruct (uref_obj _ _ _ _ HS H) as (ob & E & Hi & _). destruct (uref_obj _ _ _ _ HS H') as (ob' & E' & Hi' & _).
  eapply id_unique; [exact HS|exact E|exact E'|congruence].
Qed.
Lemma uref_inj h ps tok tok' r : SInv h ps -> uref h ps tok r -> uref h ps tok' r -> tok = tok'.
Proof.
  intros HS H H'. destruct (uref_obj _ _ _ _ HS H) as (ob & E & Hi & _). destruct (uref_obj _ _ _ _ HS H') as (ob' & E' & Hi' & _).
  congruence.
Qed.

(** ** Calls that do not move *)
Definition writer_of (p : pc) : option (nat * N * writer) :=
  match p with
  | PWrite1 r off w | PWrite2 r off w _ _ | PWrite3 r off w _ _ | PWrite4 r off w _ _ | PWrite5 r off w => Some (r, off, w)
  | _ => None
  end.
Lemma has_id_le h h' r id : objs_le h h' -> has_id h r id -> has_id h' r id.
Proof. intros Hle (ob & E & Hi). destruct (Hle _ _ E) as (ob' & E' & (Hi' & _) & _). exists ob'. split; [exact E'|congruence]. Qed.
Lemma vic_le h h' e v : objs_le h h' -> vic h e v -> vic h' e v.
Proof. intros Hle. destruct e, v; cbn; auto. now apply has_id_le. Qed.

Lemma wr_rel_mono c h h' S S' r off w tok off' len st : objs_le h h' ->
  (off' = off -> clean S' tok off -> clean S tok off /\ forall ob, h_objs h !! r = Some ob -> b_id ob = tok -> forall i, i < w_written w ->
     byte_at (h_dev h') (dpages c (b_meta ob)) (off + i) = byte_at (h_dev h) (dpages c (b_meta ob)) (off + i)) ->
  wr_rel c h S r off w tok off' len st -> wr_rel c h' S' r off w tok off' len st.
Proof.
  intros Hle Hw (-> & ob & E & Hi & Hv & Hex & Hcl & Hst). split; [reflexivity|].
  destruct (Hle _ _ E) as (ob' & E' & (Hi' & Hm & _) & _). exists ob'. rewrite Hm. split; [exact E'|]. split; [congruence|].
  split; [exact Hv|]. split; [exact Hex|]. split; [|exact Hst]. intros Hc. destruct (Hw eq_refl Hc) as [Hc2 Hb].
  eapply wf_dev; [apply Hcl, Hc2|]. intros i Hlt. now apply Hb.
Qed.

Lemma pc_rel_mono c h h' S S' p s : objs_le h h' ->
  (forall r off w tok len st, writer_of p = Some (r, off, w) -> s = SWriting tok off len st -> clean S' tok off ->
     clean S tok off /\ forall ob, h_objs h !! r = Some ob -> b_id ob = tok -> forall i, i < w_written w ->
     byte_at (h_dev h') (dpages c (b_meta ob)) (off + i) = byte_at (h_dev h) (dpages c (b_meta ob)) (off + i)) ->
  pc_rel c h S p s -> pc_rel c h' S' p s.
Proof.
  intros Hle Hw. destruct p; destruct s; cbn [pc_rel]; auto; try contradiction.
  all: try (intros [H1 H2]; split; [|exact H2]; eapply wr_rel_mono; [exact Hle| |exact H1]; intros ->; eapply Hw; reflexivity).
  all: try (intros [H1 H2]; split; [exact H1|]; now apply (vic_le h)).
  all: try (intros (H1 & H2 & H3); split; [exact H1|]; split; [exact H2|]; now apply (vic_le h)).
  all: try (destruct c0 as [[]|]; try contradiction; auto; intros H; destruct H; split; eauto using has_id_le; fail).
  all: try (destruct c0 as [[]|]; try contradiction; auto; try (destruct replaced; try contradiction); intros H;
    first [now apply (has_id_le h)|destruct H; split; [assumption|now apply (has_id_le h)]]; fail).
  intros (H1 & H2 & ob & E & A1 & A2 & A3). split; [exact H1|]. split; [exact H2|].
  destruct (Hle _ _ E) as (ob' & E' & (Hi' & Hm & _) & _). exists ob'. rewrite Hm. split; [exact E'|]. split; [congruence|]. auto.
Qed.
