(** What holds in every state of a lite store, and its basic consequences. *)
From Coq Require Import ZifyBool ZifyNat ZifyN.
From stdpp Require Import base numbers list_numbers option gmap sets list.
From Verif Require Import Util Bytes BuddyModel BuddySpec BuddyProofs BuddyInv LayoutModel LayoutProofs MetaModel MetaSpec MetaProofs PropertiesMeta.
From Verif Require Import PageIOModel PageIOSpec PageIOProofs DirectModel DirectBase.
From Verif Require Import JournalModel JournalSpec JournalProofs LiteModel LiteSpec LiteJournal LiteNode LiteRecord.
Open Scope N_scope.
Ltac Zify.zify_post_hook ::= idtac.

Lemma pow_ge_256 p : 8 <= p -> 256 <= 2 ^ p.
Proof. intros H. change 256 with (2 ^ 8). apply N.pow_le_mono_r; [discriminate|exact H]. Qed.

(** ** Lists *)
Lemma split_unique {A} (o : A) x y l1 l2 : o ∉ x -> o ∉ l1 -> x ++ o :: y = l1 ++ o :: l2 -> x = l1 /\ y = l2.
Proof.
  revert l1. induction x as [|a x IH]; intros l1 Hx Hl E.
  - destruct l1 as [|b l1]; cbn in E; [injection E as ->; auto|]. injection E as -> _. exfalso. apply Hl. constructor.
  - destruct l1 as [|b l1]; cbn in E.
    + injection E as -> _. exfalso. apply Hx. constructor.
    + injection E as -> E. apply IH in E as [-> ->]; [auto|..]; intros H; [apply Hx|apply Hl]; now constructor.
Qed.
Lemma nodup_bind_elem {A B} (f : A -> list B) l x y z : NoDup (l ≫= f) -> x ∈ l -> y ∈ l -> z ∈ f x -> z ∈ f y -> x = y.
Proof.
  induction l as [|a l IH]; intros Hn Hx Hy Hzx Hzy; [inversion Hx|].
  cbn in Hn. apply NoDup_app in Hn as (_ & Hd & Hn).
  apply elem_of_cons in Hx as [->|Hx]; apply elem_of_cons in Hy as [->|Hy]; auto.
  - exfalso. apply (Hd z Hzx). apply elem_of_list_bind. eauto.
  - exfalso. apply (Hd z Hzy). apply elem_of_list_bind. eauto.
Qed.
Lemma nodup_fmap_elem {A B} (f : A -> B) l x y : NoDup (f <$> l) -> x ∈ l -> y ∈ l -> f x = f y -> x = y.
Proof.
  induction l as [|a l IH]; intros Hn Hx Hy E; [inversion Hx|]. cbn in Hn. apply NoDup_cons in Hn as [Hd Hn].
  apply elem_of_cons in Hx as [->|Hx]; apply elem_of_cons in Hy as [->|Hy]; auto.
  - exfalso. apply Hd. rewrite E. now apply elem_of_list_fmap_1.
  - exfalso. apply Hd. rewrite <- E. now apply elem_of_list_fmap_1.
Qed.
Lemma insert_perm {A} (l : list A) i x : l !! i = Some x ->
  exists rest, l ≡ₚ x :: rest /\ forall y, <[i := y]> l ≡ₚ y :: rest.
Proof.
  intros H. exists (take i l ++ drop (S i) l). pose proof (lookup_lt_Some _ _ _ H) as Hi. split.
  - rewrite <- (take_drop_middle l i x H) at 1. symmetry. apply Permutation_middle.
  - intros y. rewrite insert_take_drop by exact Hi. symmetry. apply Permutation_middle.
Qed.

(** ** Chains *)
Definition first_or (e : N) (l : list lobj) : N := match l with [] => e | o :: _ => lo_off o end.
Fixpoint chain (P : lobj -> N -> Prop) (l : list lobj) (e : N) : Prop :=
  match l with [] => True | o :: l => P o (first_or e l) /\ chain P l e end.
Lemma first_or_0 l : first_or 0 l = first_off l. Proof. destruct l; reflexivity. Qed.
Lemma chain_app P l1 l2 e : chain P (l1 ++ l2) e <-> chain P l1 (first_or e l2) /\ chain P l2 e.
Proof.
  induction l1 as [|o l1 IH]; cbn [app chain]; [tauto|]. rewrite IH.
  assert (first_or e (l1 ++ l2) = first_or (first_or e l2) l1) as -> by (destruct l1; reflexivity). tauto.
Qed.
Lemma chain_mono (P Q : lobj -> N -> Prop) l e : (forall o n, o ∈ l -> P o n -> Q o n) -> chain P l e -> chain Q l e.
Proof.
  induction l as [|o l IH]; intros H; cbn [chain]; [auto|]. intros [H1 H2]. split; [apply H; [constructor|exact H1]|].
  apply IH; [|exact H2]. intros o' n Ho. apply H. now constructor.
Qed.

(** ** Calls and tickets *)
Definition tk_ser (t : ticket) : N := match t with TkHead _ s | TkState _ s | TkNext _ s => s end.
Definition cid (cl : lcall) : list N := match cl with LNew r _ _ _ | LRec r _ _ _ => [cr_id r] | _ => [] end.

Section pending.
Implicit Types (us : list txn) (calls : list lcall).
(** Outstanding transactions that write into a range were all committed no later
    than signal [n]. *)
Definition covers (n0 : nat) us (n : nat) (addr len : N) : Prop :=
  forall j t w x, us !! j = Some t -> w ∈ t -> touches w x -> addr <= x < addr + len -> (n0 + j <= n)%nat.
Definition held calls (n0 : nat) us (tk : ticket) (b addr len : N) : Prop :=
  (exists sig tks free, LWait b sig tks free ∈ calls /\ tk ∈ tks) /\
  forall b' sig tks free, LWait b' sig tks free ∈ calls -> tk ∈ tks -> exists n, sig = Some n /\ covers n0 us n addr len.
(** One location: if the overlay has no entry nothing outstanding writes to it;
    otherwise the entry is its final value and stays until those transactions
    are done. *)
Definition lok calls (n0 : nat) us (m : gmap N (N * N)) (k : N) (tk : N -> ticket) (b addr len v : N) : Prop :=
  match m !! k with
  | None => forall x, addr <= x < addr + len -> untouched us x
  | Some (sn, v') => v' = v /\ held calls n0 us (tk sn) b addr len
  end.

(** Transactions outstanding afterwards were outstanding before, as far as a
    range is concerned. *)
Definition ukeep (n0 : nat) us (n0' : nat) us' (addr len : N) : Prop :=
  forall j t w x, us' !! j = Some t -> w ∈ t -> touches w x -> addr <= x < addr + len ->
  exists j0 t0, us !! j0 = Some t0 /\ w ∈ t0 /\ (n0' + j = n0 + j0)%nat.
(** Tickets older than [ser] are held as before. *)
Definition wkeep (ser : N) calls calls' : Prop :=
  (forall b tk, tk_ser tk < ser -> (exists sig tks free, LWait b sig tks free ∈ calls /\ tk ∈ tks) ->
     exists sig tks free, LWait b sig tks free ∈ calls' /\ tk ∈ tks) /\
  (forall b sig tks free tk, tk_ser tk < ser -> LWait b sig tks free ∈ calls' -> tk ∈ tks ->
     exists b0 sig0 tks0 free0, LWait b0 sig0 tks0 free0 ∈ calls /\ tk ∈ tks0 /\ forall n, sig0 = Some n -> sig = Some n).

Lemma ukeep_untouched n0 us n0' us' addr len : ukeep n0 us n0' us' addr len ->
  forall x, addr <= x < addr + len -> untouched us x -> untouched us' x.
Proof.
  intros H x Hx Hu t w Ht Hw Htx. apply elem_of_list_lookup in Ht as [j Hj].
  destruct (H j t w x Hj Hw Htx Hx) as (j0 & t0 & Hj0 & Hw0 & _). apply (Hu t0 w); [eapply elem_of_list_lookup_2, Hj0|exact Hw0|exact Htx].
Qed.
Lemma ukeep_covers n0 us n0' us' n addr len : ukeep n0 us n0' us' addr len -> covers n0 us n addr len -> covers n0' us' n addr len.
Proof.
  intros H Hc j t w x Hj Hw Ht Hx. destruct (H j t w x Hj Hw Ht Hx) as (j0 & t0 & Hj0 & Hw0 & ->). eapply Hc; eassumption.
Qed.
Lemma ukeep_sub n0 us n0' us' addr len addr' len' : ukeep n0 us n0' us' addr len -> addr <= addr' -> addr' + len' <= addr + len ->
  ukeep n0 us n0' us' addr' len'.
Proof. intros H H1 H2 j t w x Hj Hw Ht Hx. eapply H; try eassumption. lia. Qed.
Lemma ukeep_refl n0 us addr len : ukeep n0 us n0 us addr len.
Proof. intros j t w x Hj Hw _ _. eauto. Qed.
Lemma ukeep_drop n0 us k addr len : ukeep n0 us (n0 + k) (drop k us) addr len.
Proof. intros j t w x Hj Hw _ _. rewrite lookup_drop in Hj. exists (k + j)%nat, t. split; [exact Hj|]. split; [exact Hw|lia]. Qed.
Lemma ukeep_snoc n0 us t addr len : (forall w x, w ∈ t -> touches w x -> addr <= x < addr + len -> False) -> ukeep n0 us n0 (us ++ [t]) addr len.
Proof.
  intros H j t' w x Hj Hw Ht Hx. apply lookup_app_Some in Hj as [Hj|[_ Hj]]; [eauto|]. exfalso.
  apply list_lookup_singleton_Some in Hj as [_ <-]. eapply H; eassumption.
Qed.
Lemma ukeep_extend n0 us t w addr len : (forall x, touches w x -> addr <= x < addr + len -> False) ->
  ukeep n0 (us ++ [t]) n0 (us ++ [t ++ [w]]) addr len.
Proof.
  intros H j t' w' x Hj Hw Ht Hx. apply lookup_app_Some in Hj as [Hj|[Hl Hj]].
  - exists j, t'. split; [apply lookup_app_l_Some, Hj|auto].
  - apply list_lookup_singleton_Some in Hj as [Hj <-]. apply elem_of_app in Hw as [Hw|Hw].
    + exists j, t. split; [|auto]. apply lookup_app_Some. right. split; [exact Hl|]. rewrite Hj. reflexivity.
    + apply elem_of_list_singleton in Hw as ->. exfalso. eapply H; eassumption.
Qed.

Lemma held_old ser calls n0 us tk b addr len : held calls n0 us tk b addr len ->
  (forall b sig tks free tk, LWait b sig tks free ∈ calls -> tk ∈ tks -> tk_ser tk < ser) -> tk_ser tk < ser.
Proof. intros [(sig & tks & free & H1 & H2) _] H. eapply H; eassumption. Qed.

Lemma lok_keep ser calls calls' n0 us n0' us' m m' k tk b addr len v :
  lok calls n0 us m k tk b addr len v -> m' !! k = m !! k ->
  (forall b sig tks free tk, LWait b sig tks free ∈ calls -> tk ∈ tks -> tk_ser tk < ser) ->
  wkeep ser calls calls' -> ukeep n0 us n0' us' addr len -> lok calls' n0' us' m' k tk b addr len v.
Proof.
  intros H Em Hold [W1 W2] Hu. unfold lok in *. rewrite Em. destruct (m !! k) as [[sn v']|].
  - destruct H as [-> Hh]. split; [reflexivity|]. pose proof (held_old _ _ _ _ _ _ _ _ Hh Hold) as Hs. destruct Hh as [Hh1 Hh2].
    split; [apply W1; assumption|]. intros b' sig tks free Hc Ht.
    destruct (W2 _ _ _ _ _ Hs Hc Ht) as (b0 & sig0 & tks0 & free0 & Hc0 & Ht0 & Hn).
    destruct (Hh2 _ _ _ _ Hc0 Ht0) as (n & E & Hcov). exists n. split; [now apply Hn|]. eapply ukeep_covers; eassumption.
  - intros x Hx. eapply ukeep_untouched; [exact Hu|exact Hx|now apply H].
Qed.

Lemma lok_set calls n0 us (m : gmap N (N * N)) k (tk : N -> ticket) b addr len v sn n tks free :
  m !! k = Some (sn, v) -> LWait b (Some n) tks free ∈ calls -> tk sn ∈ tks ->
  (forall b' sig tks free, LWait b' sig tks free ∈ calls -> tk sn ∈ tks -> sig = Some n) ->
  (n0 + length us <= S n)%nat -> lok calls n0 us m k tk b addr len v.
Proof.
  intros Em Hc Ht Ho Hn. unfold lok. rewrite Em. split; [reflexivity|]. split; [eauto|].
  intros b' sig tks' free' Hc' Ht'. exists n. split; [eapply Ho; eassumption|].
  intros j t w x Hj _ _ _. apply lookup_lt_Some in Hj. unfold txn in *. lia.
Qed.

(** No wait on the bucket: no entry. *)
Lemma lok_quiet calls n0 us m k tk b addr len v : lok calls n0 us m k tk b addr len v ->
  (forall sig tks free, LWait b sig tks free ∈ calls -> False) ->
  m !! k = None /\ forall x, addr <= x < addr + len -> untouched us x.
Proof.
  intros H Hq. unfold lok in H. destruct (m !! k) as [[sn v']|]; [|auto]. exfalso.
  destruct H as (_ & (sig & tks & free & Hc & _) & _). eapply Hq, Hc.
Qed.
End pending.

(** ** The invariant *)
Section inv.
Context (c : liconf).
Notation spage := (li_spage c).
Notation lpage := (li_lpage c).
Notation ainv := (BuddyInv.Inv (li_base c) (li_heap c) spage lpage (2 ^ 64) DirLeft).
Notation dpg := (dpages spage lpage).

Definition mpage (o : lobj) : page := (lo_off o, lo_pow2 o).
Definition cpages (cl : lcall) : list page :=
  match cl with
  | LNew r _ pow2 off | LRec r _ pow2 off => dpg r ++ [(off, pow2)]
  | LWait _ _ _ free => free
  | LDone => []
  end.
Definition live (objs : list lobj) (calls : list lcall) (leak : list page) : list page :=
  (mpage <$> objs) ++ (objs ≫= fun o => dpg (lo_req o)) ++ (calls ≫= cpages) ++ leak.
Definition ids (objs : list lobj) (calls : list lcall) : list N := ((fun o => lo_id o) <$> objs) ++ (calls ≫= cid).
Definition bkt (o : lobj) : N := bucket_of c (lo_key o).
Definition bchain (objs : list lobj) (b : N) : list lobj := filter (fun o => bkt o = b) objs.

(** Outstanding writes: to a bucket's head, or to the state or link of a record
    whose page is in use or waits for that write. *)
Definition dyn (pg : page) (w : write) : Prop :=
  (fst w = fst pg + off_state /\ length (snd w) = 1%nat) \/ (fst w = fst pg + off_next /\ length (snd w) = 6%nat).
Definition owned (objs : list lobj) (calls : list lcall) (n : nat) (pg : page) : Prop :=
  (exists o, o ∈ objs /\ pg = mpage o) \/
  (exists b m tks free, LWait b (Some m) tks free ∈ calls /\ pg ∈ free /\ (n <= m)%nat).
Definition pend_ok (objs : list lobj) (calls : list lcall) (n : nat) (w : write) : Prop :=
  (exists b, b < 2 ^ li_bpow c /\ fst w = bucket_off b /\ length (snd w) = 5%nat) \/
  (exists pg, owned objs calls n pg /\ dyn pg w).

Record node_ok (F : device) (us : list txn) (n0 : nat) (ov : overlay) (calls : list lcall) (o : lobj) (next : N) : Prop := {
  nd_next : read_be F (lo_off o + off_next) 6 = next;
  nd_lnext : lok calls n0 us (ov_nexts ov) (lo_id o) (TkNext (lo_id o)) (bkt o) (lo_off o + off_next) 6 next;
  nd_state : read_be F (lo_off o + off_state) 1 = lo_st o;
  nd_lstate : lok calls n0 us (ov_states ov) (lo_id o) (TkState (lo_id o)) (bkt o) (lo_off o + off_state) 1 (lo_st o);
  nd_st : lo_st o = st_incomplete \/ lo_st o = st_committed;
}.
Definition head_ok (F : device) (us : list txn) (n0 : nat) (ov : overlay) (calls : list lcall) (b v : N) : Prop :=
  N.shiftl (read_be F (bucket_off b) 5) MIN_PAGE_SIZE_POW2 = v /\
  lok calls n0 us (ov_heads ov) b (TkHead b) b (bucket_off b) 5 v.

Definition call_ok (F : device) (ov : overlay) (cl : lcall) : Prop :=
  match cl with
  | LNew r raw pow2 off =>
      req_ok spage lpage r /\ create_record spage lpage r = Some (CrRecord raw pow2) /\
      ov_states ov !! cr_id r = None /\ ov_nexts ov !! cr_id r = None
  | LRec r raw pow2 off =>
      req_ok spage lpage r /\ create_record spage lpage r = Some (CrRecord raw pow2) /\
      ov_states ov !! cr_id r = None /\ ov_nexts ov !! cr_id r = None /\ rec_on F off raw
  | LWait _ _ tks _ => forall tk, tk ∈ tks -> tk_ser tk < ov_serial ov
  | LDone => True
  end.

Record core (a : Allocator) (F : device) (us : list txn) (n0 : nat) (ov : overlay) (calls : list lcall) (used : list N)
  (objs : list lobj) (leak : list page) : Prop := {
  k_alloc : exists f, ainv a (live objs calls leak) f;
  k_ids : NoDup (ids objs calls);
  k_used : forall i, i ∈ ids objs calls -> i ∈ used;
  k_obj : forall o, o ∈ objs -> req_ok spage lpage (lo_req o) /\ rstat spage lpage F o;
  k_calls : forall cl, cl ∈ calls -> call_ok F ov cl;
  k_ovs : forall i e, ov_states ov !! i = Some e -> i ∈ used;
  k_ovn : forall i e, ov_nexts ov !! i = Some e -> i ∈ used;
  k_pend : forall j t w, us !! j = Some t -> w ∈ t -> pend_ok objs calls (n0 + j) w;
  k_head : forall b, b < 2 ^ li_bpow c -> head_ok F us n0 ov calls b (first_off (bchain objs b));
  k_chain : forall b, chain (node_ok F us n0 ov calls) (bchain objs b) 0;
}.

Lemma node_keep F F' us us' n0 n0' ov ov' calls calls' o next :
  node_ok F us n0 ov calls o next ->
  (forall x, lo_off o <= x < lo_off o + 8 -> F' x = F x) ->
  ov_nexts ov' !! lo_id o = ov_nexts ov !! lo_id o -> ov_states ov' !! lo_id o = ov_states ov !! lo_id o ->
  (forall b sig tks free tk, LWait b sig tks free ∈ calls -> tk ∈ tks -> tk_ser tk < ov_serial ov) ->
  wkeep (ov_serial ov) calls calls' -> ukeep n0 us n0' us' (lo_off o) 8 ->
  node_ok F' us' n0' ov' calls' o next.
Proof.
  intros [H1 H2 H3 H4 H5] HF E1 E2 Hold Hw Hu. split.
  - rewrite <- H1. unfold read_be. f_equal. apply dev_read_same. intros x Hx. apply HF. offs. lia.
  - eapply lok_keep; try eassumption. eapply ukeep_sub; [exact Hu|offs; lia|offs; lia].
  - rewrite <- H3. unfold read_be. f_equal. apply dev_read_same. intros x Hx. apply HF. offs. lia.
  - eapply lok_keep; try eassumption. eapply ukeep_sub; [exact Hu|offs; lia|offs; lia].
  - exact H5.
Qed.
Lemma head_keep F F' us us' n0 n0' ov ov' calls calls' b v :
  head_ok F us n0 ov calls b v ->
  (forall x, bucket_off b <= x < bucket_off b + 5 -> F' x = F x) ->
  ov_heads ov' !! b = ov_heads ov !! b ->
  (forall b sig tks free tk, LWait b sig tks free ∈ calls -> tk ∈ tks -> tk_ser tk < ov_serial ov) ->
  wkeep (ov_serial ov) calls calls' -> ukeep n0 us n0' us' (bucket_off b) 5 ->
  head_ok F' us' n0' ov' calls' b v.
Proof.
  intros [H1 H2] HF E Hold Hw Hu. split.
  - rewrite <- H1. unfold read_be. do 2 f_equal. apply dev_read_same. exact HF.
  - eapply lok_keep; eassumption.
Qed.

(** ** Basic consequences *)
Context (Hc : conf_sizes c).

Lemma bucket_lt k : bucket_of c k < 2 ^ li_bpow c.
Proof.
  unfold bucket_of. pose proof (co_keys _ Hc k) as H. pose proof (co_bpow _ Hc) as Hb. rewrite N.shiftr_div_pow2.
  apply N.div_lt_upper_bound; [apply pow2_nz|]. rewrite <- N.pow_add_r. replace (64 - li_bpow c + li_bpow c) with 64 by lia. exact H.
Qed.
Lemma base_pos : 36 <= li_base c.
Proof. pose proof (co_base _ Hc). pose proof (co_cap _ Hc). lia. Qed.
Lemma heads_low b x : b < 2 ^ li_bpow c -> bucket_off b <= x < bucket_off b + 5 -> outside_journal (li_jc c) x /\ x < li_base c.
Proof.
  intros Hb Hx. pose proof (co_joff _ Hc). pose proof (co_base _ Hc). unfold bucket_off, outside_journal in *.
  generalize dependent (2 ^ li_bpow c). intros. lia.
Qed.
Lemma heap_outside x : li_base c <= x -> outside_journal (li_jc c) x.
Proof. intros H. pose proof (co_base _ Hc). unfold outside_journal. lia. Qed.

Section live.
Context {a : Allocator} {L : list page} {f : N} (HI : ainv a L f).
Lemma page_facts p : p ∈ L -> li_base c <= fst p /\ fst p + 2 ^ snd p <= li_base c + li_heap c /\ spage <= snd p <= lpage /\
  fst p mod 256 = 0 /\ 256 <= 2 ^ snd p.
Proof.
  intros Hp. pose proof HI as HI2. eapply live_well_placed in HI2; [|exact Hp]. destruct HI2 as (Hs & Hm & Hh).
  pose proof (co_spage _ Hc) as Hsp. unfold MIN_PAGE_SIZE_POW2 in Hsp.
  assert (H8 : 256 <= 2 ^ snd p) by (apply pow_ge_256; lia).
  unfold page_bytes, in_heap in Hh. pose proof (Hh (fst p) ltac:(lia)) as H1. pose proof (Hh (fst p + 2 ^ snd p - 1) ltac:(lia)) as H2.
  split; [lia|]. split; [lia|]. split; [exact Hs|]. split; [|exact H8].
  change 256 with (2 ^ 8). eapply mod_pow2_le; [|exact Hm]. lia.
Qed.
Lemma page_share p q x : p ∈ L -> q ∈ L -> in_page p x -> in_page q x -> p = q.
Proof.
  intros Hp Hq H1 H2. apply elem_of_list_lookup in Hp as [i Hi]. apply elem_of_list_lookup in Hq as [j Hj].
  destruct (decide (i = j)) as [->|Hij]; [congruence|]. exfalso.
  eapply live_disjoint in HI. eapply (HI i j p q Hij Hi Hj x). split; [exact H1|exact H2].
Qed.
Lemma live_nodup : NoDup L.
Proof.
  apply NoDup_alt. intros i j p Hi Hj. destruct (decide (i = j)) as [|Hij]; [assumption|]. exfalso.
  pose proof HI as HD. eapply live_disjoint in HD. eapply (HD i j p p Hij Hi Hj (fst p)).
  assert (0 < 2 ^ snd p) by apply pow2_pos. unfold page_bytes. lia.
Qed.
End live.

Lemma core_old a F us n0 ov calls used objs leak : core a F us n0 ov calls used objs leak ->
  forall b sig tks free tk, LWait b sig tks free ∈ calls -> tk ∈ tks -> tk_ser tk < ov_serial ov.
Proof. intros HK b sig tks free tk Hl. exact (k_calls _ _ _ _ _ _ _ _ _ HK _ Hl tk). Qed.

Lemma in_live_m objs calls leak o : o ∈ objs -> mpage o ∈ live objs calls leak.
Proof. intros H. unfold live. rewrite !elem_of_app. left. now apply elem_of_list_fmap_1. Qed.
Lemma in_live_d objs calls leak o p : o ∈ objs -> p ∈ dpg (lo_req o) -> p ∈ live objs calls leak.
Proof. intros H Hp. unfold live. rewrite !elem_of_app. right. left. apply elem_of_list_bind. eauto. Qed.
Lemma in_live_c objs calls leak cl p : cl ∈ calls -> p ∈ cpages cl -> p ∈ live objs calls leak.
Proof. intros H Hp. unfold live. rewrite !elem_of_app. right. right. left. apply elem_of_list_bind. eauto. Qed.

Lemma owned_live objs calls leak n pg : owned objs calls n pg -> pg ∈ live objs calls leak.
Proof.
  intros [(o & Ho & ->)|(b & m & tks & free & Hl & Hp & _)]; [now apply in_live_m|]. eapply in_live_c; [exact Hl|exact Hp].
Qed.
Lemma dyn_in pg w x : 256 <= 2 ^ snd pg -> dyn pg w -> touches w x -> in_page pg x /\ x < fst pg + 8 /\ x <> fst pg + 1.
Proof. unfold dyn, touches, in_page. intros H [[H1 H2]|[H1 H2]] Ht; rewrite H1, H2 in Ht; offs; lia. Qed.

Section core.
Context {a : Allocator} {F : device} {us : list txn} {n0 : nat} {ov : overlay} {calls : list lcall} {used : list N}
  {objs : list lobj} {leak : list page} (HK : core a F us n0 ov calls used objs leak).

Lemma core_page p : p ∈ live objs calls leak -> li_base c <= fst p /\ fst p + 2 ^ snd p <= li_base c + li_heap c /\ spage <= snd p <= lpage /\
  fst p mod 256 = 0 /\ 256 <= 2 ^ snd p.
Proof. destruct (k_alloc _ _ _ _ _ _ _ _ _ HK) as [f HI]. apply (page_facts HI). Qed.
Lemma core_share p q x : p ∈ live objs calls leak -> q ∈ live objs calls leak -> in_page p x -> in_page q x -> p = q.
Proof. destruct (k_alloc _ _ _ _ _ _ _ _ _ HK) as [f HI]. apply (page_share HI). Qed.
Lemma core_nodup : NoDup (live objs calls leak).
Proof. destruct (k_alloc _ _ _ _ _ _ _ _ _ HK) as [f HI]. apply (live_nodup HI). Qed.

(** An outstanding write that touches a page in use. *)
Lemma pend_at j t w x pg : us !! j = Some t -> w ∈ t -> touches w x -> pg ∈ live objs calls leak -> in_page pg x ->
  owned objs calls (n0 + j) pg /\ dyn pg w.
Proof.
  intros Hj Hw Ht Hp Hx. destruct (k_pend _ _ _ _ _ _ _ _ _ HK _ _ _ Hj Hw) as [(b & Hb & H1 & H2)|(pg' & Ho & Hd)].
  - exfalso. destruct (heads_low b x Hb) as [_ Hlow].
    { unfold touches in Ht. rewrite H1, H2 in Ht. exact Ht. }
    pose proof (core_page _ Hp) as (Hb2 & _). unfold in_page in Hx. lia.
  - pose proof (owned_live _ _ leak _ _ Ho) as Hp'. pose proof (core_page _ Hp') as (_ & _ & _ & _ & H256).
    destruct (dyn_in _ _ _ H256 Hd Ht) as (Hin & _).
    assert (pg = pg') as -> by (eapply core_share; eassumption). auto.
Qed.

(** Data pages, pages of objects being created: nothing outstanding. *)
Lemma data_untouched o pg x : o ∈ objs -> pg ∈ dpg (lo_req o) -> in_page pg x -> untouched us x.
Proof.
  intros Ho Hp Hx t w Ht Hw Htx. apply elem_of_list_lookup in Ht as [j Hj].
  destruct (pend_at j t w x pg Hj Hw Htx (in_live_d _ _ _ _ _ Ho Hp) Hx) as [How _].
  pose proof core_nodup as Hn. unfold live in Hn. apply NoDup_app in Hn as (_ & Hd1 & Hn). apply NoDup_app in Hn as (_ & Hd2 & _).
  assert (Hin : pg ∈ objs ≫= fun o => dpg (lo_req o)) by (apply elem_of_list_bind; eauto).
  destruct How as [(o' & Ho' & ->)|(b & m & tks & free & Hl & Hf & _)].
  - apply (Hd1 (mpage o')); [now apply elem_of_list_fmap_1|]. apply elem_of_app. auto.
  - apply (Hd2 pg Hin). apply elem_of_app. left. apply elem_of_list_bind. exists (LWait b (Some m) tks free). split; assumption.
Qed.
Definition creating (cl : lcall) : Prop := match cl with LNew _ _ _ _ | LRec _ _ _ _ => True | _ => False end.
Lemma creating_untouched cl pg x : cl ∈ calls -> creating cl -> pg ∈ cpages cl -> in_page pg x -> untouched us x.
Proof.
  intros Hcl Hcr Hp Hx t w Ht Hw Htx. apply elem_of_list_lookup in Ht as [j Hj].
  destruct (pend_at j t w x pg Hj Hw Htx (in_live_c _ _ _ _ _ Hcl Hp) Hx) as [How _].
  pose proof core_nodup as Hn. unfold live in Hn. apply NoDup_app in Hn as (_ & Hd1 & Hn). apply NoDup_app in Hn as (_ & _ & Hn).
  apply NoDup_app in Hn as (Hn & _ & _).
  assert (Hin : pg ∈ calls ≫= cpages) by (apply elem_of_list_bind; eauto).
  destruct How as [(o' & Ho' & ->)|(b & m & tks & free & Hl & Hf & _)].
  - apply (Hd1 (mpage o')); [now apply elem_of_list_fmap_1|]. rewrite !elem_of_app. auto.
  - pose proof (nodup_bind_elem cpages calls cl (LWait b (Some m) tks free) pg Hn Hcl Hl Hp Hf) as ->. exact Hcr.
Qed.
(** The constant part of a record. *)
Lemma static_untouched o x : o ∈ objs -> static_off x -> x < 2 ^ lo_pow2 o -> untouched us (lo_off o + x).
Proof.
  intros Ho Hs Hx t w Ht Hw Htx. apply elem_of_list_lookup in Ht as [j Hj].
  pose proof (in_live_m _ calls leak _ Ho) as Hm.
  destruct (pend_at j t w _ (mpage o) Hj Hw Htx Hm) as [_ Hd]; [unfold in_page, mpage; cbn [fst snd]; lia|].
  pose proof (core_page _ Hm) as (_ & _ & _ & _ & H256).
  destruct (dyn_in _ _ _ H256 Hd Htx) as (_ & H1 & H2). cbn [mpage fst] in *. unfold static_off in Hs. lia.
Qed.
Lemma page_pow o : o ∈ objs -> 256 <= 2 ^ lo_pow2 o.
Proof. intros Ho. apply (core_page (mpage o) (in_live_m _ _ _ _ Ho)). Qed.
Lemma off_facts o : o ∈ objs -> li_base c <= lo_off o /\ lo_off o <> 0 /\ lo_off o < 2 ^ 48 /\ lo_off o mod 256 = 0.
Proof.
  intros Ho. pose proof (core_page (mpage o) (in_live_m _ _ _ _ Ho)) as (H1 & H2 & _ & H4 & H5). cbn [mpage fst snd] in *.
  pose proof base_pos. pose proof (co_end _ Hc). split; [exact H1|]. split; [lia|]. split; [lia|exact H4].
Qed.
Lemma same_page o o' x : o ∈ objs -> o' ∈ objs -> in_page (mpage o) x -> in_page (mpage o') x -> o = o'.
Proof.
  intros Ho Ho' H1 H2. pose proof (core_share _ _ x (in_live_m _ _ _ _ Ho) (in_live_m _ _ _ _ Ho') H1 H2) as E.
  pose proof core_nodup as Hn. unfold live in Hn. apply NoDup_app in Hn as (Hn & _). eapply nodup_fmap_elem; eassumption.
Qed.
Lemma same_id o o' : o ∈ objs -> o' ∈ objs -> lo_id o = lo_id o' -> o = o'.
Proof.
  intros Ho Ho' E. pose proof (k_ids _ _ _ _ _ _ _ _ _ HK) as Hn. unfold ids in Hn. apply NoDup_app in Hn as (Hn & _).
  eapply (nodup_fmap_elem (fun o => lo_id o)); eassumption.
Qed.
Lemma objs_nodup : NoDup objs.
Proof.
  pose proof (k_ids _ _ _ _ _ _ _ _ _ HK) as Hn. unfold ids in Hn. apply NoDup_app in Hn as (Hn & _). eapply NoDup_fmap_1, Hn.
Qed.
End core.
End inv.
