(** C27 (libblobd-lite): the object counters.  The specification of the objects
    that exist is LiteSpec.v. *)
From Coq Require Import ZifyBool ZifyNat ZifyN.
From stdpp Require Import base numbers list_numbers option gmap sets list.
From Verif Require Import Util Bytes BuddyModel BuddySpec BuddyProofs BuddyInv LayoutModel MetaModel PageIOModel PageIOSpec PageIOProofs DirectModel DirectBase.
From Verif Require Import JournalModel JournalSpec JournalProofs LiteModel LiteSpec LiteJournal LiteNode LiteRecord LiteInv LiteSteps LiteSteps2 LiteLin LiteSim LiteSim2 LiteSim3 PropertiesLite PropertiesLite2.
From Verif Require Import LiteMetricsModel.
Open Scope N_scope.
Ltac Zify.zify_post_hook ::= idtac.

(** ** What the counters should say *)
(** The sizes of the objects that exist, committed or not. *)
Definition sizes (st : sstore) : list N :=
  ((fun x => so_size (snd (snd x))) <$> map_to_list (ss_inc st)) ++ ((fun x => so_size (snd x)) <$> map_to_list (ss_com st)).
Fixpoint total (l : list N) : Z := match l with [] => 0 | x :: l => Z.of_N x + total l end.
(** How many calls have not returned. *)
Definition waiting (s : lstate) : nat := length (filter (fun cl => is_done cl = false) (ls_calls s)).

Lemma total_perm l k : l ≡ₚ k -> total l = total k.
Proof. induction 1; cbn [total]; lia. Qed.
Lemma total_app l k : total (l ++ k) = (total l + total k)%Z.
Proof. induction l as [|x l IH]; cbn [app total]; [|rewrite IH]; lia. Qed.

(** ** The specification's steps *)
Lemma sizes_inc_insert inc com id x : inc !! id = None ->
  sizes {| ss_inc := <[id := x]> inc; ss_com := com |} ≡ₚ so_size (snd x) :: sizes {| ss_inc := inc; ss_com := com |}.
Proof. intros H. unfold sizes. cbn [ss_inc ss_com]. rewrite map_to_list_insert by exact H. rewrite fmap_cons. reflexivity. Qed.
Lemma sizes_com_insert inc com key o : com !! key = None ->
  sizes {| ss_inc := inc; ss_com := <[key := o]> com |} ≡ₚ so_size o :: sizes {| ss_inc := inc; ss_com := com |}.
Proof.
  intros H. unfold sizes. cbn [ss_inc ss_com]. rewrite map_to_list_insert by exact H. rewrite fmap_cons. cbn [snd].
  symmetry. apply Permutation_middle.
Qed.
Lemma sizes_inc_delete inc com id x : inc !! id = Some x ->
  sizes {| ss_inc := inc; ss_com := com |} ≡ₚ so_size (snd x) :: sizes {| ss_inc := delete id inc; ss_com := com |}.
Proof. intros H. rewrite <- sizes_inc_insert by apply lookup_delete. now rewrite insert_delete. Qed.
Lemma sizes_com_delete inc com key o : com !! key = Some o ->
  sizes {| ss_inc := inc; ss_com := com |} ≡ₚ so_size o :: sizes {| ss_inc := inc; ss_com := delete key com |}.
Proof. intros H. rewrite <- sizes_com_insert by apply lookup_delete. now rewrite insert_delete. Qed.
Lemma sizes_inc_update inc com id x x' : inc !! id = Some x -> so_size (snd x') = so_size (snd x) ->
  sizes {| ss_inc := <[id := x']> inc; ss_com := com |} ≡ₚ sizes {| ss_inc := inc; ss_com := com |}.
Proof.
  intros H E. rewrite (sizes_inc_delete _ _ _ x H). rewrite <- insert_delete_insert, sizes_inc_insert by apply lookup_delete. now rewrite E.
Qed.

(** What an observation adds to the sizes and removes from them. *)
Definition added (o : lobs) : list N := match o with OCreate _ size _ => [size] | _ => [] end.
Definition gone (st : sstore) (o : lobs) : list N :=
  match o with
  | OCommit key _ true => match ss_com st !! key with Some old => [so_size old] | None => [] end
  | ODelete key oid true => match ss_find st key oid with Some o => [so_size o] | None => [] end
  | _ => []
  end.
Lemma sstep_sizes lpage st o st' : sstep lpage st o st' -> gone st o ++ sizes st' ≡ₚ added o ++ sizes st.
Proof.
  intros H. destruct st as [inc com].
  assert (Hinc : forall key id o, ss_incomplete {| ss_inc := inc; ss_com := com |} key id = Some o -> inc !! id = Some (key, o)).
  { intros key id o0. unfold ss_incomplete. cbn [ss_inc]. destruct (inc !! id) as [[k o1]|] eqn:E; [|discriminate]. cbn [mbind option_bind].
    destruct (bool_decide (k = key)) eqn:Ek; [|discriminate]. apply bool_decide_eq_true in Ek as ->. now intros [= ->]. }
  destruct H; cbn [gone added app ss_com ss_inc]; try reflexivity.
  - rewrite sizes_inc_insert by assumption. reflexivity.
  - apply Hinc in H. pose proof (sizes_inc_delete inc com id _ H) as H1. rewrite H1. cbn [snd].
    destruct (com !! key) as [old|] eqn:E.
    + rewrite <- insert_delete_insert. rewrite sizes_com_insert by apply lookup_delete. rewrite (sizes_com_delete _ com key old E).
      cbn [app]. apply Permutation_swap.
    + rewrite sizes_com_insert by exact E. reflexivity.
  - rewrite H. unfold ss_find in H. cbn [ss_com] in H. destruct (com !! key) as [o1|] eqn:E; [|discriminate]. cbn [mbind option_bind] in H.
    destruct (id_ok oid (so_id o1)); [|discriminate]. injection H as ->. rewrite (sizes_com_delete _ com key o E). reflexivity.
  - apply Hinc in H. eapply sizes_inc_update; [exact H|reflexivity].
  - apply Hinc in H. eapply sizes_inc_update; [exact H|reflexivity].
Qed.

(** ** The invariant *)
(** Objects that exist but whose create call has not counted them yet. *)
Definition uncounted1 (x : lcall * option (N * N)) : list N :=
  match x with (LWait _ _ _ _, Some (size, _)) => [size] | _ => [] end.
Definition uncounted (ms : mstate) : list N := zip (ls_calls (ms_s ms)) (ms_new ms) ≫= uncounted1.
(** Create calls that have not linked their object remember its size. *)
Definition new_ok (x : lcall * option (N * N)) : Prop :=
  match fst x with LNew r _ _ _ | LRec r _ _ _ => exists len, snd x = Some (cr_size r, len) | _ => True end.
Record minv (ms : mstate) (st : sstore) : Prop := {
  mv_len : length (ms_new ms) = length (ls_calls (ms_s ms));
  mv_new : Forall new_ok (zip (ls_calls (ms_s ms)) (ms_new ms));
  mv_count : Z.of_nat (length (sizes st)) = (lm_count (ms_met ms) + Z.of_nat (length (uncounted ms)))%Z;
  mv_data : total (sizes st) = (lm_data (ms_met ms) + total (uncounted ms))%Z;
}.

Lemma bind_perm {X Y} (f : X -> list Y) (l k : list X) : l ≡ₚ k -> l ≫= f ≡ₚ k ≫= f.
Proof. intros H. now rewrite H. Qed.

(** A call at [i] moves on. *)
Lemma move_call ms i cl cl' : length (ms_new ms) = length (ls_calls (ms_s ms)) -> ls_calls (ms_s ms) !! i = Some cl ->
  exists nw rest, ms_new ms !! i = Some nw /\
    zip (ls_calls (ms_s ms)) (ms_new ms) ≡ₚ (cl, nw) :: rest /\
    zip (<[i := cl']> (ls_calls (ms_s ms))) (ms_new ms) ≡ₚ (cl', nw) :: rest.
Proof.
  intros Hlen Hi. assert (Hn : is_Some (ms_new ms !! i)) by (apply lookup_lt_is_Some; rewrite Hlen; eapply lookup_lt_Some, Hi).
  destruct Hn as [nw Hn]. assert (Hz : zip (ls_calls (ms_s ms)) (ms_new ms) !! i = Some (cl, nw)) by (apply lookup_zip_with_Some; eauto 10).
  destruct (LiteInv.insert_perm _ _ _ Hz) as (rest & H1 & H2). exists nw, rest. split; [exact Hn|]. split; [exact H1|].
  rewrite <- (list_insert_id (ms_new ms) i nw Hn) at 1. rewrite <- (insert_zip_with pair). apply H2.
Qed.
Lemma zip_snoc {X Y} (l : list X) (k : list Y) x y : length k = length l -> zip (l ++ [x]) (k ++ [y]) = zip l k ++ [(x, y)].
Proof. intros H. rewrite zip_with_app by congruence. reflexivity. Qed.

Section step.
Context (c : liconf) (Hc : conf_ok c) (ms : mstate) (st : sstore) (HM : minv ms st)
  (A : device) (us : list txn) (objs : list lobj) (leak : list page)
  (HL : linv c (ms_s ms) A us objs leak) (HS : srel c (flushed A us) objs st).
Notation s := (ms_s ms).

(** What is unlinked is what the specification says. *)
Lemma unlinked_delete key oid fuel seen : forall f, unlinked c s (LDelete key oid fuel seen) = Some f ->
  exists o, ss_find st key oid = Some o /\ meta_size (f_raw f) = Some (so_size o) /\ is_Some (meta_size_pow2 (f_raw f)).
Proof.
  intros f. cbn [unlinked]. pose proof (lin_find c Hc HL key fuel st_committed oid) as Hf.
  destruct (find_object c (now s) key fuel st_committed oid) as [| |r]; try discriminate. intros ->.
  destruct Hf as (l1 & o & l2 & _ & _ & Hm & Ho & [[_ _ _ F4 F5] _]). destruct (srel_find_some c HS key oid o Ho Hm) as (so & Hso & (_ & R2 & _) & _).
  exists so. split; [exact Hso|]. split; [rewrite F4, R2; reflexivity|]. rewrite F5. eauto.
Qed.
Lemma unlinked_commit key id fuel seen fi fe : find_for_commit c (now s) key fuel id = WkDone (Some fi, fe) ->
  match fe with
  | Some f => exists o, ss_com st !! key = Some o /\ meta_size (f_raw f) = Some (so_size o) /\ is_Some (meta_size_pow2 (f_raw f)) /\
      unlinked c s (LCommit key id fuel seen) = Some f
  | None => ss_com st !! key = None /\ unlinked c s (LCommit key id fuel seen) = None
  end.
Proof.
  intros E. pose proof (lin_find_commit c Hc HL key fuel id) as Hf. cbn [unlinked]. rewrite E in Hf |- *. destruct Hf as [_ He].
  destruct He as [[-> Hn]|(l1 & o & l2 & f & _ & Hm & Ho & -> & [[_ _ _ F4 F5] _])].
  - split; [|reflexivity]. pose proof (srel_find_none c HS key None Hn) as H. unfold ss_find in H. destruct (ss_com st !! key); [discriminate|reflexivity].
  - destruct (srel_find_some c HS key None o Ho Hm) as (so & _ & (_ & R2 & _) & Hso). exists so. split; [exact Hso|]. split; [rewrite F4, R2; reflexivity|].
    split; [rewrite F5; eauto|]. now rewrite (co_versioning _ Hc).
Qed.

(** Steps by what they do to the calls: nothing ... *)
Lemma minv_same s' st' : ls_calls s' = ls_calls s -> sizes st' ≡ₚ sizes st ->
  minv {| ms_s := s'; ms_new := ms_new ms; ms_met := ms_met ms |} st'.
Proof.
  intros E Hp. destruct HM as [M1 M2 M3 M4]. split; cbn [ms_s ms_new ms_met]; unfold uncounted in *; cbn [ms_s ms_new]; rewrite ?E.
  - exact M1.
  - exact M2.
  - rewrite Hp. exact M3.
  - rewrite (total_perm _ _ Hp). exact M4.
Qed.
(** ... a call moves on ... *)
Lemma minv_move i cl cl' nw s' st' m : ls_calls s !! i = Some cl -> ms_new ms !! i = Some nw -> ls_calls s' = <[i := cl']> (ls_calls s) -> new_ok (cl', nw) ->
  (Z.of_nat (length (sizes st')) - Z.of_nat (length (uncounted1 (cl', nw))) - lm_count m =
   Z.of_nat (length (sizes st)) - Z.of_nat (length (uncounted1 (cl, nw))) - lm_count (ms_met ms))%Z ->
  (total (sizes st') - total (uncounted1 (cl', nw)) - lm_data m = total (sizes st) - total (uncounted1 (cl, nw)) - lm_data (ms_met ms))%Z ->
  minv {| ms_s := s'; ms_new := ms_new ms; ms_met := m |} st'.
Proof.
  intros Hi Hn E Hok H1 H2. destruct HM as [M1 M2 M3 M4].
  destruct (move_call ms i cl cl' M1 Hi) as (nw' & rest & Hn' & P1 & P2). rewrite Hn in Hn'. injection Hn' as <-.
  unfold uncounted in *. rewrite (bind_perm uncounted1 _ _ P1) in M3. rewrite (total_perm _ _ (bind_perm uncounted1 _ _ P1)) in M4.
  rewrite bind_cons, app_length in M3. rewrite bind_cons, total_app in M4.
  split; cbn [ms_s ms_new ms_met]; rewrite ?E.
  - rewrite insert_length. exact M1.
  - rewrite P2. rewrite P1 in M2. apply Forall_cons in M2 as [_ M2]. now constructor.
  - unfold uncounted. cbn [ms_s ms_new]. rewrite E, (bind_perm uncounted1 _ _ P2), bind_cons, app_length. lia.
  - unfold uncounted. cbn [ms_s ms_new]. rewrite E, (total_perm _ _ (bind_perm uncounted1 _ _ P2)), bind_cons, total_app. lia.
Qed.
(** ... a call is added. *)
Lemma minv_push cl nw s' st' m : ls_calls s' = ls_calls s ++ [cl] -> new_ok (cl, nw) -> uncounted1 (cl, nw) = [] ->
  (Z.of_nat (length (sizes st')) - lm_count m = Z.of_nat (length (sizes st)) - lm_count (ms_met ms))%Z ->
  (total (sizes st') - lm_data m = total (sizes st) - lm_data (ms_met ms))%Z ->
  minv {| ms_s := s'; ms_new := ms_new ms ++ [nw]; ms_met := m |} st'.
Proof.
  intros E Hok Hun H1 H2. destruct HM as [M1 M2 M3 M4]. unfold uncounted in *.
  split; cbn [ms_s ms_new ms_met]; rewrite ?E.
  - rewrite !app_length, M1. reflexivity.
  - rewrite zip_snoc by exact M1. apply Forall_app. split; [exact M2|]. now constructor.
  - unfold uncounted. cbn [ms_s ms_new]. rewrite E, zip_snoc by exact M1. rewrite bind_app, bind_cons, Hun. cbn [app]. rewrite app_nil_r. lia.
  - unfold uncounted. cbn [ms_s ms_new]. rewrite E, zip_snoc by exact M1. rewrite bind_app, bind_cons, Hun. cbn [app]. rewrite app_nil_r. lia.
Qed.

Lemma one_step st' o : ssteps (li_lpage c) st [o] st' -> sstep (li_lpage c) st o st'.
Proof. intros H. inversion H as [|? ? ? ? ? H1 H2]; subst. inversion H2; subst. exact H1. Qed.
Lemma no_step st' : ssteps (li_lpage c) st [] st' -> st' = st.
Proof. intros H. now inversion H. Qed.
Lemma drop_same {X} (l : list X) : drop (length l) l = [].
Proof. apply drop_ge. lia. Qed.
Lemma drop_push {X} (l : list X) x : drop (length l) (l ++ [x]) = [x].
Proof. rewrite drop_app_alt by reflexivity. reflexivity. Qed.
Lemma drop_insert {X} (l : list X) i x : drop (length l) (<[i := x]> l) = [].
Proof. apply drop_ge. rewrite insert_length. lia. Qed.

Lemma minv_step e ms' obs st' : event_ok c e -> mstep c ms e = Some (ms', obs) -> ssteps (li_lpage c) st obs st' -> minv ms' st'.
Proof.
  intros He E Hss. unfold mstep in E. destruct (lstep c s e) as [[s' obs']|] eqn:El; [|discriminate]. cbn [mbind option_bind] in E.
  assert (Hnp : obs' <> [OPanic]).
  { intros ->. assert (obs = [OPanic]) as ->. { destruct e; destruct (drop _ _) as [|? [|? ?]]; cbn in E; congruence. }
    apply one_step in Hss. inversion Hss. }
  set (met := match e, obs' with | _, [OPanic] => _ | LFinish i, _ => _ | _, _ => _ end) in E.
  assert (Hmet : met = match e with
    | LFinish i => match ms_new ms !! i with Some (Some (size, len)) => Some (lm_add (ms_met ms) 1 (Z.of_N size) (Z.of_N len)) | _ => Some (ms_met ms) end
    | _ => match unlinked c s e with Some f => count_unlink (ms_met ms) f | None => Some (ms_met ms) end end).
  { unfold met. destruct e; destruct obs' as [|[] [|? ?]]; try reflexivity; congruence. }
  clearbody met. subst met.
  destruct e; cbn [lstep] in El.
  - (* create *)
    cbn [unlinked] in E. cbn [mbind option_bind] in E. injection E as <- <-.
    unfold do_create in El. destruct (bool_decide (id ∈ ls_used s)); [discriminate|].
    assert (Hstay : forall o, stay s o = Some (s', obs') -> added o = [] -> gone st o = [] ->
      minv {| ms_s := s'; ms_new := match drop (length (ls_calls s)) (ls_calls s') with [LNew r raw _ _] => ms_new ms ++ [Some (cr_size r, N.of_nat (length raw))] | [_] => ms_new ms ++ [None] | _ => ms_new ms end; ms_met := ms_met ms |} st').
    { intros o [= <- <-] Ha Hg. rewrite drop_same. apply minv_same; [reflexivity|]. pose proof (sstep_sizes _ _ _ _ (one_step _ _ Hss)) as H. now rewrite Ha, Hg in H. }
    destruct (calc_object_layout (li_spage c) (li_lpage c) (2 ^ 64) size) as [[lc t]|], (create_record (li_spage c) (li_lpage c) _) as [[|raw0 p0]|];
      try (eapply Hstay; [exact El|reflexivity|reflexivity]).
    destruct (tps_collect t) as [l|]; [|eapply Hstay; [exact El|reflexivity|reflexivity]].
    destruct (alloc_list (ls_alloc s) _) as [a [offs|]].
    + destruct (drop (N.to_nat lc + length l) offs) as [|off [|? ?]]; [eapply Hstay; [exact El|reflexivity|reflexivity]| |eapply Hstay; [exact El|reflexivity|reflexivity]].
      destruct (create_record (li_spage c) (li_lpage c) _) as [[|raw p]|]; try (eapply Hstay; [exact El|reflexivity|reflexivity]).
      injection El as <- <-. apply no_step in Hss as ->. cbn [mk ls_calls]. rewrite drop_push.
      eapply minv_push; cbn [mk ls_calls]; try reflexivity. cbn. eauto.
    + injection El as <- <-. cbn [mk ls_calls]. rewrite drop_same. apply minv_same; [reflexivity|].
      pose proof (sstep_sizes _ _ _ _ (one_step _ _ Hss)) as H. exact H.
  - (* record *)
    cbn [unlinked mbind option_bind] in E. injection E as <- <-.
    destruct (ls_calls s !! i) as [[r raw p off| | |]|] eqn:Ei; try discriminate. injection El as <- <-. apply no_step in Hss as ->.
    cbn [mk ls_calls]. rewrite drop_insert. destruct (move_call ms i _ LDone (mv_len _ _ HM) Ei) as (nw & rest & Hn & P1 & _).
    eapply minv_move; [exact Ei|exact Hn|reflexivity| |reflexivity|reflexivity].
    pose proof (mv_new _ _ HM) as M. rewrite P1 in M. apply Forall_cons in M as [M _]. exact M.
  - (* link *)
    cbn [unlinked mbind option_bind] in E. injection E as <- <-.
    destruct (ls_calls s !! i) as [[|r raw p off| |]|] eqn:Ei; try discriminate. unfold do_link in El.
    destruct (update_head (ls_ov s) [] _ off) as [[ov1 t1] tk1]. destruct (ov_set_next ov1 (cr_id r) _) as [ov2 tk2].
    destruct (do_txn c (ls_j s) _ seen) as [j sig]. injection El as <- <-.
    cbn [mk ls_calls]. rewrite drop_insert. destruct (move_call ms i _ LDone (mv_len _ _ HM) Ei) as (nw & rest & Hn & P1 & _).
    pose proof (mv_new _ _ HM) as M. rewrite P1 in M. apply Forall_cons in M as [[len M] _]. cbn [snd] in M. subst nw.
    pose proof (sstep_sizes _ _ _ _ (one_step _ _ Hss)) as H. cbn [gone added app] in H.
    eapply minv_move; [exact Ei|exact Hn|reflexivity|exact I| |].
    + rewrite H. cbn [uncounted1 length]. lia.
    + rewrite (total_perm _ _ H). cbn [uncounted1 total]. lia.
  - (* commit *)
    unfold do_commit in El. destruct (find_for_commit c (now s) key fuel id) as [| |[[fi|] fe]] eqn:Ef; [discriminate| | |].
    + injection El as <- <-. congruence.
    + pose proof (unlinked_commit key id fuel seen fi fe Ef) as Hu.
      destruct fe as [fe|].
      * destruct Hu as (o & Ho & Hsz & [pw Hpw] & Hu). rewrite Hu in E. unfold count_unlink in E. rewrite Hsz, Hpw in E. cbn [mbind option_bind] in E.
        injection E as <- <-. rewrite (co_versioning _ Hc) in El.
        destruct (unlink c (ls_dev s) (ls_ov s) [] (bucket_of c key) fe) as [[[[[d1 o1] t1] ps] tk1]|]; cbn [mbind option_bind] in El; [|injection El as <- <-; congruence].
        destruct (ov_set_state o1 id st_committed) as [o2 tk]. destruct (do_txn c _ _ seen) as [j sig]. injection El as <- <-.
        cbn [mk ls_calls]. rewrite drop_push. pose proof (sstep_sizes _ _ _ _ (one_step _ _ Hss)) as H. cbn [gone added app] in H. rewrite Ho in H. cbn [app] in H.
        eapply minv_push; [reflexivity|exact I|reflexivity| |]; cbn [lm_add lm_count lm_data].
        -- apply Permutation_length in H. cbn [length] in H. lia.
        -- apply total_perm in H. cbn [total] in H. lia.
      * destruct Hu as [Ho Hu]. rewrite Hu in E. cbn [mbind option_bind] in E. injection E as <- <-.
        destruct (ov_set_state (ls_ov s) id st_committed) as [o2 tk]. destruct (do_txn c _ _ seen) as [j sig]. injection El as <- <-.
        cbn [mk ls_calls]. rewrite drop_push. pose proof (sstep_sizes _ _ _ _ (one_step _ _ Hss)) as H. cbn [gone added app] in H. rewrite Ho in H. cbn [app] in H.
        eapply minv_push; [reflexivity|exact I|reflexivity| |].
        -- now rewrite H.
        -- now rewrite (total_perm _ _ H).
    + injection El as <- <-. cbn [unlinked] in E. rewrite Ef in E. cbn [mbind option_bind] in E. injection E as <- <-. rewrite drop_same.
      apply minv_same; [reflexivity|]. exact (sstep_sizes _ _ _ _ (one_step _ _ Hss)).
  - (* delete *)
    unfold do_delete in El. pose proof (unlinked_delete key oid fuel seen) as Hu. cbn [unlinked] in Hu, E.
    destruct (find_object c (now s) key fuel st_committed oid) as [| |[f|]] eqn:Ef; [discriminate| | |].
    + injection El as <- <-. congruence.
    + destruct (Hu f eq_refl) as (o & Ho & Hsz & [pw Hpw]). unfold count_unlink in E. rewrite Hsz, Hpw in E. cbn [mbind option_bind] in E.
      injection E as <- <-.
      destruct (unlink c (ls_dev s) (ls_ov s) [] (bucket_of c key) f) as [[[[[d1 o1] t1] ps] tk1]|]; [|injection El as <- <-; congruence].
      destruct (do_txn c _ _ seen) as [j sig]. injection El as <- <-.
      cbn [mk ls_calls]. rewrite drop_push. pose proof (sstep_sizes _ _ _ _ (one_step _ _ Hss)) as H. cbn [gone added app] in H. rewrite Ho in H. cbn [app] in H.
      eapply minv_push; [reflexivity|exact I|reflexivity| |]; cbn [lm_add lm_count lm_data].
      -- apply Permutation_length in H. cbn [length] in H. lia.
      -- apply total_perm in H. cbn [total] in H. lia.
    + injection El as <- <-. cbn [mbind option_bind] in E. injection E as <- <-. rewrite drop_same.
      apply minv_same; [reflexivity|]. exact (sstep_sizes _ _ _ _ (one_step _ _ Hss)).
  - (* finish *)
    destruct (ls_calls s !! i) as [[| |b sig tks free|]|] eqn:Ei; try discriminate. unfold do_finish in El.
    destruct (match sig with Some n => bool_decide (n ∈ js_acked (ls_j s)) | None => true end); [|discriminate].
    destruct (release_all (ls_alloc s) free) as [a| |]; try (injection El as <- <-; congruence). injection El as <- <-.
    cbn [mk ls_calls] in E. rewrite drop_insert in E. destruct (move_call ms i _ LDone (mv_len _ _ HM) Ei) as (nw & rest & Hn & P1 & _).
    rewrite Hn in E. destruct nw as [[sz len]|]; cbn [mbind option_bind] in E; injection E as <- <-; apply no_step in Hss as ->.
    + eapply minv_move; [exact Ei|exact Hn|reflexivity|exact I| |]; cbn [uncounted1 length total lm_add lm_count lm_data]; lia.
    + eapply minv_move; [exact Ei|exact Hn|reflexivity|exact I|reflexivity|reflexivity].
  - (* inspect *)
    cbn [unlinked mbind option_bind] in E. injection E as <- <-.
    assert (Hx : s' = s /\ exists k oi r, obs' = [OInspect k oi r]).
    { unfold do_inspect in El. destruct (find_object c (now s) key fuel st_committed oid) as [| |[f|]]; [discriminate|injection El as <- <-; congruence| |injection El as <- <-; eauto].
      destruct (meta_id (f_raw f)), (meta_size (f_raw f)); injection El as <- <-; first [congruence|eauto 10]. }
    destruct Hx as (-> & k & oi & r & ->). rewrite drop_same. apply minv_same; [reflexivity|]. exact (sstep_sizes _ _ _ _ (one_step _ _ Hss)).
  - (* write *)
    cbn [unlinked mbind option_bind] in E. injection E as <- <-.
    assert (Hx : ls_calls s' = ls_calls s /\ exists r, obs' = [OWrite key id offset len stream r]).
    { unfold do_write in El. destruct (find_object c (now s) key fuel st_incomplete (Some id)) as [| |[f|]]; [discriminate|injection El as <- <-; congruence| |injection El as <- <-; eauto].
      destruct (pow2 ← meta_size_pow2 (f_raw f); _) as [ob|]; [|injection El as <- <-; congruence].
      destruct (call_run Lite _ _ _) as [d' [w|r]]; [discriminate|]. injection El as <- <-. eauto. }
    destruct Hx as (Hcl & r & ->). rewrite Hcl, drop_same. apply minv_same; [exact Hcl|].
    pose proof (sstep_sizes _ _ _ _ (one_step _ _ Hss)) as H. exact H.
  - (* read *)
    cbn [unlinked mbind option_bind] in E. injection E as <- <-.
    assert (Hx : s' = s /\ exists r, obs' = [ORead key oid start fin r]).
    { unfold do_read in El. destruct (find_object c (now s) key fuel st_committed oid) as [| |[f|]]; [discriminate|injection El as <- <-; congruence| |injection El as <- <-; eauto].
      destruct (pow2 ← meta_size_pow2 (f_raw f); _) as [ob|]; [|injection El as <- <-; congruence].
      destruct (drain _ _ _) as [[outs []]|]; try discriminate; injection El as <- <-; eauto. }
    destruct Hx as (-> & r & ->). rewrite drop_same. apply minv_same; [reflexivity|]. exact (sstep_sizes _ _ _ _ (one_step _ _ Hss)).
  - (* journal *)
    cbn [unlinked mbind option_bind] in E. injection E as <- <-.
    assert (Hx : ls_calls s' = ls_calls s /\ obs' = []).
    { destruct e; try discriminate El; destruct (jstep _ _ _); try discriminate El; cbn [mbind option_bind] in El; injection El as <- <-; auto. }
    destruct Hx as (Hcl & ->). apply no_step in Hss as ->. rewrite Hcl, drop_same. apply minv_same; [exact Hcl|reflexivity].
Qed.
End step.

Lemma mstep_step c ms e ms' obs : mstep c ms e = Some (ms', obs) -> lstep c (ms_s ms) e = Some (ms_s ms', obs).
Proof.
  unfold mstep. destruct (lstep c (ms_s ms) e) as [[s' obs']|]; [|discriminate]. cbn [mbind option_bind].
  match goal with |- (m ← ?X; _) = _ -> _ => destruct X as [m|] end; [|discriminate]. cbn [mbind option_bind]. now intros [= <- <-].
Qed.
Lemma minv_run c (Hc : conf_ok c) es : forall ms A us objs leak st ms' obs, minv ms st -> linv c (ms_s ms) A us objs leak -> srel c (flushed A us) objs st ->
  Forall (event_ok c) es -> calm c (ms_s ms) es -> mrun c ms es = Some (ms', obs) ->
  exists st', ssteps (li_lpage c) st obs st' /\ minv ms' st'.
Proof.
  induction es as [|e es IH]; intros ms A us objs leak st ms' obs HM HL HS He Hcalm E.
  - injection E as <- <-. exists st. split; [constructor|exact HM].
  - cbn [mrun] in E. apply Forall_cons in He as [He0 He]. destruct Hcalm as [Hq Hcalm].
    destruct (mstep c ms e) as [[ms1 o1]|] eqn:E1; [|discriminate]. cbn [mbind option_bind] in E.
    destruct (mrun c ms1 es) as [[ms2 o2]|] eqn:E2; [|discriminate]. injection E as <- <-.
    pose proof (mstep_step _ _ _ _ _ E1) as El. rewrite El in Hcalm.
    destruct (sim_step c Hc (ms_s ms) A us objs leak HL st HS e _ o1 (co_versioning _ Hc) He0 Hq El) as (A1 & us1 & objs1 & leak1 & st1 & HL1 & HS1 & Hss1).
    pose proof (minv_step c Hc ms st HM A us objs leak HL HS e ms1 o1 st1 He0 E1 Hss1) as HM1.
    destruct (IH ms1 A1 us1 objs1 leak1 st1 ms2 o2 HM1 HL1 HS1 He Hcalm E2) as (st2 & Hss2 & HM2).
    exists st2. split; [eapply ssteps_app; eassumption|exact HM2].
Qed.

Lemma uncounted_waiting l k : (length (zip l k ≫= uncounted1) <= length (filter (fun cl => is_done cl = false) l))%nat.
Proof.
  revert k. induction l as [|cl l IH]; intros k; [cbn; lia|]. destruct k as [|x k]; [cbn; lia|]. cbn [zip_with]. rewrite bind_cons, app_length.
  specialize (IH k). rewrite filter_cons. destruct cl as [| |b sig tks free|]; cbn [uncounted1 is_done]; rewrite ?decide_True by reflexivity.
  - destruct x as [[]|]; cbn [length]; lia.
  - destruct x as [[]|]; cbn [length]; lia.
  - destruct x as [[]|]; cbn [length]; lia.
  - rewrite decide_False by discriminate. destruct x as [[]|]; cbn [length]; lia.
Qed.
Lemma idle_waiting s : idle s -> waiting s = 0%nat.
Proof.
  intros H. unfold waiting. assert (Hf : Forall (fun cl => is_done cl <> false) (ls_calls s)).
  { apply Forall_lookup. intros i cl Hl. rewrite (H i cl Hl). discriminate. }
  induction Hf as [|cl l Hcl _ IH]; [reflexivity|]. rewrite filter_cons, decide_False by exact Hcl. exact IH.
Qed.

(** C27, libblobd-lite: whatever calls overlap, the object counter never counts an
    object too many, and misses at most the objects whose create calls have not
    returned; with nothing under way, object count and data bytes are those of
    the objects that exist.
    Missing for the full claim: the metadata counter and the counter of incomplete
    objects, where it is false (below), and histories which are not calm. *)
Theorem C27_lite_object_counters_partial :
  forall c d a es ms obs,
    conf_ok c -> allocator_new (li_base c) (li_heap c) (li_spage c) (li_lpage c) (2 ^ 64) DirLeft = Ok a ->
    Forall (event_ok c) es -> calm c (li_init c d a) es ->
    mrun c (m_init (li_init c d a)) es = Some (ms, obs) ->
    exists st, ssteps (li_lpage c) ss_empty obs st /\
      (lm_count (ms_met ms) <= Z.of_nat (length (sizes st)) <= lm_count (ms_met ms) + Z.of_nat (waiting (ms_s ms)))%Z /\
      (idle (ms_s ms) ->
        Z.of_N (reported (lm_count (ms_met ms))) = Z.of_nat (length (sizes st)) mod 2 ^ 64 /\
        Z.of_N (reported (lm_data (ms_met ms))) = total (sizes st) mod 2 ^ 64)%Z.
Proof.
  intros c d a es ms obs Hc Ha He Hq E. pose proof (init_inv c d a Hc Ha) as HI.
  destruct (minv_run c Hc es (m_init (li_init c d a)) (li_format c d) [] [] [] ss_empty ms obs) as (st & Hss & [_ _ M3 M4]); [|exact HI|apply init_rel|exact He|exact Hq|exact E|].
  { split; cbn [m_init ms_s ms_new ms_met li_init mk ls_calls]; try reflexivity. constructor. }
  exists st. split; [exact Hss|]. pose proof (uncounted_waiting (ls_calls (ms_s ms)) (ms_new ms)) as Hu. fold (uncounted ms) in Hu. fold (waiting (ms_s ms)) in Hu.
  split; [lia|]. intros Hi. rewrite (idle_waiting _ Hi) in Hu. destruct (uncounted ms) as [|? ?]; [|cbn [length] in Hu; lia].
  cbn [length total] in M3, M4. unfold reported. rewrite !Z2N.id by (apply Z.mod_pos_bound; reflexivity). rewrite M3, M4. split; f_equal; lia.
Qed.
Print Assumptions C27_lite_object_counters_partial.

(** ** Runs *)
Definition mdemo (c : liconf) (es : list levent) : option (list lobs * lmetrics * bool) :=
  match allocator_new (li_base c) (li_heap c) (li_spage c) (li_lpage c) (2 ^ 64) DirLeft with
  | Ok a => '(ms, o) ← mrun c (m_init (li_init c d0 a)) es; Some (o, ms_met ms, forallb is_done (ls_calls (ms_s ms)))
  | _ => None
  end.
Lemma mdemo_run c es o m b : mdemo c es = Some (o, m, b) ->
  exists a ms, allocator_new (li_base c) (li_heap c) (li_spage c) (li_lpage c) (2 ^ 64) DirLeft = Ok a /\
    mrun c (m_init (li_init c d0 a)) es = Some (ms, o) /\ ms_met ms = m /\ (b = true -> idle (ms_s ms)).
Proof.
  unfold mdemo. destruct (allocator_new _ _ _ _ _ _) as [a| |]; try discriminate.
  destruct (mrun c (m_init (li_init c d0 a)) es) as [[ms o']|] eqn:Es; [|discriminate]. cbn [mbind option_bind]. intros [= <- <- <-].
  exists a, ms. split; [reflexivity|]. split; [exact Es|]. split; [reflexivity|apply idle_of].
Qed.
(** C27 is false of the metadata counter: creating counts the bytes of the record,
    removing counts the size of the page it was given.  After one object was
    created, committed and deleted, one after another, the store is empty and the
    counter reports 2^64 - 210 bytes. *)
Definition es_meta : list levent := create kA 20 1 0 ++ commit kA 1 1 1 ++ [LDelete kA None 10 0] ++ flush 1 ++ [LFinish 2].
Definition obs_meta : list lobs := [OCreate kA 20 1; OCommit kA 1 true; ODelete kA None true].
Lemma mdemo_meta : mdemo c0 es_meta = Some (obs_meta, {| lm_count := 0; lm_data := 0; lm_meta := -210; lm_incomplete := 0 |}, true).
Proof. vm_compute. reflexivity. Qed.
Lemma meta_calm : demo c0 es_meta = Some (obs_meta, true, true).
Proof. vm_compute. reflexivity. Qed.
Theorem C27_lite_metadata_bytes_refuted :
  conf_ok c0 /\ Forall (event_ok c0) es_meta /\
  exists a ms, allocator_new (li_base c0) (li_heap c0) (li_spage c0) (li_lpage c0) (2 ^ 64) DirLeft = Ok a /\
    mrun c0 (m_init (li_init c0 d0 a)) es_meta = Some (ms, obs_meta) /\ one_by_one c0 (li_init c0 d0 a) es_meta /\ idle (ms_s ms) /\
    (forall st, ssteps (li_lpage c0) ss_empty obs_meta st -> sizes st = []) /\
    reported (lm_meta (ms_met ms)) = 2 ^ 64 - 210.
Proof.
  split; [exact c0_conf|]. split; [events_ok|].
  destruct (mdemo_run _ _ _ _ _ mdemo_meta) as (a & ms & Ha & Hr & Hm & Hi). exists a, ms. split; [exact Ha|]. split; [exact Hr|].
  split; [|split; [auto|split]].
  - destruct (demo_run _ _ _ _ _ meta_calm) as (a' & s & Ha' & _ & _ & Ho). rewrite Ha in Ha'. injection Ha' as <-. auto.
  - unfold obs_meta. ss_inv. match goal with H : ssteps _ _ [] _ |- _ => inversion H; subst end. vm_compute. reflexivity.
  - rewrite Hm. reflexivity.
Qed.

Lemma mdemo_inc : exists m, mdemo c0 (create kA 20 1 0) = Some ([OCreate kA 20 1], {| lm_count := 1; lm_data := 20; lm_meta := m; lm_incomplete := 0 |}, true).
Proof. eexists. vm_compute. reflexivity. Qed.
(** C27 is false of the counter of incomplete objects: only opening a store counts
    into it (lib.rs:137), no operation does, so it says 0 while an upload is open. *)
Theorem C27_lite_incomplete_count_refuted :
  conf_ok c0 /\ Forall (event_ok c0) (create kA 20 1 0) /\
  exists a ms, allocator_new (li_base c0) (li_heap c0) (li_spage c0) (li_lpage c0) (2 ^ 64) DirLeft = Ok a /\
    mrun c0 (m_init (li_init c0 d0 a)) (create kA 20 1 0) = Some (ms, [OCreate kA 20 1]) /\ idle (ms_s ms) /\
    (forall st, ssteps (li_lpage c0) ss_empty [OCreate kA 20 1] st -> size (ss_inc st) = 1%nat) /\
    reported (lm_incomplete (ms_met ms)) = 0.
Proof.
  split; [exact c0_conf|]. split; [events_ok|].
  destruct mdemo_inc as [m H]. destruct (mdemo_run _ _ _ _ _ H) as (a & ms & Ha & Hr & Hm & Hi). exists a, ms. split; [exact Ha|]. split; [exact Hr|].
  split; [auto|]. split; [|rewrite Hm; reflexivity].
  ss_inv. match goal with H : ssteps _ _ [] _ |- _ => inversion H; subst end. vm_compute. reflexivity.
Qed.

(** Non-vacuity: calm histories with counters: three keys' worth of creations, a
    replacement and a deletion; nothing is under way at the end. *)
Definition es_met : list levent :=
  create kA 20 1 0 ++ commit kA 1 1 1 ++ create kB 5 2 2 ++ create kA 7 3 3 ++ commit kA 3 4 1 ++ create kC 9 4 5 ++ commit kB 2 6 1 ++
  [LDelete kB None 10 0; LFinish 7].
Definition obs_met : list lobs :=
  [OCreate kA 20 1; OCommit kA 1 true; OCreate kB 5 2; OCreate kA 7 3; OCommit kA 3 true; OCreate kC 9 4; OCommit kB 2 true; ODelete kB None true].
Lemma mdemo_met : exists m, mdemo c0 es_met = Some (obs_met, {| lm_count := 2; lm_data := 16; lm_meta := m; lm_incomplete := 0 |}, true).
Proof. eexists. vm_compute. reflexivity. Qed.
Lemma met_calm : demo c0 es_met = Some (obs_met, true, true).
Proof. vm_compute. reflexivity. Qed.
Theorem C27_lite_example :
  conf_ok c0 /\ Forall (event_ok c0) es_met /\
  exists a ms, allocator_new (li_base c0) (li_heap c0) (li_spage c0) (li_lpage c0) (2 ^ 64) DirLeft = Ok a /\
    calm c0 (li_init c0 d0 a) es_met /\
    mrun c0 (m_init (li_init c0 d0 a)) es_met = Some (ms, obs_met) /\ idle (ms_s ms) /\
    lm_count (ms_met ms) = 2%Z /\ lm_data (ms_met ms) = 16%Z.
Proof.
  split; [exact c0_conf|]. split; [events_ok|].
  destruct mdemo_met as [m H]. destruct (mdemo_run _ _ _ _ _ H) as (a & ms & Ha & Hr & Hm & Hi). exists a, ms. split; [exact Ha|].
  split.
  - destruct (demo_run _ _ _ _ _ met_calm) as (a' & s & Ha' & _ & _ & Ho). rewrite Ha in Ha'. injection Ha' as <-. auto using one_calm.
  - split; [exact Hr|]. rewrite Hm. auto.
Qed.
