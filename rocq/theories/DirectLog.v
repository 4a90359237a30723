(** The index calls of a direct partition: which have been made, which are
    durable, and who waits for the others. *)
From Coq Require Import ZifyBool ZifyNat ZifyN.
From stdpp Require Import base numbers list_numbers option gmap sets list.
From Verif Require Import Util Bytes BuddyModel BuddySpec BuddyProofs BuddyInv LayoutModel LayoutProofs.
From Verif Require Import PageIOModel TuplesModel TuplesSpec TuplesProofs TuplesSys TuplesLife.
From Verif Require Import DirectModel DirectBase DirectSteps DirectInv DirectTup DirectAlloc DirectDev DirectSys DirectRec.
Open Scope N_scope.
Ltac Zify.zify_post_hook ::= idtac.

Definition pc_waits (p : pc) : option nat :=
  match p with PCreate4 _ _ _ _ k | PCommit5 _ k _ _ | PReap2 _ _ k _ => Some k | _ => None end.
Definition pc_new23 (p : pc) : list N :=
  match p with PCreate2 _ _ _ id | PCreate3 _ _ _ id => [id] | _ => [] end.
(** The entry being removed is the one made at creation. *)
Definition reap_state (k : cont) : N := match k with KCommit None _ => ds_incomplete | _ => ds_committed end.

Notation at_ init cs k := (after_calls (index_of init) (take k cs)).
Definition settled (init : list (list tuple)) (cs : list tcall) (acked : list nat) (id : N) : Prop :=
  id ∈ t_id <$> concat init \/ exists k c, cs !! k = Some c /\ id ∈ introduced c /\ k ∈ acked.

Definition pc_log (c : dcfg) (h : shared) (ps : list pc) (init : list (list tuple)) (cs : list tcall) (p : pc) : Prop :=
  match p with
  | PCreate4 _ msize moff id k => cs !! k = Some (CInsert (new_tuple c msize moff id))
  | PCommit5 tok k new _ => exists t r ob,
      cs !! k = Some (CUpdate tok new ds_committed) /\ at_ init cs k !! tok = Some t /\ t_state t = ds_incomplete /\
      (t_off t, t_pow2 t) = b_mpage ob /\ h_objs h !! r = Some ob /\ b_id ob = new /\
      (r ∈ owners h ps \/ exists k2, (k < k2)%nat /\ cs !! k2 = Some (CDelete new) /\ k2 ∈ sy_acked (h_tup h))
  | PReap2 r _ k kk => exists ob,
      h_objs h !! r = Some ob /\ cs !! k = Some (CDelete (b_id ob)) /\
      at_ init cs k !! b_id ob = Some (entry_of ob (reap_state kk))
  | _ => True
  end.

(** The upload a commit takes has a durable entry. *)
Definition pc_settled (init : list (list tuple)) (cs : list tcall) (acked : list nat) (p : pc) : Prop :=
  match p with
  | PCommit4 tok _ _ => settled init cs acked tok
  | PCommit5 tok k _ _ => exists new st, cs !! k = Some (CUpdate tok new st) /\ settled init cs acked tok
  | _ => True
  end.

Record KInv (c : dcfg) (t0 : tsys) (init : list (list tuple)) (h : shared) (ps : list pc) (cs : list tcall) : Prop := {
  k_runs : runs t0 cs (h_tup h);
  k_valid : Forall valid_call cs;
  k_fresh : fresh_ids init cs;
  k_known : forall id, known init cs id -> id ∈ h_used h /\ id ∉ ps ≫= pc_new23 /\ id ∉ ps ≫= pc_new4;
  k_log : forall p, p ∈ ps -> pc_log c h ps init cs p;
  k_own : forall r ob, r ∈ owners h ps -> h_objs h !! r = Some ob ->
    settled init cs (sy_acked (h_tup h)) (b_id ob) \/ (exists tok e, PCommit4 tok (b_id ob) e ∈ ps) \/ (exists tok k e, PCommit5 tok k (b_id ob) e ∈ ps);
  k_acked : forall k, (k < length cs)%nat -> k ∈ sy_acked (h_tup h) \/ exists p, p ∈ ps /\ pc_waits p = Some k;
  k_toks : forall p, p ∈ ps -> pc_settled init cs (sy_acked (h_tup h)) p;
}.

Lemma KInv_perm c t0 init h ps ps' cs : ps ≡ₚ ps' -> KInv c t0 init h ps cs -> KInv c t0 init h ps' cs.
Proof.
  intros Hp [K1 K2 K3 K4 K5 K6 K7 K8].
  assert (Hin : forall p, p ∈ ps <-> p ∈ ps') by (intros p; now rewrite Hp).
  assert (Hown : forall r, r ∈ owners h ps <-> r ∈ owners h ps') by (intros r; now rewrite (owners_perm _ _ _ Hp)).
  constructor; auto.
  - intros id Hid. rewrite <- Hp. auto.
  - intros p H. apply Hin in H. specialize (K5 p H). destruct p; auto. cbn [pc_log] in *.
    destruct K5 as (t & r & ob & H1 & H2 & H3 & H4 & H5 & H6 & H7). exists t, r, ob. do 6 (split; [assumption|]). rewrite <- Hown. exact H7.
  - intros r ob Hr Eo. destruct (K6 r ob (proj2 (Hown r) Hr) Eo) as [H|[(tok & e & H)|(tok & k & e & H)]]; [auto|right; left; eexists _, _|right; right; eexists _, _, _]; apply Hin; exact H.
  - intros k Hk. destruct (K7 k Hk) as [H|(p & H & Hw)]; [auto|]. right. exists p. split; [now apply Hin|exact Hw].
  - intros p H. apply K8, Hin, H.
Qed.

(** Objects are given up only when their removal is durable. *)
Lemma owners_keep c o h p h' p' v rest : pstepR c o h p h' p' v -> is_panic v = false -> forall r, r ∈ owners h (p :: rest) ->
  r ∈ owners h' (p' :: rest) \/ (exists t n k, p = PReap2 r t n k /\ n ∈ sy_acked (h_tup h)) \/
  (exists tok ine, p = PCommit3 r tok ine).
Proof.
  intros St Hv r Hr. unfold owners in *. rewrite !bind_cons in *. rewrite !elem_of_app in *.
  destruct St; try discriminate Hv; cbn [h_inc h_com h_objs set_alloc set_dev set_tup set_objs set_com set_inc bump use_id add_obj set_obj pc_refs option_list] in *; try (left; tauto).
  all: try (destruct Hr as [Hr|[Hr|[Hr|Hr]]]; [auto|auto| |auto]; inversion Hr; fail).
  - left. destruct Hr as [Hr|[Hr|[Hr|Hr]]]; [|auto|inversion Hr|auto]. left. apply elem_of_vals in Hr as [k' Hk]. apply elem_of_vals. exists k'.
    rewrite lookup_insert_ne; [exact Hk|]. intros <-. congruence.
  - left. destruct Hr as [Hr|[Hr|[Hr|Hr]]]; [|auto|inversion Hr|auto]. apply elem_of_vals in Hr as [k' Hk].
    destruct (decide (k' = tok)) as [->|Hne].
    + right. right. left. assert (r = r0) as -> by congruence. constructor.
    + left. apply elem_of_vals. exists k'. rewrite lookup_delete_ne by auto. exact Hk.
  - destruct Hr as [Hr|[Hr|[Hr|Hr]]]; [auto| | |auto].
    + left. right. apply elem_of_vals in Hr as [k' Hk]. destruct (decide (k' = m_key (b_meta ob))) as [->|Hne].
      * right. left. rewrite <- H0, Hk. constructor.
      * left. apply elem_of_vals. exists k'. rewrite lookup_insert_ne by auto. exact Hk.
    + right. right. apply elem_of_list_singleton in Hr as ->. eauto.
  - apply find_committed_Some in H as (Ec & Eo & Hm). left. destruct Hr as [Hr|[Hr|[Hr|Hr]]]; [auto| |inversion Hr|auto].
    right. apply elem_of_vals in Hr as [k' Hk]. destruct (decide (k' = key)) as [->|Hne].
    + right. left. assert (r = r0) as -> by congruence. constructor.
    + left. apply elem_of_vals. exists k'. rewrite lookup_delete_ne by auto. exact Hk.
  - destruct Hr as [Hr|[Hr|[Hr|Hr]]]; [auto|auto| |auto]. right. left. apply elem_of_list_singleton in Hr as ->. eauto.
Qed.

Lemma known_take init cs k id : known init (take k cs) id -> known init cs id.
Proof.
  unfold known. rewrite !elem_of_app. intros [H|H]; [now left|right]. apply elem_of_concat_intro in H as (j & x & Hj & Hin).
  apply elem_of_concat_intro. exists j, x. split; [|exact Hin]. apply lookup_take_Some in Hj as [Hj _]. exact Hj.
Qed.
Lemma at_app init cs l k : (k <= length cs)%nat -> at_ init (cs ++ l) k = at_ init cs k.
Proof. intros Hk. rewrite take_app_le by exact Hk. reflexivity. Qed.
Lemma settled_app init cs l a a' id : (forall k, k ∈ a -> k ∈ a') -> settled init cs a id -> settled init (cs ++ l) a' id.
Proof.
  intros Ha [H|(k & c & Hk & Hin & Hak)]; [now left|right]. exists k, c. split; [now apply lookup_app_l_Some|]. auto.
Qed.

Lemma pc_settled_app init cs l a a' p : (forall k, k ∈ a -> k ∈ a') -> pc_settled init cs a p -> pc_settled init (cs ++ l) a' p.
Proof.
  intros Ha. destruct p; auto; cbn [pc_settled].
  - now apply settled_app.
  - intros (new & st & H1 & H2). exists new, st. split; [now apply lookup_app_l_Some|]. eapply settled_app; eassumption.
Qed.
Lemma pc_log_mono c h ps init cs h' ps' l p : pc_log c h ps init cs p -> objs_le h h' ->
  (forall k, k ∈ sy_acked (h_tup h) -> k ∈ sy_acked (h_tup h')) ->
  (forall r tok k new e ob, p = PCommit5 tok k new e -> h_objs h !! r = Some ob -> b_id ob = new -> r ∈ owners h ps -> r ∈ owners h' ps' \/
     exists k2, (k < k2)%nat /\ (cs ++ l) !! k2 = Some (CDelete new) /\ k2 ∈ sy_acked (h_tup h')) ->
  pc_log c h' ps' init (cs ++ l) p.
Proof.
  intros H Hle Ha Ho. destruct p; auto; cbn [pc_log] in *.
  - now apply lookup_app_l_Some.
  - destruct H as (t & r & ob & H1 & H2 & H3 & H4 & H5 & H6 & H7). destruct (Hle _ _ H5) as (ob' & E' & (G1 & _ & _ & G4) & _).
    exists t, r, ob'. split; [now apply lookup_app_l_Some|]. rewrite at_app by (apply lookup_lt_Some in H1; lia).
    split; [exact H2|]. split; [exact H3|]. split; [congruence|]. split; [exact E'|]. split; [congruence|].
    destruct H7 as [H7|(k2 & Hk & Hc & Hak)]; [|right; exists k2; split; [exact Hk|]; split; [now apply lookup_app_l_Some|auto]].
    eapply Ho; [reflexivity|exact H5|exact H6|exact H7].
  - destruct H as (ob & E & H1 & H2). destruct (Hle _ _ E) as (ob' & E' & (G1 & _ & _ & G4) & _).
    exists ob'. split; [exact E'|]. rewrite at_app by (apply lookup_lt_Some in H1; lia). rewrite G1. split; [now apply lookup_app_l_Some|].
    rewrite H2. unfold entry_of. now rewrite G1, G4.
Qed.

Lemma runs_acked y y' : tstep y None y' -> forall k, k ∈ sy_acked y -> k ∈ sy_acked y'.
Proof. intros H k Hk. inversion H; subst; cbn; auto. apply elem_of_app. now left. Qed.

Section Log.
Context (c : dcfg) (pages : list (list N)) (t0 : tsys) (init : list (list tuple)).
Hypothesis Hc : cfg_ok c.
Hypothesis Hopen : opens (dc_spage c) pages init t0.

Lemma k_sp h ps cs sp : KInv c t0 init h ps cs -> TuplesProofs.Inv (sy_state (h_tup h)) sp ->
  sp = after_calls (index_of init) cs /\ sy_calls (h_tup h) = length cs.
Proof.
  intros HK HI. destruct (run_inv _ _ _ _ _ _ Hopen (k_runs _ _ _ _ _ _ HK)) as (HI2 & _ & _ & _ & Hk). split; [|exact Hk].
  apply map_eq. intros id. apply option_eq. intros t. rewrite (i_sp _ _ HI), (i_sp _ _ HI2). reflexivity.
Qed.

(** The flusher. *)
Lemma K_flush h ps cs t' : KInv c t0 init h ps cs -> tstep (h_tup h) None t' -> KInv c t0 init (set_tup h t') ps cs.
Proof.
  intros [K1 K2 K3 K4 K5 K6 K7 K8] Ht. pose proof (runs_acked _ _ Ht) as Ha. constructor; auto.
  - eapply runs_flush; eassumption.
  - intros p Hp. rewrite <- (app_nil_r cs). eapply pc_log_mono; [apply K5, Hp|apply objs_le_refl; reflexivity|exact Ha|]. auto.
  - intros r ob Hr Eo. destruct (K6 r ob Hr Eo) as [H|H]; [left|right; exact H]. rewrite <- (app_nil_r cs). eapply settled_app; eassumption.
  - intros k Hk. destruct (K7 k Hk) as [H|H]; [left; apply Ha, H|right; exact H].
  - intros p Hp. rewrite <- (app_nil_r cs). eapply pc_settled_app; [exact Ha|auto].
Qed.
Lemma K_new h ps cs op : KInv c t0 init h ps cs -> KInv c t0 init h (PStart op :: ps) cs.
Proof.
  intros [K1 K2 K3 K4 K5 K6 K7 K8]. constructor; auto.
  - intros p [->|Hp]%elem_of_cons; [exact I|]. exact (K5 p Hp).
  - intros r ob Hr Eo. destruct (K6 r ob Hr Eo) as [H|[(tok & e & H)|(tok & k & e & H)]]; [auto|right; left; eexists _, _|right; right; eexists _, _, _]; right; exact H.
  - intros k Hk. destruct (K7 k Hk) as [H|(p & H & Hw)]; [auto|]. right. exists p. split; [now right|exact Hw].
  - intros p [->|Hp]%elem_of_cons; [exact I|auto].
Qed.
Lemma K_dev h ps cs d : KInv c t0 init h ps cs -> KInv c t0 init (set_dev h d) ps cs.
Proof. intros [K1 K2 K3 K4 K5 K6 K7 K8]. constructor; auto. Qed.

(** Steps that make no index call. *)
Lemma K_frame o h p h' p' v rest cs sp z :
  SInv h (p :: rest) -> TInv c h (p :: rest) sp z -> KInv c t0 init h (p :: rest) cs ->
  pstepR c o h p h' p' v -> is_panic v = false -> or_id o ∉ h_used h ->
  h_tup h' = h_tup h -> pc_waits p' = None ->
  (forall k, pc_waits p = Some k -> k ∈ sy_acked (h_tup h)) ->
  (pc_new23 p' ++ pc_new4 p' = [] \/ pc_new23 p' ++ pc_new4 p' = [or_id o] \/ pc_new23 p' ++ pc_new4 p' = pc_new23 p ++ pc_new4 p /\ pc_new4 p' = pc_new4 p) ->
  pc_new4 p = [] -> h_used h ⊆ h_used h' ->
  (forall ob, h_objs h' !! length (h_objs h) = Some ob -> length (h_objs h) ∈ owners h' (p' :: rest) ->
     settled init cs (sy_acked (h_tup h)) (b_id ob) \/ (exists tok e, PCommit4 tok (b_id ob) e = p')) ->
  (forall tok new e, p' = PCommit4 tok new e -> settled init cs (sy_acked (h_tup h)) tok) ->
  KInv c t0 init h' (p' :: rest) cs.
Proof.
  intros HS HT HK St Hv Hid Et Hw Hwp Hnew Hp4 Hu Hadd Hset. pose proof HK as [K1 K2 K3 K4 K5 K6 K7 K8].
  destruct (k_sp _ _ _ _ HK (t_inv _ _ _ _ _ HT)) as [Hsp _].
  constructor; auto.
  - now rewrite Et.
  - intros id Hk. destruct (K4 id Hk) as (H1 & H2 & H3). split; [apply Hu, H1|]. rewrite !bind_cons in *. rewrite !not_elem_of_app in *.
    assert (id ∉ pc_new23 p' ++ pc_new4 p') as Hn.
    { destruct Hnew as [->|[->|[-> _]]]; [inversion 1| |].
      - intros ->%elem_of_list_singleton. contradiction.
      - rewrite not_elem_of_app. tauto. }
    apply not_elem_of_app in Hn. tauto.
  - intros q Hq. apply elem_of_cons in Hq as [->|Hq].
    { destruct p'; try exact I; discriminate Hw. }
    rewrite <- (app_nil_r cs). eapply pc_log_mono; [apply K5; now right|eapply step_objs, St|now rewrite Et|].
    intros r tk k new e ob -> Eo Hb Hr. destruct (owners_keep _ _ _ _ _ _ _ _ St Hv r Hr) as [H|[(t & n & kk & -> & Hn)|(tok & ine & ->)]].
    + left. exact H.
    + right. destruct (K5 _ ltac:(left)) as (ob2 & E2 & G1 & G2). assert (ob2 = ob) as -> by congruence.
      exists n. rewrite app_nil_r, Et. split; [|split; [rewrite <- Hb; exact G1|exact Hn]].
      (* the removal came after the publication *)
      destruct (K5 (PCommit5 tk k new e) ltac:(now right)) as (t1 & r1 & ob1 & F1 & _).
      destruct (Nat.lt_ge_cases k n) as [|Hge]; [assumption|exfalso].
      eapply (known_once init cs K3 n k _ new); [|exact Hge|exact F1|constructor]. rewrite <- Hb. eapply present_known, G2.
    + exfalso. destruct (K5 (PCommit5 tk k new e) ltac:(now right)) as (t1 & r1 & ob1 & F1 & F2 & _).
      destruct (t_i _ _ _ _ _ HT r) as (ob3 & E3 & H3).
      { unfold irefs. rewrite bind_cons, !elem_of_app. right. left. constructor. }
      assert (ob3 = ob) as -> by congruence.
      assert (at_ init cs (S k) !! new = Some {| t_state := ds_committed; t_id := new; t_off := t_off t1; t_pow2 := t_pow2 t1 |}) as Hs.
      { rewrite (take_S_r _ _ _ F1), after_calls_snoc. cbn [apply_call]. rewrite F2. apply lookup_insert. }
      rewrite Hsp, <- (at_full init cs) in H3. rewrite Hb in H3.
      pose proof (same_entry init cs K3 (S k) (length cs) new _ _ ltac:(apply lookup_lt_Some in F1; lia) ltac:(lia) Hs H3) as He.
      discriminate He.
  - intros r ob' Hr Eo'. rewrite Et.
    assert (Hold : forall ob, b_id ob' = b_id ob -> r ∈ owners h (p :: rest) -> h_objs h !! r = Some ob ->
      settled init cs (sy_acked (h_tup h)) (b_id ob') \/ (exists tok e, PCommit4 tok (b_id ob') e ∈ p' :: rest) \/ (exists tok k e, PCommit5 tok k (b_id ob') e ∈ p' :: rest)).
    { intros ob -> Ho Eo. destruct (K6 r ob Ho Eo) as [H|[(tok & e & H)|(tok & k & e & H)]]; [auto| |].
      - apply elem_of_cons in H as [<-|H]; [discriminate Hp4|]. right. left. eexists _, _. right. exact H.
      - apply elem_of_cons in H as [<-|H]; [|right; right; eexists _, _, _; right; exact H]. left.
        destruct (K5 _ ltac:(left)) as (t1 & r1 & ob1 & F1 & _). right. exists k. eexists. split; [exact F1|]. split; [constructor|]. now apply Hwp. }
    destruct (decide (r = length (h_objs h))) as [->|Hne].
    + destruct (Hadd _ Eo' Hr) as [H|(tok & e & H)]; [now left|]. right. left. eexists _, _. rewrite H. left.
    + destruct (h_objs h !! r) as [ob|] eqn:Eo.
      * destruct (step_objs _ _ _ _ _ _ _ St r ob Eo) as (ob2 & E2 & (Hi & _) & _). assert (ob2 = ob') as -> by congruence.
        destruct (owners_step _ _ _ _ _ _ _ _ St r Hr) as [Ho|(Hn & _)]; [|contradiction]. exact (Hold ob Hi Ho eq_refl).
      * exfalso. apply lookup_ge_None in Eo. destruct (owners_step _ _ _ _ _ _ _ _ St r Hr) as [Ho|(Hn & _)]; [|contradiction].
        pose proof (owner_lt _ _ _ HS Ho). lia.
  - intros k Hk. rewrite Et. destruct (K7 k Hk) as [H|(q & H & Hq)]; [auto|]. apply elem_of_cons in H as [->|H]; [left; auto|]. right. exists q. split; [now right|exact Hq].
  - intros q [->|Hq]%elem_of_cons; [|rewrite Et; apply K8; now right]. rewrite Et. destruct p'; try exact I; [|discriminate Hw]. eapply Hset. reflexivity.
Qed.

(** Steps that make an index call. *)
Lemma K_call h p p' y rest cs cl :
  SInv h (p :: rest) -> KInv c t0 init h (p :: rest) cs ->
  tup_call (h_tup h) cl = Some y -> pc_refs p' = pc_refs p -> pc_waits p = None -> pc_waits p' = Some (length cs) ->
  valid_call cl -> introduced cl = pc_new23 p ++ pc_new4 p -> pc_new23 p' ++ pc_new4 p' = [] ->
  (forall id, id ∈ introduced cl -> id ∈ h_used h /\ id ∉ rest ≫= pc_new23 /\ id ∉ rest ≫= pc_new4) -> NoDup (introduced cl) ->
  (forall tok new e, p = PCommit4 tok new e -> p' = PCommit5 tok (length cs) new e) ->
  pc_log c (set_tup h y) (p' :: rest) init (cs ++ [cl]) p' ->
  (forall tok k new e, p <> PCommit5 tok k new e) ->
  pc_settled init (cs ++ [cl]) (sy_acked (h_tup h)) p' ->
  KInv c t0 init (set_tup h y) (p' :: rest) (cs ++ [cl]).
Proof.
  intros HS [K1 K2 K3 K4 K5 K6 K7 K8] Hy Hrefs Hw Hw' Hval Hintro Hnew' Hfr Hnd H45 Hlog Hn5 Hset.
  assert (Hy' : tstep (h_tup h) (Some cl) y /\ sy_acked y = sy_acked (h_tup h)).
  { unfold tup_call in Hy. destruct (call_exec _ _ _) as [s'|] eqn:E; [|discriminate]. cbn in Hy. injection Hy as <-. split; [|reflexivity]. now constructor. }
  destruct Hy' as [Hst Hak].
  assert (Hown : owners (set_tup h y) (p' :: rest) = owners h (p :: rest)).
  { unfold owners. rewrite !bind_cons, Hrefs. reflexivity. }
  assert (Hnk : forall id, id ∈ introduced cl -> ~ known init cs id).
  { intros id Hin Hk. destruct (K4 id Hk) as (_ & H2 & H3). rewrite !bind_cons in *. rewrite Hintro in Hin. rewrite elem_of_app in Hin. rewrite !not_elem_of_app in *. tauto. }
  constructor.
  - cbn. eapply runs_call; eassumption.
  - apply Forall_app. split; [exact K2|]. constructor; [exact Hval|constructor].
  - unfold fresh_ids. rewrite fmap_app, concat_app. cbn [fmap list_fmap concat]. rewrite app_nil_r, app_assoc. apply NoDup_app. split; [exact K3|].
    split; [|exact Hnd]. intros id Hk Hin. exact (Hnk id Hin Hk).
  - intros id Hk. apply known_app in Hk as [Hk|Hk].
    + destruct (K4 id Hk) as (H1 & H2 & H3). split; [exact H1|]. rewrite !bind_cons in *. rewrite !not_elem_of_app in *.
      assert (id ∉ pc_new23 p' ++ pc_new4 p') as Hn by (rewrite Hnew'; inversion 1). apply not_elem_of_app in Hn. tauto.
    + destruct (Hfr id Hk) as (H1 & H2 & H3). split; [exact H1|]. rewrite !bind_cons in *. rewrite !not_elem_of_app in *.
      assert (id ∉ pc_new23 p' ++ pc_new4 p') as Hn by (rewrite Hnew'; inversion 1). apply not_elem_of_app in Hn. tauto.
  - intros q Hq. apply elem_of_cons in Hq as [->|Hq]; [exact Hlog|].
    eapply pc_log_mono; [apply K5; now right|apply objs_le_refl; reflexivity|cbn; now rewrite Hak|].
    intros r tok k new e ob _ _ _ Hr. left. now rewrite Hown.
  - intros r ob Hr Eo. rewrite Hown in Hr. cbn [set_tup h_tup]. rewrite Hak. destruct (K6 r ob Hr Eo) as [H|[(tok & e & H)|(tok & k & e & H)]].
    + left. eapply settled_app; [|exact H]. auto.
    + apply elem_of_cons in H as [H|H]; [|right; left; eexists _, _; right; exact H]. right. right. eexists _, _, _.
      rewrite (H45 _ _ _ (eq_sym H)). left.
    + apply elem_of_cons in H as [H|H]; [exfalso; eapply Hn5; symmetry; exact H|]. right. right. eexists _, _, _. right. exact H.
  - intros k Hk. cbn [set_tup h_tup]. rewrite Hak. rewrite app_length in Hk. cbn [length] in Hk. destruct (decide (k = length cs)) as [->|Hne].
    + right. exists p'. split; [left|exact Hw'].
    + destruct (K7 k ltac:(lia)) as [H|(q & H & Hq)]; [auto|]. apply elem_of_cons in H as [->|H]; [congruence|]. right. exists q. split; [now right|exact Hq].
  - intros q [->|Hq]%elem_of_cons; cbn [set_tup h_tup]; rewrite Hak; [exact Hset|]. eapply pc_settled_app; [|apply K8; now right]. auto.
Qed.

Lemma new23_ids q : forall id, id ∈ pc_new23 q -> id ∈ pc_new_ids q.
Proof. destruct q; cbn; auto; intros ? H; inversion H. Qed.

(** The entry of an object that is not published is durable. *)
Lemma iref_settled h ps cs sp z r ob : TInv c h ps sp z -> KInv c t0 init h ps cs -> r ∈ irefs h ps -> h_objs h !! r = Some ob ->
  settled init cs (sy_acked (h_tup h)) (b_id ob).
Proof.
  intros HT HK Hr Eo. destruct (k_sp _ _ _ _ HK (t_inv _ _ _ _ _ HT)) as [Hsp _].
  destruct (t_i _ _ _ _ _ HT r Hr) as (ob3 & E3 & H3). assert (ob3 = ob) as -> by congruence.
  destruct (k_own _ _ _ _ _ _ HK r ob (irefs_owner _ _ _ Hr) Eo) as [H|[(tok & e & H)|(tok & k & e & H)]]; [exact H|exfalso|exfalso].
  - destruct (t_pc _ _ _ _ _ HT _ H) as [Hn _]. congruence.
  - destruct (k_log _ _ _ _ _ _ HK _ H) as (t1 & r1 & ob1 & F1 & F2 & _).
    assert (at_ init cs (S k) !! b_id ob = Some {| t_state := ds_committed; t_id := b_id ob; t_off := t_off t1; t_pow2 := t_pow2 t1 |}) as Hs.
    { rewrite (take_S_r _ _ _ F1), after_calls_snoc. cbn [apply_call]. rewrite F2. apply lookup_insert. }
    rewrite Hsp, <- (at_full init cs) in H3.
    pose proof (same_entry init cs (k_fresh _ _ _ _ _ _ HK) (S k) (length cs) _ _ _ ltac:(apply lookup_lt_Some in F1; lia) ltac:(lia) Hs H3) as He.
    discriminate He.
Qed.

Lemma K_step o h p h' p' v rest cs sp lk :
  SInv h (p :: rest) -> TInv c h (p :: rest) sp false -> AInv c h (p :: rest) lk -> KInv c t0 init h (p :: rest) cs ->
  pstepR c o h p h' p' v -> is_panic v = false -> or_id o ∉ h_used h ->
  exists cs', KInv c t0 init h' (p' :: rest) cs'.
Proof.
  intros HS HT HA HK St Hv Hid. destruct (k_sp _ _ _ _ HK (t_inv _ _ _ _ _ HT)) as [Hsp Hcalls].
  assert (Hnone : forall ob, h_objs h !! length (h_objs h) = Some ob -> False).
  { intros ob E. apply lookup_lt_Some in E. lia. }
  pose proof St as St0.
  destruct St; try discriminate Hv.
  all: try (exists cs; eapply K_frame; [exact HS|exact HT|exact HK|exact St0|exact Hv|exact Hid|reflexivity|reflexivity
     |first [discriminate|let HH := fresh in intros ? HH; injection HH as <-; assumption]
     |first [left; reflexivity|right; left; reflexivity|right; right; split; reflexivity]|reflexivity|cbn; first [reflexivity|set_solver]
     |cbn [h_objs set_alloc set_dev set_tup set_objs set_com set_inc bump use_id add_obj set_obj]; rewrite ?list_lookup_insert_ne by (apply lookup_lt_Some in H; lia);
      intros ? HE; exfalso; first [exact (Hnone _ HE)|apply lookup_lt_Some in HE; rewrite ?insert_length in HE; lia]|discriminate]; fail).
  - (* PCreate3 *)
    pose proof (t_pc _ _ _ _ _ HT _ ltac:(left)) as [Hnone2 Hlt].
    exists (cs ++ [CInsert (new_tuple c msize moff id)]). eapply (K_call _ (PCreate3 m msize moff id)); [exact HS|exact HK|exact H|reflexivity|reflexivity|cbn; now rewrite Hcalls
      | |reflexivity|reflexivity| |apply NoDup_singleton|discriminate| |discriminate|exact I].
    + assert (Hpg : (moff, metadata_page_pow2 (dc_spage c) msize) ∈ held c h (PCreate3 m msize moff id :: rest)).
      { unfold held. rewrite bind_cons. cbn [pc_pages]. rewrite !elem_of_app. right. left. right. constructor. }
      destruct (a_alloc _ _ _ _ HA) as [f HI]. pose proof (live_well_placed _ _ _ _ _ _ _ _ _ _ HI (proj2 (elem_of_app _ _ _) (or_introl Hpg))) as (Hp1 & _ & Hp2).
      cbn [fst snd] in *. unfold valid_call, valid_entry, new_tuple. cbn [t_state t_id t_off t_pow2].
      destruct Hc as [C1 C2 C3 C4]. split; [now left|]. split; [exact Hlt|]. split; [|clear -Hp1 C2; lia].
      pose proof (pow2_pos (metadata_page_pow2 (dc_spage c) msize)) as Hpos. specialize (Hp2 moff). unfold page_bytes, in_heap in Hp2. cbn [fst snd] in Hp2. clear -Hp2 Hpos C4. lia.
    + intros i Hi. apply elem_of_list_singleton in Hi as ->. cbn [new_tuple t_id].
      pose proof (s_ids _ _ HS) as Hnd. apply NoDup_app in Hnd as (_ & Hd & Hnd). rewrite bind_cons in Hnd. cbn [pc_new_ids] in Hnd.
      apply NoDup_app in Hnd as (_ & Hd2 & _). split; [|split].
      * apply (s_used _ _ HS). rewrite bind_cons, !elem_of_app. right. left. constructor.
      * intros Hin. apply (Hd2 id ltac:(constructor)). apply elem_of_list_bind in Hin as (q & H1 & H2). apply elem_of_list_bind. exists q. split; [now apply new23_ids|exact H2].
      * intros Hin. apply elem_of_list_bind in Hin as (q & H1 & H2). destruct q; try (inversion H1; fail). cbn in H1. apply elem_of_list_singleton in H1 as ->.
        destruct (t_pc _ _ _ _ _ HT _ ltac:(right; exact H2)) as (_ & _ & _ & (r & ob & Eo & Hb) & _).
        eapply (new_id_not_obj _ _ r ob (PCreate3 m msize moff new_id) HS Eo); [left|]. rewrite Hb. constructor.
    + cbn [pc_log]. rewrite Hcalls. apply list_lookup_middle. reflexivity.
  - (* PCreate4 *)
    exists cs. eapply K_frame; [exact HS|exact HT|exact HK|exact St0|exact Hv|exact Hid|reflexivity|reflexivity| |left; reflexivity|reflexivity|reflexivity| |discriminate].
    + intros ? E; injection E as <-; assumption.
    + cbn [h_objs set_inc set_objs bump add_obj]. intros ob E _. rewrite list_lookup_middle in E by reflexivity. injection E as <-. left. right.
      pose proof (k_log _ _ _ _ _ _ HK _ ltac:(left)) as Hlog. cbn [pc_log] in Hlog. exists k. eexists. split; [exact Hlog|]. split; [constructor|exact H].
  - (* PCommit3 *)
    exists cs. eapply K_frame; [exact HS|exact HT|exact HK|exact St0|exact Hv|exact Hid|reflexivity|reflexivity|discriminate|right; left; reflexivity|reflexivity|cbn; set_solver| |].
    2:{ intros tok' new' e' E'. injection E' as <- <- <-. destruct (s_pcs _ _ HS _ ltac:(left)) as (ob2 & E2 & Hb2 & _). rewrite <- Hb2.
        eapply iref_settled; [exact HT|exact HK| |exact E2]. unfold irefs. rewrite bind_cons, !elem_of_app. right. left. constructor. }
    cbn [h_objs set_com set_objs use_id add_obj]. intros ob' E _. rewrite list_lookup_middle in E by reflexivity. injection E as <-. right. eexists _, _. reflexivity.
  - (* PCommit4 *)
    pose proof (t_pc _ _ _ _ _ HT _ ltac:(left)) as (Hnn & Hne & Hlt & (r1 & ob1 & E1 & I1) & _ & t & Ht & Hts).
    destruct (t_new _ _ _ _ _ HT) as [Hz|Hcom]; [discriminate|]. destruct (Hcom new_id) as (r & ob & Hr & Eo & Hb); [rewrite bind_cons; left|].
    assert (Hmp : (t_off t, t_pow2 t) = b_mpage ob).
    { destruct (t_c _ _ _ _ _ HT r Hr) as [(ob2 & E2 & H2)|(ob2 & tok2 & ex2 & E2 & Hin & Hs)].
      - assert (ob2 = ob) as -> by congruence. congruence.
      - assert (ob2 = ob) as -> by congruence. apply elem_of_cons in Hin as [Hin|Hin].
        + injection Hin as -> _ _. rewrite Ht in Hs. injection Hs as ->. cbn. now destruct (b_mpage ob).
        + exfalso. pose proof (t_news _ _ _ _ _ HT) as Hnd. rewrite bind_cons in Hnd. cbn [pc_new4 app] in Hnd. apply NoDup_cons in Hnd as [Hni _].
          apply Hni. apply elem_of_list_bind. exists (PCommit4 tok2 (b_id ob) ex2). split; [rewrite Hb; left|exact Hin]. }
    exists (cs ++ [CUpdate tok new_id ds_committed]). eapply (K_call _ (PCommit4 tok new_id existing)); [exact HS|exact HK|exact H|reflexivity|reflexivity|cbn; now rewrite Hcalls
      | |reflexivity|reflexivity| |apply NoDup_singleton| | |discriminate|].
    + split; [exact Hlt|now right].
    + intros i Hi. apply elem_of_list_singleton in Hi as ->. split; [|split].
      * apply (s_used _ _ HS). apply elem_of_app. left. apply elem_of_list_fmap. exists ob. split; [congruence|]. eapply elem_of_list_lookup_2, Eo.
      * intros Hin. apply elem_of_list_bind in Hin as (q & H1 & H2). eapply (new_id_not_obj _ _ r ob q HS Eo); [now right|]. rewrite Hb. now apply new23_ids.
      * pose proof (t_news _ _ _ _ _ HT) as Hnd. rewrite bind_cons in Hnd. cbn [pc_new4 app] in Hnd. now inversion Hnd.
    + intros tok' new' e' E'. injection E' as -> -> ->. now rewrite Hcalls.
    + cbn [pc_log]. rewrite Hcalls. exists t, r, ob. split; [apply list_lookup_middle; reflexivity|].
      rewrite take_app_alt by reflexivity. rewrite <- Hsp. do 5 (split; [assumption|]). left.
      apply crefs_owner in Hr. unfold owners in *. rewrite bind_cons in *. exact Hr.
    + cbn [pc_settled]. rewrite Hcalls. exists new_id, ds_committed. split; [apply list_lookup_middle; reflexivity|].
      eapply settled_app; [|exact (k_toks _ _ _ _ _ _ HK _ ltac:(left))]. auto.
  - (* PReap1 *)
    assert (Hc1 : tup_call (h_tup h) (CDelete (b_id ob)) = Some {| sy_state := s; sy_flush := sy_flush (h_tup h); sy_disk := sy_disk (h_tup h);
                    sy_calls := S (sy_calls (h_tup h)); sy_acked := sy_acked (h_tup h) |}).
    { unfold tup_call. cbn [call_exec]. rewrite H0. reflexivity. }
    exists (cs ++ [CDelete (b_id ob)]). eapply (K_call _ (PReap1 r k)); [exact HS|exact HK|exact Hc1|reflexivity|reflexivity|cbn; now rewrite Hcalls
      |exact I|reflexivity|reflexivity|inversion 1|constructor|discriminate| |discriminate|exact I].
    cbn [pc_log]. rewrite Hcalls. exists ob. split; [exact H|]. split; [apply list_lookup_middle; reflexivity|].
    rewrite take_app_alt by reflexivity. rewrite <- Hsp.
    destruct (delete_Some _ _ _ _ _ _ (t_inv _ _ _ _ _ HT) H0) as [_ Ht].
    assert (Hir : has_entry h sp r (reap_state k)).
    { destruct k as [[]|]; cbn [reap_state].
      - destruct (t_c _ _ _ _ _ HT r) as [HH|(ob2 & tok2 & ex2 & E2 & Hin & _)]; [|exact HH|].
        { unfold crefs. rewrite bind_cons, !elem_of_app. right. left. constructor. }
        assert (ob2 = ob) as -> by congruence. destruct (t_pc _ _ _ _ _ HT _ Hin) as [Hn _]. congruence.
      - apply (t_i _ _ _ _ _ HT). unfold irefs. rewrite bind_cons, !elem_of_app. right. left. constructor.
      - destruct (t_c _ _ _ _ _ HT r) as [HH|(ob2 & tok2 & ex2 & E2 & Hin & _)]; [|exact HH|].
        { unfold crefs. rewrite bind_cons, !elem_of_app. right. left. constructor. }
        assert (ob2 = ob) as -> by congruence. destruct (t_pc _ _ _ _ _ HT _ Hin) as [Hn _]. congruence. }
    destruct Hir as (ob2 & E2 & Hs). assert (ob2 = ob) as -> by congruence. exact Hs.
Qed.
End Log.
