(** Histories of the specification of a direct partition. *)
From Coq Require Import ZifyBool ZifyNat ZifyN.
From stdpp Require Import base numbers list_numbers option gmap sets functions list.
From Verif Require Import Util PageIOModel PageIOSpec DirectModel DirectSpec DirectHistSpec.
Open Scope N_scope.
Ltac Zify.zify_post_hook ::= idtac.

Definition slive (S : sstate) (id : N) : Prop := exists key co, ss_com S !! key = Some co /\ co_id co = id.

(** Published objects: key, token of the upload, bytes. *)
Notation ghost := (gmap N (list N * N * (N -> N))).


Definition done_write (ls : list label) (ps : list sproc) (i : nat) (st : list item) : Prop :=
  LVis i (VRet RWritten) ∈ ls \/ ps !! i = Some (SWrote st).
Definition quiet (s : sproc) : Prop := match s with SReading _ _ _ _ _ | SDone => False | _ => True end.

(** ** Calls and labels *)
Definition proc_call (ls : list label) (i : nat) (s : sproc) : Prop :=
  match s with
  | SCall op => LCall i op ∈ ls
  | SWriting tok off len st => LCall i (OWrite tok off len st) ∈ ls
  | SWrote st => exists tok off len, LCall i (OWrite tok off len st) ∈ ls
  | SCommitting tok ine => LCall i (OCommit tok ine) ∈ ls
  | SPublished _ _ _ | SDiscarded => exists tok ine, LCall i (OCommit tok ine) ∈ ls
  | SDeleted _ => exists key id, LCall i (ODelete key id) ∈ ls
  | SReading key id pos fin buffer => exists size start, LVis i (VRet (RReading id size start fin)) ∈ ls
  | SDone => True
  end.
Record LInv (ls : list label) (ps : list sproc) : Prop := {
  l_lt : forall i op, LCall i op ∈ ls -> (i < length ps)%nat;
  l_once : forall i op op', LCall i op ∈ ls -> LCall i op' ∈ ls -> op = op';
  l_proc : forall i s, ps !! i = Some s -> proc_call ls i s;
  l_vis : forall i v, LVis i v ∈ ls -> exists s, ps !! i = Some s /\ ~ quiet s;
  l_reads : forall i id size start fin, LVis i (VRet (RReading id size start fin)) ∈ ls ->
      forall key id' pos fin' buffer, ps !! i = Some (SReading key id' pos fin' buffer) ->
        id' = id /\ pos = start + N.of_nat (length (delivered i ls));
}.

Lemma delivered_app i a b : delivered i (a ++ b) = delivered i a ++ delivered i b.
Proof.
  induction a as [|l a IH]; [reflexivity|]. destruct l as [|j v|]; cbn; try exact IH. destruct v; try exact IH.
  now rewrite IH, app_assoc.
Qed.
Lemma delivered_none i ls : (forall v, LVis i v ∉ ls) -> delivered i ls = [].
Proof.
  induction ls as [|l ls IH]; [reflexivity|]. intros H. assert (IH' := IH (fun v Hv => H v (elem_of_list_further _ _ _ Hv))).
  destruct l as [|j v|]; cbn; try exact IH'. destruct v; try exact IH'. destruct (Nat.eqb_spec j i) as [->|]; [|exact IH'].
  exfalso. apply (H (VChunk data)). constructor.
Qed.
Lemma in_snoc {A} (x : A) l y : x ∈ l ++ [y] <-> x ∈ l \/ x = y.
Proof. rewrite elem_of_app, elem_of_list_singleton. reflexivity. Qed.

Definition lab (i : nat) (v : option vis) : label := match v with Some v => LVis i v | None => LTau end.
Lemma in_lab_call ls j op i v : LCall j op ∈ ls ++ [lab i v] <-> LCall j op ∈ ls.
Proof. rewrite in_snoc. split; [|now left]. intros [H|H]; [exact H|]. destruct v; discriminate. Qed.
Lemma in_lab_vis ls j w i v : LVis j w ∈ ls ++ [lab i v] <-> LVis j w ∈ ls \/ (j = i /\ v = Some w).
Proof.
  rewrite in_snoc. split; (intros [H|H]; [now left|right]).
  - destruct v; cbn in H; [|discriminate]. now inversion H.
  - destruct H as [-> ->]. reflexivity.
Qed.
Lemma delivered_lab j ls i v : delivered j (ls ++ [lab i v]) =
  delivered j ls ++ match v with Some (VChunk d) => if (i =? j)%nat then d else [] | _ => [] end.
Proof.
  rewrite delivered_app. f_equal. destruct v as [[r|d|r]|]; cbn; try reflexivity. destruct (i =? j)%nat; [apply app_nil_r|reflexivity].
Qed.

Lemma proc_call_mono ls ls' i s : (forall x, x ∈ ls -> x ∈ ls') -> proc_call ls i s -> proc_call ls' i s.
Proof. intros H. destruct s; cbn; try solve [auto]; intros Hp; repeat (destruct Hp as [? Hp]); eauto. Qed.

Lemma l_call ls ps op : LInv ls ps -> LInv (ls ++ [LCall (length ps) op]) (ps ++ [SCall op]).
Proof.
  intros [H1 H2 H3 H4 H5].
  assert (Hv : forall i v, LVis i v ∈ ls ++ [LCall (length ps) op] -> LVis i v ∈ ls).
  { intros i v. rewrite in_snoc. intros [H|H]; [exact H|discriminate]. }
  assert (Hne : forall v, LVis (length ps) v ∉ ls).
  { intros v H. destruct (H4 _ _ H) as (s & Hs & _). apply lookup_lt_Some in Hs. lia. }
  split.
  - intros i op'. rewrite in_snoc, app_length. cbn. intros [H|H]; [apply H1 in H; lia|]. inversion H. lia.
  - intros i o1 o2. rewrite !in_snoc. intros [Ha|Ha] [Hb|Hb].
    + eapply H2; eassumption.
    + inversion Hb; subst. apply H1 in Ha. lia.
    + inversion Ha; subst. apply H1 in Hb. lia.
    + congruence.
  - intros i s Hs. apply lookup_app_Some in Hs as [Hs|[Hi Hs]].
    + eapply proc_call_mono; [|apply H3, Hs]. intros x. rewrite in_snoc. now left.
    + destruct (i - length ps)%nat eqn:E; [|destruct n; discriminate]. inversion Hs; subst. cbn. rewrite in_snoc. right.
      f_equal. lia.
  - intros i v H. apply Hv in H. destruct (H4 _ _ H) as (s & Hs & Hq). exists s. split; [now apply lookup_app_l_Some|exact Hq].
  - intros i id size start fin H key id' pos fin' buffer Hs. apply Hv in H. pose proof H as H0.
    apply H4 in H0 as (s & Hs0 & _). rewrite lookup_app_l in Hs by (eapply lookup_lt_Some; eassumption).
    destruct (H5 _ _ _ _ _ H _ _ _ _ _ Hs) as [-> ->]. split; [reflexivity|]. rewrite delivered_app. cbn. now rewrite app_nil_r.
Qed.

(** A step of call [i]. *)
Lemma l_step lpage S ls ps i s S' s' v : LInv ls ps -> ps !! i = Some s -> sstep lpage S ps s S' s' v ->
  LInv (ls ++ [lab i v]) (<[i := s']> ps).
Proof.
  intros [H1 H2 H3 H4 H5] Hi St. pose proof (lookup_lt_Some _ _ _ Hi) as Hlt.
  assert (Hv : forall x, x ∈ ls -> x ∈ ls ++ [lab i v]) by (intros x; rewrite in_snoc; now left).
  split.
  - intros j op. rewrite in_lab_call, insert_length. apply H1.
  - intros j o1 o2. rewrite !in_lab_call. apply H2.
  - intros j t Ht. destruct (decide (i = j)) as [<-|Hne].
    + rewrite list_lookup_insert in Ht by exact Hlt. inversion Ht; subst t. specialize (H3 _ _ Hi).
      destruct St; cbn in *; try exact I; try solve [apply Hv; exact H3]; try solve [repeat eexists; apply Hv; eassumption].
      * exists (co_size co), start. rewrite in_snoc. now right.
      * destruct H3 as (? & ? & H3). repeat eexists; apply Hv; eassumption.
    + rewrite list_lookup_insert_ne in Ht by exact Hne. eapply proc_call_mono; [exact Hv|]. apply H3, Ht.
  - intros j w. rewrite in_lab_vis. intros [H|[-> ->]].
    + destruct (H4 _ _ H) as (t & Ht & Hq). destruct (decide (i = j)) as [<-|Hne].
      * assert (t = s) as -> by congruence. rewrite list_lookup_insert by exact Hlt. exists s'. split; [reflexivity|].
        destruct St; cbn in *; tauto.
      * exists t. rewrite list_lookup_insert_ne by exact Hne. auto.
    + exists s'. rewrite list_lookup_insert by exact Hlt. split; [reflexivity|]. inversion St; subst; cbn; tauto.
  - intros j id size start fin H key id' pos fin' buffer Ht. destruct (decide (i = j)) as [<-|Hne].
    + rewrite list_lookup_insert in Ht by exact Hlt. inversion Ht; subst s'. rewrite in_lab_vis in H.
      assert (Hn : quiet s -> forall w, LVis i w ∉ ls).
      { intros Hq w Hw. destruct (H4 _ _ Hw) as (t & E & Hnq). assert (t = s) as -> by congruence. contradiction. }
      inversion St; subst.
      * destruct H as [H|[_ H]]; [exfalso; exact (Hn I _ H)|]. inversion H; subst. split; [reflexivity|].
        rewrite delivered_lab, delivered_none by (apply Hn; exact I). cbn. lia.
      * destruct H as [H|[_ H]]; [|discriminate]. destruct (H5 _ _ _ _ _ H _ _ _ _ _ Hi) as [-> ->]. split; [reflexivity|].
        rewrite delivered_lab, Nat.eqb_refl, app_length. lia.
    + rewrite list_lookup_insert_ne in Ht by exact Hne. rewrite in_lab_vis in H. destruct H as [H|[-> _]]; [|contradiction].
      destruct (H5 _ _ _ _ _ H _ _ _ _ _ Ht) as [-> ->]. split; [reflexivity|]. rewrite delivered_lab.
      destruct v as [[]|]; rewrite ?app_nil_r; try reflexivity. destruct (Nat.eqb_spec i j) as [->|]; [contradiction|]. now rewrite app_nil_r.
Qed.

(** ** Published objects *)
Definition proc_ghost (ls : list label) (B : ghost) (i : nat) (s : sproc) : Prop :=
  match s with
  | SPublished tok id _ => exists ine key f, LCall i (OCommit tok ine) ∈ ls /\ B !! id = Some (key, tok, f)
  | SReading key id _ _ _ => exists tok f, B !! id = Some (key, tok, f)
  | _ => True
  end.
Record GInv (ls : list label) (S : sstate) (ps : list sproc) (B : ghost) : Prop := {
  g_ids : forall id key tok f, B !! id = Some (key, tok, f) -> id ∈ ss_ids S /\ tok ∈ ss_ids S /\ ss_up S !! tok = None;
  g_toks : forall tok u, ss_up S !! tok = Some u -> tok ∈ ss_ids S;
  g_com : forall key co, ss_com S !! key = Some co -> exists tok, B !! co_id co = Some (key, tok, co_bytes co);
  g_proc : forall i s, ps !! i = Some s -> proc_ghost ls B i s;
  g_reads : forall i id start, reads ls i id start -> is_Some (B !! id);
  g_commits : forall tok id, committed_as ls tok id -> exists key f, B !! id = Some (key, tok, f);
  g_chunks : forall ls1 i data ls2 id start, ls = ls1 ++ LVis i (VChunk data) :: ls2 -> reads ls1 i id start ->
      seen ls2 id \/ slive S id ->
      exists key tok f, B !! id = Some (key, tok, f) /\ bytes_at f (start + N.of_nat (length (delivered i ls1))) data;
}.

(** How published objects change in a step. *)
Definition grows (S S' : sstate) (B B' : ghost) : Prop :=
  B ⊆ B' /\
  forall id key tok f, B' !! id = Some (key, tok, f) -> B !! id = Some (key, tok, f) \/
    (id ∉ ss_ids S /\ exists u, ss_up S !! tok = Some u /\ extends u f /\ key = up_key u /\ ss_up S' !! tok = None).
Lemma grows_refl S S' B : grows S S' B B.
Proof. split; [reflexivity|]. intros. now left. Qed.

Lemma proc_ghost_mono ls ls' B B' i s : (forall x, x ∈ ls -> x ∈ ls') -> B ⊆ B' -> proc_ghost ls B i s -> proc_ghost ls' B' i s.
Proof.
  intros H HB. destruct s; cbn; try solve [auto].
  - intros (ine & key & f & H1 & H2). exists ine, key, f. split; [auto|]. eapply lookup_weaken; eassumption.
  - intros (tok & f & H2). exists tok, f. eapply lookup_weaken; eassumption.
Qed.

Lemma step_live lpage S ps s S' s' v id : sstep lpage S ps s S' s' v -> slive S' id -> slive S id \/ id ∉ ss_ids S.
Proof.
  intros St (key & co & Hk & <-). destruct St; cbn in Hk; try solve [left; exists key, co; auto].
  - destruct (decide (up_key u = key)) as [<-|Hne].
    + rewrite lookup_insert in Hk. inversion Hk; subst co. right. exact H1.
    + rewrite lookup_insert_ne in Hk by exact Hne. left. exists key, co. auto.
  - apply lookup_delete_Some in Hk as [_ Hk]. left. exists key, co. auto.
Qed.
Lemma step_seen lpage S ps s S' s' v ls i id : sstep lpage S ps s S' s' v -> seen (ls ++ [lab i v]) id -> seen ls id \/ slive S id.
Proof.
  intros St (j & [(size & created & H)|(start & size & fin & H)]); rewrite in_lab_vis in H; destruct H as [H|[-> ->]].
  - left. exists j. left. eauto.
  - right. inversion St; subst. match goal with H : sfind _ _ _ _ |- _ => destruct H as [Hf _] end. eexists _, _. eauto.
  - left. exists j. right. exists start, size, fin. exact H.
  - right. inversion St; subst. match goal with H : sfind _ _ _ _ |- _ => destruct H as [Hf _] end. eexists _, _. eauto.
Qed.
Lemma step_reads lpage S ps s S' s' v ls i j id start : sstep lpage S ps s S' s' v -> reads (ls ++ [lab i v]) j id start ->
  reads ls j id start \/ slive S id.
Proof.
  intros St (size & fin & H). rewrite in_lab_vis in H. destruct H as [H|[-> ->]].
  - left. exists size, fin. exact H.
  - right. inversion St; subst. match goal with H : sfind _ _ _ _ |- _ => destruct H as [Hf _] end. eexists _, _. eauto.
Qed.

Lemma live_ghost ls S ps B id : GInv ls S ps B -> slive S id -> is_Some (B !! id).
Proof. intros H (key & co & Hk & <-). destruct (g_com _ _ _ _ H _ _ Hk) as [tok E]. rewrite E. eauto. Qed.

Lemma step_ids lpage S ps s S' s' v : sstep lpage S ps s S' s' v -> ss_ids S ⊆ ss_ids S'.
Proof. intros St; destruct St; cbn; set_solver. Qed.
Lemma step_up lpage S ps s S' s' v tok : sstep lpage S ps s S' s' v -> is_Some (ss_up S' !! tok) ->
  is_Some (ss_up S !! tok) \/ tok ∉ ss_ids S.
Proof.
  intros St. destruct St; cbn; try solve [now left]; unfold on_part; cbn; rewrite ?lookup_alter_is_Some; try solve [now left].
  - rewrite lookup_insert_is_Some. intros [<-|[_ H']]; auto.
  - rewrite lookup_insert_is_Some. intros [<-|[_ H']]; [|auto]. left. exists u. apply H.
  - rewrite lookup_delete_is_Some. tauto.
  - rewrite lookup_delete_is_Some. tauto.
Qed.
Lemma step_toks lpage S ps s S' s' v tok : sstep lpage S ps s S' s' v -> is_Some (ss_up S' !! tok) ->
  is_Some (ss_up S !! tok) \/ tok ∈ ss_ids S'.
Proof.
  intros St. destruct St; cbn; try solve [now left]; unfold on_part; cbn; rewrite ?lookup_alter_is_Some; try solve [now left].
  - rewrite lookup_insert_is_Some. intros [<-|[_ H']]; [right; set_solver|auto].
  - rewrite lookup_insert_is_Some. intros [<-|[_ H']]; [|auto]. left. exists u. apply H.
  - rewrite lookup_delete_is_Some. tauto.
  - rewrite lookup_delete_is_Some. tauto.
Qed.

Lemma g_step lpage S ls ps i s S' s' v B : LInv ls ps -> GInv ls S ps B -> ps !! i = Some s -> sstep lpage S ps s S' s' v ->
  exists B', grows S S' B B' /\ GInv (ls ++ [lab i v]) S' (<[i := s']> ps) B'.
Proof.
  intros HL HG Hi St. pose proof HG as [G1 G2 G3 G4 G5 G6 G7]. pose proof (lookup_lt_Some _ _ _ Hi) as Hlt.
  assert (Hv : forall x, x ∈ ls -> x ∈ ls ++ [lab i v]) by (intros x; rewrite in_snoc; now left).
  assert (HB : exists B', grows S S' B B' /\
    (forall id key tok f, B' !! id = Some (key, tok, f) -> id ∈ ss_ids S' /\ tok ∈ ss_ids S') /\
    (forall key co, ss_com S' !! key = Some co -> exists tok, B' !! co_id co = Some (key, tok, co_bytes co)) /\
    proc_ghost (ls ++ [lab i v]) B' i s').
  { assert (Hid : forall id key tok f, B !! id = Some (key, tok, f) -> id ∈ ss_ids S' /\ tok ∈ ss_ids S').
    { intros id key tok f E. apply G1 in E as (E1 & E2 & _). pose proof (step_ids _ _ _ _ _ _ _ St). set_solver. }
    assert (Hsame : (forall key co, ss_com S' !! key = Some co -> ss_com S !! key = Some co) -> proc_ghost (ls ++ [lab i v]) B i s' ->
      exists B', grows S S' B B' /\ (forall id key tok f, B' !! id = Some (key, tok, f) -> id ∈ ss_ids S' /\ tok ∈ ss_ids S') /\
        (forall key co, ss_com S' !! key = Some co -> exists tok, B' !! co_id co = Some (key, tok, co_bytes co)) /\
        proc_ghost (ls ++ [lab i v]) B' i s').
    { intros Hc Hp. exists B. split; [apply grows_refl|]. split; [exact Hid|]. split; [|exact Hp].
      intros key co E. apply G3, Hc, E. }
    pose proof (G4 _ _ Hi) as Hp. pose proof (l_proc _ _ HL _ _ Hi) as Hpl.
    destruct St; try solve [apply Hsame; cbn; auto].
    - (* publish *)
      exists (<[id := (up_key u, tok, bytes)]> B). split; [|split; [|split]].
      + split; [apply insert_subseteq, eq_None_not_Some; intros [[[key tk] f] E]; apply G1 in E as [E _]; contradiction|].
        intros id' key tk f E. destruct (decide (id = id')) as [<-|Hne].
        * rewrite lookup_insert in E. inversion E; subst. right. split; [assumption|]. exists u. repeat (split; [assumption || reflexivity|]).
          cbn. apply lookup_delete.
        * rewrite lookup_insert_ne in E by exact Hne. now left.
      + intros id' key tk f E. cbn. destruct (decide (id = id')) as [<-|Hne].
        * rewrite lookup_insert in E. inversion E; subst. apply G2 in H. set_solver.
        * rewrite lookup_insert_ne in E by exact Hne. apply G1 in E as (E1 & E2 & _). set_solver.
      + cbn. intros key co E. destruct (decide (up_key u = key)) as [<-|Hne].
        * rewrite lookup_insert in E. inversion E; subst co. cbn. exists tok. apply lookup_insert.
        * rewrite lookup_insert_ne in E by exact Hne. destruct (G3 _ _ E) as [tk E2]. exists tk.
          rewrite lookup_insert_ne; [exact E2|]. intros Heq. rewrite <- Heq in E2. apply G1 in E2 as [E2 _]. contradiction.
      + cbn. exists ine, (up_key u), bytes. split; [apply Hv; exact Hpl|apply lookup_insert].
    - (* delete *)
      apply Hsame; [|exact I]. cbn. intros key' co' E. now apply lookup_delete_Some in E as [_ E].
    - (* read *)
      apply Hsame; [auto|]. cbn. match goal with H : sfind _ _ _ _ |- _ => destruct H as [Hf _] end.
      destruct (G3 _ _ Hf) as [tok E]. eauto. }
  destruct HB as (B' & Hgr & HB1 & HB2 & HB3). pose proof Hgr as [Hsub Hnew].
  exists B'. split; [exact Hgr|]. split.
  - intros id key tok f E. destruct (HB1 _ _ _ _ E) as [E1 E2]. split; [exact E1|]. split; [exact E2|].
    destruct (Hnew _ _ _ _ E) as [E3|(_ & u & _ & _ & _ & E3)]; [|exact E3]. apply G1 in E3 as (_ & E3 & E4).
    apply eq_None_not_Some. intros Hs. destruct (step_up _ _ _ _ _ _ _ tok St Hs) as [Hs'|Hs']; [|contradiction]. rewrite E4 in Hs'. now apply is_Some_None in Hs'.
  - intros tok u E. destruct (step_toks _ _ _ _ _ _ _ tok St) as [[u' H]|H]; [eauto| |exact H].
    apply G2 in H. pose proof (step_ids _ _ _ _ _ _ _ St). set_solver.
  - exact HB2.
  - intros j t Ht. destruct (decide (i = j)) as [<-|Hne].
    + rewrite list_lookup_insert in Ht by exact Hlt. inversion Ht; subst t. exact HB3.
    + rewrite list_lookup_insert_ne in Ht by exact Hne. eapply proc_ghost_mono; [exact Hv|exact Hsub|]. apply G4, Ht.
  - intros j id start H. destruct (step_reads _ _ _ _ _ _ _ _ _ _ _ _ St H) as [H'|H'].
    + apply G5 in H' as [x E]. exists x. eapply lookup_weaken; eassumption.
    + destruct (live_ghost _ _ _ _ _ HG H') as [x E]. exists x. eapply lookup_weaken; eassumption.
  - intros tok id (j & ine & Hc & Hr). apply in_lab_call in Hc. apply in_lab_vis in Hr as [Hr|[-> Hr]].
    + destruct (G6 tok id) as (key & f & E); [exists j, ine; auto|]. exists key, f. eapply lookup_weaken; eassumption.
    + pose proof (G4 _ _ Hi) as Hp. destruct St; try discriminate Hr. inversion Hr; subst. cbn in Hp.
      destruct Hp as (ine' & key & f & Hc' & E). pose proof (l_once _ _ HL _ _ _ Hc Hc') as Heq. inversion Heq; subst.
      exists key, f. eapply lookup_weaken; eassumption.
  - intros ls1 j data ls2 id start E Hr Hs. destruct ls2 as [|l2 ls2 _] using rev_ind.
    + apply app_inj_tail in E as [-> E]. destruct v as [w|]; [|discriminate E]. inversion E; subst.
      inversion St; subst. destruct Hr as (size & fin' & Hr). pose proof (l_reads _ _ HL _ _ _ _ _ Hr _ _ _ _ _ Hi) as [-> ->].
      pose proof (G4 _ _ Hi) as (tok & f & E2). exists key, tok, f. split; [eapply lookup_weaken; eassumption|].
      destruct Hs as [(? & [(? & ? & Hs)|(? & ? & ? & Hs)])|(key' & co & Hk & Hid)]; [inversion Hs|inversion Hs|].
      destruct (G3 _ _ Hk) as [tok' E3]. rewrite Hid, E2 in E3. inversion E3; subst. intros k b Hb. eauto.
    + rewrite app_comm_cons, app_assoc in E. apply app_inj_tail in E as [E E']. subst l2.
      destruct (G7 _ _ _ _ id start E Hr) as (key & tok & f & E1 & E2).
      { destruct Hs as [Hs|Hs].
        - eapply step_seen; eassumption.
        - right. destruct (step_live _ _ _ _ _ _ _ _ St Hs) as [H|H]; [exact H|]. exfalso. apply H.
          assert (reads ls j id start) as Hr'.
          { destruct Hr as (size & fin & Hr). exists size, fin. rewrite E. apply elem_of_app. now left. }
          apply G5 in Hr' as [[[key tok] f] E1]. now apply G1 in E1 as [E1 _]. }
      exists key, tok, f. split; [eapply lookup_weaken; eassumption|exact E2].
Qed.


Lemma g_call ls S ps op B : LInv ls ps -> GInv ls S ps B -> GInv (ls ++ [LCall (length ps) op]) S (ps ++ [SCall op]) B.
Proof.
  intros HL [G1 G2 G3 G4 G5 G6 G7].
  assert (Hv : forall i v, LVis i v ∈ ls ++ [LCall (length ps) op] -> LVis i v ∈ ls).
  { intros i v. rewrite in_snoc. intros [H|H]; [exact H|discriminate]. }
  split; try assumption.
  - intros i s Hs. apply lookup_app_Some in Hs as [Hs|[Hi Hs]].
    + eapply proc_ghost_mono; [|reflexivity|apply G4, Hs]. intros x. rewrite in_snoc. now left.
    + destruct (i - length ps)%nat eqn:E; [|destruct n; discriminate]. now inversion Hs; subst.
  - intros i id start (size & fin & H). apply (G5 i id start). exists size, fin. auto.
  - intros tok id (j & ine & Hc & Hr). apply Hv in Hr. rewrite in_snoc in Hc. destruct Hc as [Hc|Hc].
    + apply G6. exists j, ine. auto.
    + inversion Hc; subst. destruct (l_vis _ _ HL _ _ Hr) as (s & Hs & _). apply lookup_lt_Some in Hs. lia.
  - intros ls1 j data ls2 id start E Hr Hs. destruct ls2 as [|l2 ls2 _] using rev_ind.
    + apply app_inj_tail in E as [_ E]. discriminate.
    + rewrite app_comm_cons, app_assoc in E. apply app_inj_tail in E as [E E']. subst l2.
      apply (G7 _ _ _ _ id start E Hr). destruct Hs as [Hs|Hs]; [left|now right].
      destruct Hs as (k & [(size & created & H)|(st & size & fin & H)]); rewrite in_snoc in H; destruct H as [H|H]; try discriminate H; exists k.
      * left. eauto.
      * right. exists st, size, fin. exact H.
Qed.

(** ** Writes *)
Record WInv (ls : list label) (S : sstate) (ps : list sproc) (B : ghost) : Prop := {
  w_new : forall tok u off, ss_up S !! tok = Some u ->
      up_parts u off = part_new \/ exists i len st s, LCall i (OWrite tok off len st) ∈ ls /\ ps !! i = Some s /\ (forall op, s <> SCall op);
  w_act : forall tok u off i len st, ss_up S !! tok = Some u -> ps !! i = Some (SWriting tok off len st) ->
      up_parts u off = {| pt_writers := 1; pt_clean := true; pt_data := None |};
  w_done : forall tok u off i len st, ss_up S !! tok = Some u -> LCall i (OWrite tok off len st) ∈ ls -> stream_bytes st <> [] ->
      done_write ls ps i st -> pt_data (up_parts u off) = Some (stream_bytes st);
  w_pub : forall tok off i len st id key f, B !! id = Some (key, tok, f) -> LCall i (OWrite tok off len st) ∈ ls -> stream_bytes st <> [] ->
      done_write ls ps i st -> bytes_at f off (stream_bytes st);
  w_tok : forall tok off i len st, LCall i (OWrite tok off len st) ∈ ls ->
      ps !! i = Some (SWriting tok off len st) \/ done_write ls ps i st -> tok ∈ ss_ids S;
}.

(** A step changes an upload only in the part of the calling writer. *)
Definition part_step (tok off : N) (st : list item) (s : sproc) (p p' : part) (s' : sproc) : Prop :=
  (exists len, s = SCall (OWrite tok off len st) /\ p' = part_start p /\ s' = SWriting tok off len st) \/
  (exists len, s = SWriting tok off len st /\ p' = part_abort p /\ s' = SDone) \/
  (exists len, s = SWriting tok off len st /\ p' = part_finish p (stream_bytes st) /\ s' = SWrote st).
Lemma step_part lpage S ps s S' s' v tok u' off : sstep lpage S ps s S' s' v -> ss_up S' !! tok = Some u' ->
  (exists u, ss_up S !! tok = Some u /\
     (up_parts u' off = up_parts u off \/ exists st, part_step tok off st s (up_parts u off) (up_parts u' off) s')) \/
  (tok ∉ ss_ids S /\ up_parts u' off = part_new).
Proof.
  intros St E.
  assert (Hp : forall tk o f, S' = on_part S tk o f -> (tk = tok -> o = off -> forall u, ss_up S !! tok = Some u ->
      up_parts u' off = f (up_parts u off) -> exists st, part_step tok off st s (up_parts u off) (up_parts u' off) s') ->
    exists u, ss_up S !! tok = Some u /\
     (up_parts u' off = up_parts u off \/ exists st, part_step tok off st s (up_parts u off) (up_parts u' off) s')).
  { intros tk o f -> Hs. unfold on_part in E. cbn in E. destruct (decide (tk = tok)) as [->|Hne].
    - rewrite lookup_alter in E. destruct (ss_up S !! tok) as [u|] eqn:Eu; [|discriminate]. inversion E; subst u'. clear E.
      exists u. split; [reflexivity|]. cbn. destruct (decide (o = off)) as [->|Ho].
      + right. apply Hs; try reflexivity. cbn. apply fn_lookup_insert.
      + left. now rewrite fn_lookup_insert_ne.
    - rewrite lookup_alter_ne in E by exact Hne. eauto. }
  destruct St; cbn in E; try solve [left; eauto].
  - destruct (decide (tok0 = tok)) as [->|Hne].
    + rewrite lookup_insert in E. inversion E; subst. right. auto.
    + rewrite lookup_insert_ne in E by exact Hne. left. eauto.
  - left. eapply Hp; [reflexivity|]. intros -> -> u1 _ ->. exists st. left. eauto.
  - left. eapply Hp; [reflexivity|]. intros -> -> u1 _ ->. exists st. right. right. eauto.
  - left. eapply Hp; [reflexivity|]. intros -> -> u1 _ ->. exists st. right. left. eauto.
  - left. eapply Hp; [reflexivity|]. intros -> -> u1 _ ->. exists st. right. left. eauto.
  - destruct (decide (tok0 = tok)) as [->|Hne].
    + rewrite lookup_insert in E. inversion E; subst. left. exists u. split; [apply H|]. now left.
    + rewrite lookup_insert_ne in E by exact Hne. left. eauto.
  - apply lookup_delete_Some in E as [_ E]. left. eauto.
  - apply lookup_delete_Some in E as [_ E]. left. eauto.
Qed.

Lemma step_no_call lpage S ps s S' s' v op : sstep lpage S ps s S' s' v -> s' <> SCall op.
Proof. intros St; destruct St; discriminate. Qed.

(** Successful writes after a step. *)
Lemma done_step lpage S ls ps i s S' s' v j tok off len st : LInv ls ps -> ps !! i = Some s -> sstep lpage S ps s S' s' v ->
  LCall j (OWrite tok off len st) ∈ ls -> done_write (ls ++ [lab i v]) (<[i := s']> ps) j st ->
  done_write ls ps j st \/
  (j = i /\ s = SWriting tok off len st /\ s' = SWrote st /\ S' = on_part S tok off (fun p => part_finish p (stream_bytes st)) /\
   N.of_nat (length (stream_bytes st)) = len /\ (is_Some (ss_up S !! tok) \/ len = 0)).
Proof.
  intros HL Hi St Hc [H|H].
  - apply in_lab_vis in H as [H|[-> ->]]; [left; now left|]. inversion St; subst. left. right.
    destruct (l_proc _ _ HL _ _ Hi) as (tok' & off' & len' & Hc'). pose proof (l_once _ _ HL _ _ _ Hc Hc') as E. congruence.
  - destruct (decide (i = j)) as [<-|Hne].
    + rewrite list_lookup_insert in H by (eapply lookup_lt_Some; eassumption). inversion H; subst s'. inversion St; subst.
      pose proof (l_proc _ _ HL _ _ Hi) as Hc'. cbn in Hc'. pose proof (l_once _ _ HL _ _ _ Hc Hc') as E. inversion E; subst. right. auto 6.
    + rewrite list_lookup_insert_ne in H by exact Hne. left. now right.
Qed.

Lemma not_done ls ps i s st : LInv ls ps -> ps !! i = Some s -> quiet s -> s <> SWrote st -> ~ done_write ls ps i st.
Proof.
  intros HL Hi Hq Hn [H|H]; [|congruence]. destruct (l_vis _ _ HL _ _ H) as (t & Ht & Hnq). congruence.
Qed.

Lemma w_step lpage S ls ps i s S' s' v B B' : LInv ls ps -> GInv ls S ps B -> parts_written_once ls -> WInv ls S ps B ->
  ps !! i = Some s -> sstep lpage S ps s S' s' v -> grows S S' B B' -> WInv (ls ++ [lab i v]) S' (<[i := s']> ps) B'.
Proof.
  intros HL HG Honce [W1 W2 W3 W4 W5] Hi St [Hsub Hnew]. pose proof (lookup_lt_Some _ _ _ Hi) as Hlt.
  pose proof (l_proc _ _ HL _ _ Hi) as Hpi.
  assert (Hps : forall tok off st p p', part_step tok off st s p p' s' -> exists len, LCall i (OWrite tok off len st) ∈ ls /\ quiet s /\ forall st', s <> SWrote st').
  { intros tok off st p p' [(len & -> & _)|[(len & -> & _)|(len & -> & _)]]; exists len; (split; [exact Hpi|split; [exact I|discriminate]]). }
  split.
  - intros tok u' off E. destruct (step_part _ _ _ _ _ _ _ _ _ off St E) as [(u & Eu & [Hp|(st & Hp)])|[_ Hp]].
    + rewrite Hp. destruct (W1 _ _ off Eu) as [H|(j & len & st & t & Hc & Ht & Hnc)]; [now left|right].
      destruct (decide (i = j)) as [<-|Hne].
      * exists i, len, st, s'. rewrite in_lab_call, list_lookup_insert by exact Hlt. split; [exact Hc|]. split; [reflexivity|].
        intros op. eapply step_no_call; eassumption.
      * exists j, len, st, t. rewrite in_lab_call, list_lookup_insert_ne by exact Hne. auto.
    + right. destruct (Hps _ _ _ _ _ Hp) as (len & Hc & _). exists i, len, st, s'. rewrite in_lab_call, list_lookup_insert by exact Hlt.
      split; [exact Hc|]. split; [reflexivity|]. intros op. eapply step_no_call; eassumption.
    + now left.
  - intros tok u' off j len st E Hj. destruct (decide (i = j)) as [<-|Hne].
    + rewrite list_lookup_insert in Hj by exact Hlt. inversion Hj; subst s'. inversion St; subst. unfold on_part in E. cbn in E.
      rewrite lookup_alter in E. destruct (ss_up S !! tok) as [u1|] eqn:Eu; [|discriminate]. inversion E; subst u'. cbn.
      rewrite fn_lookup_insert. destruct (W1 _ _ off Eu) as [->|(k & len' & st' & t & Hc & Ht & Hnc)]; [reflexivity|].
      exfalso. cbn in Hpi. pose proof (Honce _ _ _ _ _ _ _ _ Hc Hpi) as ->. rewrite Hi in Ht. inversion Ht; subst. now apply (Hnc (OWrite tok off len st)).
    + rewrite list_lookup_insert_ne in Hj by exact Hne. pose proof (l_proc _ _ HL _ _ Hj) as Hcj. cbn in Hcj.
      destruct (step_part _ _ _ _ _ _ _ _ _ off St E) as [(u & Eu & [Hp|(st' & Hp)])|[Hn _]].
      * rewrite Hp. eapply W2; eassumption.
      * exfalso. destruct (Hps _ _ _ _ _ Hp) as (len' & Hc & _). apply Hne. eapply Honce; eassumption.
      * exfalso. apply Hn. eapply W5; [exact Hcj|]. now left.
  - intros tok u' off j len st E Hc Hb Hd. rewrite in_lab_call in Hc.
    destruct (done_step _ _ _ _ _ _ _ _ _ _ _ _ _ _ HL Hi St Hc Hd) as [Hd'|(-> & -> & -> & -> & Hlen & Hs)].
    + destruct (step_part _ _ _ _ _ _ _ _ _ off St E) as [(u & Eu & [Hp|(st' & Hp)])|[Hn _]].
      * rewrite Hp. eapply W3; eassumption.
      * exfalso. destruct (Hps _ _ _ _ _ Hp) as (len' & Hc' & Hq & Hns). pose proof (Honce _ _ _ _ _ _ _ _ Hc Hc') as ->.
        eapply not_done; eauto.
      * exfalso. apply Hn. eapply W5; [exact Hc|]. now right.
    + unfold on_part in E. cbn in E. rewrite lookup_alter in E. destruct (ss_up S !! tok) as [u1|] eqn:Eu; [|discriminate].
      inversion E; subst u'. cbn. rewrite fn_lookup_insert. rewrite (W2 _ _ _ _ _ _ Eu Hi). reflexivity.
  - intros tok off j len st id key f E Hc Hb Hd. rewrite in_lab_call in Hc.
    destruct (done_step _ _ _ _ _ _ _ _ _ _ _ _ _ _ HL Hi St Hc Hd) as [Hd'|(-> & -> & -> & -> & Hlen & Hs)].
    + destruct (Hnew _ _ _ _ E) as [E'|(_ & u & Eu & Hx & _ & _)].
      * eapply W4; eassumption.
      * pose proof (W3 _ _ _ _ _ _ Eu Hc Hb Hd') as Hp. intros k b Hk. eapply Hx; eassumption.
    + exfalso. assert (Hs' : is_Some (ss_up S !! tok)).
      { destruct Hs as [Hs| ->]; [exact Hs|]. destruct (stream_bytes st); [contradiction|discriminate]. }
      destruct (Hnew _ _ _ _ E) as [E'|(_ & u & Eu & _ & _ & En)].
      * apply (g_ids _ _ _ _ HG) in E' as (_ & _ & E'). rewrite E' in Hs'. now apply is_Some_None in Hs'.
      * unfold on_part in En. cbn in En. rewrite lookup_alter, Eu in En. discriminate.
  - intros tok off j len st Hc H. rewrite in_lab_call in Hc. pose proof (step_ids _ _ _ _ _ _ _ St) as Hids.
    assert (Hold : forall tk, tk ∈ ss_ids S -> tk ∈ ss_ids S') by (intros tk; apply Hids). destruct H as [H|H].
    + destruct (decide (i = j)) as [<-|Hne].
      * rewrite list_lookup_insert in H by exact Hlt. inversion H; subst s'. inversion St; subst. cbn.
        match goal with H : is_open _ _ _ |- _ => destruct H as [Ho _] end. eapply g_toks; eassumption.
      * rewrite list_lookup_insert_ne in H by exact Hne. apply Hold. eapply W5; [exact Hc|]. now left.
    + destruct (done_step _ _ _ _ _ _ _ _ _ _ _ _ _ _ HL Hi St Hc H) as [Hd'|(-> & -> & _)].
      * apply Hold. eapply W5; [exact Hc|]. now right.
      * apply Hold. eapply W5; [exact Hc|]. now left.
Qed.

Lemma w_call ls S ps op B : LInv ls ps -> WInv ls S ps B -> WInv (ls ++ [LCall (length ps) op]) S (ps ++ [SCall op]) B.
Proof.
  intros HL [W1 W2 W3 W4 W5].
  assert (Hlt : forall j op', LCall j op' ∈ ls ++ [LCall (length ps) op] -> (j < length ps)%nat -> LCall j op' ∈ ls).
  { intros j op'. rewrite in_snoc. intros [H|H] Hj; [exact H|]. inversion H; subst. lia. }
  assert (Hps : forall j s, (ps ++ [SCall op]) !! j = Some s -> (forall op', s <> SCall op') -> ps !! j = Some s).
  { intros j s Hs Hn. apply lookup_app_Some in Hs as [Hs|[Hi Hs]]; [exact Hs|]. destruct (j - length ps)%nat eqn:E; [|destruct n; discriminate].
    inversion Hs; subst. now destruct (Hn op). }
  assert (Hd : forall j st, done_write (ls ++ [LCall (length ps) op]) (ps ++ [SCall op]) j st -> done_write ls ps j st /\ (j < length ps)%nat).
  { intros j st [H|H].
    - rewrite in_snoc in H. destruct H as [H|H]; [|discriminate]. split; [now left|]. destruct (l_vis _ _ HL _ _ H) as (s & Hs & _).
      eapply lookup_lt_Some; eassumption.
    - apply Hps in H; [|discriminate]. split; [now right|]. eapply lookup_lt_Some; eassumption. }
  split.
  - intros tok u off E. destruct (W1 _ _ off E) as [H|(i & len & st & s & H1 & H2 & H3)]; [now left|right].
    exists i, len, st, s. rewrite in_snoc. split; [now left|]. split; [now apply lookup_app_l_Some|exact H3].
  - intros tok u off i len st E H. apply Hps in H; [|discriminate]. eapply W2; eassumption.
  - intros tok u off i len st E Hc Hb H. apply Hd in H as [H Hi]. apply Hlt in Hc; [|exact Hi]. eapply W3; eassumption.
  - intros tok off i len st id key f E Hc Hb H. apply Hd in H as [H Hi]. apply Hlt in Hc; [|exact Hi]. eapply W4; eassumption.
  - intros tok off i len st Hc [H|H].
    + apply Hps in H; [|discriminate]. apply Hlt in Hc; [|eapply lookup_lt_Some; eassumption]. eapply W5; [exact Hc|now left].
    + apply Hd in H as [H Hi]. apply Hlt in Hc; [|exact Hi]. eapply W5; [exact Hc|now right].
Qed.

(** ** Whole histories *)
Definition written (ls : list label) (B : ghost) : Prop :=
  forall id key tok f i off data, B !! id = Some (key, tok, f) -> wrote_part ls i tok off data -> bytes_at f off data.
Lemma once_app a b : parts_written_once (a ++ b) -> parts_written_once a.
Proof. intros H i j tok off len st len' st' H1 H2. eapply H; apply elem_of_app; left; eassumption. Qed.

Theorem spec_history lpage ls z : spec_steps lpage {| z_state := ss_empty; z_procs := [] |} ls z ->
  exists B, LInv ls (z_procs z) /\ GInv ls (z_state z) (z_procs z) B /\ (parts_written_once ls -> WInv ls (z_state z) (z_procs z) B).
Proof.
  intros H. remember {| z_state := ss_empty; z_procs := [] |} as z0 eqn:E0. induction H as [z|z ls z1 l z2 H IH St].
  - subst z. exists ∅. cbn. split; [|split].
    + split; intros; match goal with H : _ ∈ [] |- _ => inversion H | H : [] !! _ = _ |- _ => discriminate H end.
    + split; cbn; intros; try (match goal with H : ∅ !! _ = _ |- _ => rewrite lookup_empty in H; discriminate H | H : [] !! _ = _ |- _ => discriminate H end).
      * destruct H as (? & ? & H). inversion H.
      * destruct H as (? & ? & H & _). inversion H.
      * destruct ls1; discriminate.
    + intros _. split; cbn; intros; try (match goal with H : ∅ !! _ = _ |- _ => rewrite lookup_empty in H; discriminate H | H : [] !! _ = _ |- _ => discriminate H | H : _ ∈ [] |- _ => inversion H end).
  - destruct (IH E0) as (B & HL & HG & HW). clear IH E0. destruct St as [z3 op|z3 i s S' s' v Hi St]; cbn [z_state z_procs].
    + exists B. split; [now apply l_call|]. split; [now apply g_call|]. intros Ho. apply w_call; [exact HL|]. eapply HW, once_app, Ho.
    + fold (lab i v). destruct (g_step _ _ _ _ _ _ _ _ _ _ HL HG Hi St) as (B' & Hgr & HG'). exists B'.
      split; [eapply l_step; eassumption|]. split; [exact HG'|]. intros Ho. apply once_app in Ho.
      eapply w_step; eauto.
Qed.

(** What a user sees. *)
Lemma seen_mono a b id : (forall x, x ∈ a -> x ∈ b) -> seen a id -> seen b id.
Proof. intros H (i & [(s & c & E)|(st & s & f & E)]); exists i; [left; eauto|right; exists st, s, f; auto]. Qed.

Theorem spec_reads lpage ls z : spec_steps lpage {| z_state := ss_empty; z_procs := [] |} ls z ->
  exists B : N -> N -> N,
    (forall ls1 i data ls2 id start, ls = ls1 ++ LVis i (VChunk data) :: ls2 -> reads ls1 i id start ->
       seen ls2 id \/ slive (z_state z) id -> bytes_at (B id) (start + N.of_nat (length (delivered i ls1))) data) /\
    (parts_written_once ls -> forall tok id i off data, committed_as ls tok id -> wrote_part ls i tok off data -> bytes_at (B id) off data) /\
    (forall key co, ss_com (z_state z) !! key = Some co -> forall i, B (co_id co) i = co_bytes co i).
Proof.
  intros H. destruct (spec_history _ _ _ H) as (B & HL & HG & HW).
  exists (fun id => match B !! id with Some (_, _, f) => f | None => fun _ => 0 end). split; [|split].
  - intros ls1 i data ls2 id start E Hr Hs. destruct (g_chunks _ _ _ _ HG _ _ _ _ _ _ E Hr Hs) as (key & tok & f & -> & Hb). exact Hb.
  - intros Ho tok id i off data Hc (len & st & Hcall & Hret & ->). destruct (g_commits _ _ _ _ HG _ _ Hc) as (key & f & E).
    rewrite E. destruct (decide (stream_bytes st = [])) as [->|Hne]; [intros k b Hk; destruct k; discriminate|].
    eapply (w_pub _ _ _ _ (HW Ho)); [exact E|exact Hcall|exact Hne|]. now left.
  - intros key co Hk i. destruct (g_com _ _ _ _ HG _ _ Hk) as [tok ->]. reflexivity.
Qed.

(** ** Histories in which internal steps are left out *)
Lemma visible_split ls a x b : visible ls = a ++ x :: b -> exists a' b', ls = a' ++ x :: b' /\ visible a' = a /\ visible b' = b.
Proof.
  revert a. induction ls as [|l ls IH]; intros a H; [destruct a; discriminate|]. unfold visible in *. cbn in H. destruct (is_visible l) eqn:El.
  - destruct a as [|l' a].
    + inversion H; subst. exists [], ls. auto.
    + cbn in H. inversion H; subst. destruct (IH _ ltac:(eassumption)) as (a' & b' & -> & <- & <-).
      exists (l' :: a'), b'. cbn. now rewrite El.
  - destruct (IH _ H) as (a' & b' & -> & <- & <-). exists (l :: a'), b'. cbn. now rewrite El.
Qed.
Lemma in_visible x ls : is_visible x = true -> x ∈ visible ls <-> x ∈ ls.
Proof.
  intros H. unfold visible. rewrite !elem_of_list_In, filter_In. tauto.
Qed.
Lemma reads_visible ls i id start : reads (visible ls) i id start <-> reads ls i id start.
Proof. unfold reads. setoid_rewrite in_visible; reflexivity. Qed.
Lemma seen_visible ls id : seen (visible ls) id <-> seen ls id.
Proof. unfold seen. setoid_rewrite reads_visible. setoid_rewrite in_visible; reflexivity. Qed.
Lemma delivered_visible i ls : delivered i (visible ls) = delivered i ls.
Proof. induction ls as [|l ls IH]; [reflexivity|]. destruct l as [|j [| |]|]; cbn; unfold visible in *; rewrite ?IH; reflexivity. Qed.
Lemma wrote_visible ls i tok off data : wrote_part (visible ls) i tok off data <-> wrote_part ls i tok off data.
Proof. unfold wrote_part. setoid_rewrite in_visible; reflexivity. Qed.
Lemma committed_visible ls tok id : committed_as (visible ls) tok id <-> committed_as ls tok id.
Proof. unfold committed_as. setoid_rewrite in_visible; reflexivity. Qed.
Lemma once_visible ls : parts_written_once (visible ls) <-> parts_written_once ls.
Proof. unfold parts_written_once. setoid_rewrite in_visible; reflexivity. Qed.

Lemma history_grows lpage ls1 z1 B1 ls2 z2 : LInv ls1 (z_procs z1) -> GInv ls1 (z_state z1) (z_procs z1) B1 -> spec_steps lpage z1 ls2 z2 ->
  exists B2, B1 ⊆ B2 /\ LInv (ls1 ++ ls2) (z_procs z2) /\ GInv (ls1 ++ ls2) (z_state z2) (z_procs z2) B2.
Proof.
  intros HL HG H. induction H as [z|z ls z1 l z2 H IH St].
  - exists B1. rewrite app_nil_r. auto.
  - destruct (IH HL HG) as (B & Hs & HL' & HG'). rewrite app_assoc. destruct St as [z3 op|z3 i s S' s' v Hi St]; cbn [z_state z_procs].
    + exists B. split; [exact Hs|]. split; [now apply l_call|now apply g_call].
    + fold (lab i v). destruct (g_step _ _ _ _ _ _ _ _ _ _ HL' HG' Hi St) as (B' & [Hgr _] & HG2). exists B'.
      split; [now transitivity B|]. split; [eapply l_step; eassumption|exact HG2].
Qed.
