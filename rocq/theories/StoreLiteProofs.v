(** The blobd-lite adapter keeps the contract of C64 while there is room: proofs. *)
From Coq Require Import ZifyBool ZifyNat ZifyN.
From stdpp Require Import base numbers option gmap functions sorting list.
From Verif Require Import Util Bytes BuddyModel BuddySpec BuddyProofs BuddyInv LayoutModel MetaModel PageIOModel PageIOSpec PageIOProofs PropertiesPageIO DirectModel DirectBase.
From Verif Require Import JournalModel JournalSpec JournalProofs LiteModel LiteSpec LiteJournal LiteNode LiteRecord LiteInv LiteSteps LiteSteps2 LiteLin LiteSim LiteSim2 LiteSim3 PropertiesLite.
From Verif Require Import StoreModel StoreSpec StoreProofs StoreS3 BenchProofs StoreLite StoreLiteSpec.
Open Scope N_scope.
Ltac Zify.zify_post_hook ::= idtac.

(** ** The bytes of an upload *)
Lemma upload_bytes chunk size parts (f : N -> option N) : 0 < chunk ->
  (forall off, off ∈ tiles chunk size -> exists d, parts !! off = Some d /\ blen d = N.min chunk (size - off) /\ forall i, i < blen d -> f (off + i) = d !! N.to_nat i) ->
  blen (upload_data chunk size parts) = size /\ forall i, i < size -> f i = upload_data chunk size parts !! N.to_nat i.
Proof.
  intros Hc Hall. unfold upload_data. unfold tiles at 1 2. fold (npt (cz chunk) size).
  assert (Hgen : forall n j, (j + n = npt (cz chunk) size)%nat ->
    let U := ((fun k => N.of_nat k * chunk) <$> seq j n) ≫= (fun off => default [] (parts !! off)) in
    blen U = size - N.of_nat j * chunk /\ forall i, N.of_nat j * chunk + i < size -> f (N.of_nat j * chunk + i) = U !! N.to_nat i).
  { induction n as [|n IH]; intros j Hj; cbn zeta.
    - assert (Hx : ~ (j < npt (cz chunk) size)%nat) by lia. rewrite (npt_lt (cz chunk) Hc (N.le_0_l _)) in Hx. cbn [cz sc_part] in Hx.
      cbn [seq fmap list_fmap mbind list_bind]. split; [unfold blen; cbn [length]; lia|intros; lia].
    - cbn [seq]. rewrite fmap_cons, bind_cons. destruct (IH (S j) ltac:(lia)) as [IHl IHf].
      set (U := ((fun k => N.of_nat k * chunk) <$> seq (S j) n) ≫= _) in *.
      assert (Hlt : (j < npt (cz chunk) size)%nat) by lia. destruct (Hall (N.of_nat j * chunk)) as (d & -> & Hl & Hf).
      { apply (tiles_in (cz chunk) Hc (N.le_0_l _) size). exists j. split; [exact Hlt|reflexivity]. }
      apply (npt_lt (cz chunk) Hc (N.le_0_l _)) in Hlt. cbn [cz sc_part] in Hlt. cbn [default from_option id]. unfold blen in *. rewrite app_length. split; [lia|].
      intros i Hi. destruct (N.lt_ge_cases i (N.of_nat (length d))) as [Hid|Hid].
      + rewrite (Hf i Hid). rewrite lookup_app_l by lia. reflexivity.
      + rewrite lookup_app_r by lia. replace (N.of_nat j * chunk + i) with (N.of_nat (S j) * chunk + (i - N.of_nat (length d))) by lia. rewrite IHf by lia. f_equal. lia. }
  destruct (Hgen (npt (cz chunk) size) 0%nat eq_refl) as [H1 H2]. split; [etransitivity; [exact H1|lia]|]. intros i Hi. apply (H2 i). lia.
Qed.

(** ** The journal gets to every signal *)
Definition quiet (e : jevent) : Prop := match e with JCommit _ _ => False | _ => True end.
Lemma jrun_app c l : forall j l', jrun c j (l ++ l') = match jrun c j l with Some j' => jrun c j' l' | None => None end.
Proof. induction l as [|e l IH]; intros j l'; [reflexivity|]. cbn [app jrun]. destruct (jstep c j e); [apply IH|reflexivity]. Qed.
(** [reach_by P]: some journal steps lead to a state with [P]. *)
Definition leads (c : jconf) (j : jstate) (P : jstate -> Prop) : Prop := exists es j', Forall quiet es /\ jrun c j es = Some j' /\ P j'.
Lemma leads_step c j e j1 P : quiet e -> jstep c j e = Some j1 -> leads c j1 P -> leads c j P.
Proof. intros Hq E (es & j' & H1 & H2 & H3). exists (e :: es), j'. split; [now constructor|]. split; [cbn [jrun]; rewrite E; exact H2|exact H3]. Qed.
Lemma leads_trans c j P Q : leads c j P -> (forall j', P j' -> leads c j' Q) -> leads c j Q.
Proof.
  intros (es & j1 & H1 & H2 & H3) H. destruct (H j1 H3) as (es' & j2 & G1 & G2 & G3). exists (es ++ es'), j2. split; [apply Forall_app; auto|]. split; [rewrite jrun_app, H2; exact G2|exact G3].
Qed.
Lemma leads_idle c : forall j, leads c j (fun j' => js_flusher j' = FIdle /\ js_pending j' = js_pending j /\ js_queue j' = js_queue j /\
   (forall x, x ∈ js_acked j -> x ∈ js_acked j') /\
   forall x, match js_flusher j with FGot p => x ∈ pj_signals p | FEntries _ sigs => x ∈ sigs | _ => False end -> x ∈ js_acked j').
Proof.
  assert (Hs : forall j, js_flusher j = FSignalled -> leads c j (fun j' => js_flusher j' = FIdle /\ js_pending j' = js_pending j /\ js_queue j' = js_queue j /\ js_acked j' = js_acked j)).
  { intros j E. eapply (leads_step c j JBlank); [exact I|unfold jstep; rewrite E; reflexivity|]. exists [], (set_flusher j (dev_write (js_dev j) (jc_off c) (blank_state c)) (js_queue j) FIdle (js_in_queue j - 1) (js_acked j)).
    split; [constructor|]. split; [reflexivity|]. repeat split. }
  assert (He : forall rest sigs j, js_flusher j = FEntries rest sigs -> leads c j (fun j' => js_flusher j' = FIdle /\ js_pending j' = js_pending j /\ js_queue j' = js_queue j /\ js_acked j' = js_acked j ++ sigs)).
  { induction rest as [|w rest IH]; intros sigs j E.
    - eapply (leads_step c j JSignal); [exact I|unfold jstep; rewrite E; reflexivity|]. eapply leads_trans; [apply Hs; reflexivity|]. intros j' H. exists [], j'. split; [constructor|]. split; [reflexivity|]. exact H.
    - eapply (leads_step c j (JWriteEntry 0)); [exact I|unfold jstep; rewrite E; reflexivity|]. eapply leads_trans; [apply (IH sigs); reflexivity|]. intros j' H. exists [], j'. split; [constructor|]. split; [reflexivity|]. exact H. }
  intros j. destruct (js_flusher j) as [|p|rest sigs|] eqn:E.
  - exists [], j. split; [constructor|]. split; [reflexivity|]. repeat split; auto. contradiction.
  - eapply (leads_step c j JWriteJournal); [exact I|unfold jstep; rewrite E; reflexivity|]. eapply leads_trans; [eapply He; reflexivity|]. intros j' (H1 & H2 & H3 & H4). exists [], j'. split; [constructor|]. split; [reflexivity|].
    cbn [set_flusher js_pending js_queue js_acked] in *. rewrite H4. repeat split; auto; intros x Hx; apply elem_of_app; auto.
  - eapply leads_trans; [eapply He; exact E|]. intros j' (H1 & H2 & H3 & H4). exists [], j'. split; [constructor|]. split; [reflexivity|]. rewrite H4. repeat split; auto; intros x Hx; apply elem_of_app; auto.
  - eapply leads_trans; [eapply Hs; exact E|]. intros j' (H1 & H2 & H3 & H4). exists [], j'. split; [constructor|]. split; [reflexivity|]. rewrite H4. repeat split; auto. contradiction.
Qed.
Lemma leads_queue c : forall q j, js_flusher j = FIdle -> js_queue j = q -> leads c j (fun j' => forall x p, p ∈ q -> x ∈ pj_signals p -> x ∈ js_acked j').
Proof.
  assert (G : forall q j (acc : list nat), js_flusher j = FIdle -> js_queue j = q -> (forall x, x ∈ acc -> x ∈ js_acked j) ->
    leads c j (fun j' => (forall x, x ∈ acc -> x ∈ js_acked j') /\ forall x p, p ∈ q -> x ∈ pj_signals p -> x ∈ js_acked j')).
  { induction q as [|p q IH]; intros j acc Ef Eq Ha.
    - exists [], j. split; [constructor|]. split; [reflexivity|]. split; [exact Ha|]. intros x p Hp. inversion Hp.
    - eapply (leads_step c j JRecv); [exact I|unfold jstep; rewrite Ef, Eq; reflexivity|]. eapply leads_trans; [apply leads_idle|].
      intros j' (H1 & H2 & H3 & H4 & H5). cbn [set_flusher js_flusher js_queue js_acked] in *.
      eapply leads_trans; [apply (IH j' (acc ++ pj_signals p) H1 H3)|].
      + intros x Hx. apply elem_of_app in Hx as [Hx|Hx]; [apply H4, Ha, Hx|apply H5, Hx].
      + intros j2 [G1 G2]. exists [], j2. split; [constructor|]. split; [reflexivity|]. split; [intros x Hx; apply G1, elem_of_app; auto|].
        intros x p' Hp Hx. apply elem_of_cons in Hp as [->|Hp]; [apply G1, elem_of_app; auto|eapply G2; eassumption]. }
  intros q j Ef Eq. eapply leads_trans; [apply (G q j []); [exact Ef|exact Eq|intros x Hx; inversion Hx]|]. intros j' [_ H]. exists [], j'. split; [constructor|]. split; [reflexivity|]. exact H.
Qed.
(** A signal that waits is given. *)
Lemma leads_signal c j n : n ∈ pj_signals (js_pending j) -> leads c j (fun j' => n ∈ js_acked j').
Proof.
  intros Hn. eapply (leads_step c j JTick); [exact I| |].
  - unfold jstep. destruct (js_flusher j); (destruct (pj_signals (js_pending j)) eqn:E; [exfalso; inversion Hn|reflexivity]).
  - eapply leads_trans; [apply leads_idle|]. intros j1 (H1 & _ & H3 & _ & _). cbn [send_pending js_queue] in H3.
    eapply leads_trans; [eapply leads_queue; [exact H1|exact H3]|]. intros j2 H. exists [], j2. split; [constructor|]. split; [reflexivity|].
    apply (H n (js_pending j)); [apply elem_of_app; right; constructor|exact Hn].
Qed.

(** ** Runs of the store *)
Lemma lrun_app c es : forall s es', lrun c s (es ++ es') = '(s1, o1) ← lrun c s es; '(s2, o2) ← lrun c s1 es'; Some (s2, o1 ++ o2).
Proof.
  induction es as [|e es IH]; intros s es'; cbn [app lrun].
  - cbn [mbind option_bind]. destruct (lrun c s es') as [[s2 o2]|]; reflexivity.
  - destruct (lstep c s e) as [[s1 o1]|]; [|reflexivity]. cbn [mbind option_bind]. rewrite IH. destruct (lrun c s1 es) as [[s2 o2]|]; [|reflexivity]. cbn [mbind option_bind].
    destruct (lrun c s2 es') as [[s3 o3]|]; [|reflexivity]. cbn [mbind option_bind]. now rewrite app_assoc.
Qed.
Lemma lrun_journal c a o cs u es : forall j j', Forall quiet es -> jrun (li_jc c) j es = Some j' -> lrun c (mk j a o cs u) (LJ <$> es) = Some (mk j' a o cs u, []).
Proof.
  induction es as [|e es IH]; intros j j' Hq E; [injection E as <-; reflexivity|]. apply Forall_cons in Hq as [Hq0 Hq]. cbn [jrun] in E. destruct (jstep (li_jc c) j e) as [j1|] eqn:E1; [|discriminate].
  rewrite fmap_cons. cbn [lrun]. assert (Es : lstep c (mk j a o cs u) (LJ e) = Some (mk j1 a o cs u, [])).
  { destruct e; try contradiction; cbn [lstep mk ls_j]; rewrite E1; reflexivity. }
  rewrite Es. cbn [mbind option_bind]. rewrite (IH j1 j' Hq E). reflexivity.
Qed.
Lemma signal_pending c j t seen : t <> [] -> js_next j ∈ pj_signals (js_pending (commit_transaction c j t seen)).
Proof.
  intros Ht. unfold commit_transaction. destruct t as [|w t]; [congruence|]. cbn zeta. cbn [js_pending pj_signals].
  destruct (_ || _); cbn [send_pending js_next]; apply elem_of_app; right; constructor.
Qed.
(** A call that waits for the journal is brought to its end, or panics. *)
Lemma finishes c s i b sig tks free : ls_calls s !! i = Some (LWait b sig tks free) ->
  match sig with Some n => n ∈ pj_signals (js_pending (ls_j s)) | None => True end ->
  (forall k cl, ls_calls s !! k = Some cl -> k = i \/ cl = LDone) ->
  exists es s' obs, Forall background es /\ lrun c s es = Some (s', obs) /\ (obs = [] /\ idle s' \/ obs = [OPanic]).
Proof.
  intros Hi Hs Hd. destruct s as [j a o cs u]. cbn [ls_calls ls_j] in *. fold (mk j a o cs u).
  assert (Hj : exists es j', Forall quiet es /\ jrun (li_jc c) j es = Some j' /\ match sig with Some n => n ∈ js_acked j' | None => True end).
  { destruct sig as [n|]; [exact (leads_signal (li_jc c) j n Hs)|]. exists [], j. split; [constructor|]. auto. }
  destruct Hj as (es & j' & Hq & Ej & Ha).
  assert (Hfin : exists s' obs, lstep c (mk j' a o cs u) (LFinish i) = Some (s', obs) /\ (obs = [] /\ idle s' \/ obs = [OPanic])).
  { cbn [lstep mk ls_calls]. rewrite Hi. unfold do_finish. cbn [ls_j].
    cbn [mk ls_j ls_alloc ls_ov ls_calls ls_used]. assert (Eif : forall (X Y : option (lstate * list lobs)), (if match sig with Some n => bool_decide (n ∈ js_acked j') | None => true end then X else Y) = X).
    { intros X Y. destruct sig as [n|]; [|reflexivity]. rewrite bool_decide_eq_true_2 by exact Ha. reflexivity. }
    rewrite Eif. clear Eif. destruct (release_all a free) as [a'| |]; [|do 2 eexists; split; [reflexivity|right; reflexivity]..].
    do 2 eexists. split; [reflexivity|]. left. split; [reflexivity|]. intros k cl Hk. cbn [mk ls_calls] in Hk.
    destruct (decide (k = i)) as [->|Hn]; [rewrite list_lookup_insert in Hk by (eapply lookup_lt_Some, Hi); congruence|]. rewrite list_lookup_insert_ne in Hk by congruence. destruct (Hd k cl Hk); [congruence|assumption]. }
  destruct Hfin as (s' & obs & Ef & Hobs). exists ((LJ <$> es) ++ [LFinish i]), s', obs. split; [|split; [|exact Hobs]].
  - apply Forall_app. split; [apply Forall_fmap, Forall_true; intros; exact I|repeat constructor].
  - rewrite lrun_app, (lrun_journal c a o cs u es j j' Hq Ej). cbn [mbind option_bind lrun]. rewrite Ef. cbn [mbind option_bind]. rewrite !app_nil_r. reflexivity.
Qed.

(** What the later steps of calls make observable. *)
Definition makes (P : create_req -> Prop) (s : lstate) : Prop :=
  forall i cl, ls_calls s !! i = Some cl -> match cl with LNew r _ _ _ | LRec r _ _ _ => P r | _ => True end.
Definition made (P : create_req -> Prop) (o : lobs) : Prop := o = OPanic \/ exists r, P r /\ o = OCreate (cr_key r) (cr_size r) (cr_id r).
Lemma makes_insert (P : create_req -> Prop) s j a o u i cl0 : makes P s -> match cl0 with LNew r _ _ _ | LRec r _ _ _ => P r | _ => True end -> makes P (mk j a o (<[i := cl0]> (ls_calls s)) u).
Proof.
  intros H H0 k cl Hk. cbn [mk ls_calls] in Hk. destruct (decide (k = i)) as [->|Hn].
  - destruct (decide (i < length (ls_calls s))%nat) as [Hl|Hl]; [rewrite list_lookup_insert in Hk by exact Hl; injection Hk as <-; exact H0|]. rewrite list_insert_ge in Hk by lia. exact (H i cl Hk).
  - rewrite list_lookup_insert_ne in Hk by congruence. exact (H k cl Hk).
Qed.
Lemma background_step P c s e s' obs : background e -> makes P s -> lstep c s e = Some (s', obs) -> makes P s' /\ Forall (made P) obs /\ ls_used s' = ls_used s.
Proof.
  intros Hb HP E. destruct e; try contradiction; cbn [lstep] in E.
  - destruct (ls_calls s !! i) as [[r raw p off| | |]|] eqn:Ei; try discriminate. injection E as <- <-. split; [|split; [constructor|reflexivity]]. apply makes_insert; [exact HP|]. exact (HP i _ Ei).
  - destruct (ls_calls s !! i) as [[|r raw p off| |]|] eqn:Ei; try discriminate. assert (E' : do_link c s i r off seen = (s', obs)) by congruence. clear E. rename E' into E. unfold do_link in E.
    destruct (update_head _ _ _ _) as [[o1 t1] tk1]. destruct (ov_set_next _ _ _) as [o2 tk2]. destruct (do_txn _ _ _ _) as [j sig]. apply pair_equal_spec in E as [<- <-].
    split; [apply makes_insert; [exact HP|exact I]|]. split; [|reflexivity]. constructor; [|constructor]. right. exists r. split; [exact (HP i _ Ei)|reflexivity].
  - destruct (ls_calls s !! i) as [[| |b sig tks free|]|] eqn:Ei; try discriminate. unfold do_finish in E. destruct (match sig with Some n => _ | None => _ end); [|discriminate].
    destruct (release_all _ _) as [a'| |]; injection E as <- <-.
    + split; [apply makes_insert; [exact HP|exact I]|]. split; [constructor|reflexivity].
    + split; [exact HP|]. split; [constructor; [left; reflexivity|constructor]|reflexivity].
    + split; [exact HP|]. split; [constructor; [left; reflexivity|constructor]|reflexivity].
  - assert (E' : (j ← jstep (li_jc c) (ls_j s) e; Some (mk j (ls_alloc s) (ls_ov s) (ls_calls s) (ls_used s), [])) = Some (s', obs)) by (destruct e; try discriminate; exact E).
    destruct (jstep (li_jc c) (ls_j s) e) as [j|]; [|discriminate]. injection E' as <- <-. split; [exact HP|]. split; [constructor|reflexivity].
Qed.
Lemma background_run P c es : forall s s' obs, Forall background es -> makes P s -> lrun c s es = Some (s', obs) -> Forall (made P) obs /\ ls_used s' = ls_used s.
Proof.
  induction es as [|e es IH]; intros s s' obs Hb HP E; [injection E as <- <-; split; [constructor|reflexivity]|]. apply Forall_cons in Hb as [Hb0 Hb]. cbn [lrun] in E.
  destruct (lstep c s e) as [[s1 o1]|] eqn:E1; [|discriminate]. cbn [mbind option_bind] in E. destruct (lrun c s1 es) as [[s2 o2]|] eqn:E2; [|discriminate]. injection E as <- <-.
  destruct (background_step P c s e s1 o1 Hb0 HP E1) as (H1 & H2 & H3). destruct (IH s1 s2 o2 Hb H1 E2) as [H4 H5]. split; [apply Forall_app; auto|congruence].
Qed.
Lemma background_one c es : forall s, Forall background es -> one_by_one c s es.
Proof.
  induction es as [|e es IH]; intros s H; [exact I|]. apply Forall_cons in H as [H0 H]. cbn [one_by_one]. split; [destruct e; exact I || contradiction|]. destruct (lstep c s e) as [[s' o]|]; [apply IH, H|exact I].
Qed.
Lemma background_ok c es : Forall background es -> Forall (event_ok c) es.
Proof. intros H. eapply Forall_impl; [exact H|]. intros e. destruct e; cbn; auto; contradiction. Qed.

(** ** What the store has for a key *)
Definition held (lpage : N) (st : sstore) (key : list N) (k : kstate) : Prop :=
  match k with
  | KAbsent => ss_com st !! key = None
  | KUpload tok size parts => ss_com st !! key = None /\ size < 2 ^ 40 /\ exists o, ss_inc st !! tok = Some (key, o) /\ so_size o = size /\
      forall off d, parts !! off = Some d -> off ∈ tiles (2 ^ lpage) size /\ blen d = N.min (2 ^ lpage) (size - off) /\ forall i, i < blen d -> so_bytes o (off + i) = d !! N.to_nat i
  | KStored d => exists o, ss_com st !! key = Some o /\ so_size o = blen d /\ forall i, i < blen d -> so_bytes o i = d !! N.to_nat i
  end.
(** The observation of a call. *)
Definition obs_of (op : sop) (o : lobs) : Prop :=
  match op with
  | SoCreate key size => (exists id, o = OCreate key size id) \/ o = OFull key size \/ o = OTooLarge key size []
  | SoWrite key tok off data => exists r, o = OWrite key tok off (blen data) [Data data] r
  | SoCommit key tok => exists b, o = OCommit key tok b
  | SoInspect key => exists r, o = OInspect key None r
  | SoRead key start fin => exists r, o = ORead key None start fin r
  | SoDelete key => exists b, o = ODelete key None b
  end.
Lemma tile_aligned chunk size off : 0 < chunk -> off ∈ tiles chunk size -> off mod chunk = 0 /\ off < size.
Proof.
  intros Hc H. apply elem_of_list_lookup in H as [j H]. apply tiles_lookup in H as [-> H]; [|exact Hc]. split; [apply N.mod_mul; lia|exact H].
Qed.
Lemma tiles_apart chunk size a b : 0 < chunk -> a ∈ tiles chunk size -> b ∈ tiles chunk size -> a <> b -> a + chunk <= b \/ b + chunk <= a.
Proof.
  intros Hc Ha Hb Hn. apply elem_of_list_lookup in Ha as [i Ha]. apply elem_of_list_lookup in Hb as [j Hb].
  apply tiles_lookup in Ha as [-> _]; [|exact Hc]. apply tiles_lookup in Hb as [-> _]; [|exact Hc].
  assert (i <> j) by congruence. destruct (decide (i < j)%nat).
  - left. assert (H1 : (N.of_nat i + 1) * chunk <= N.of_nat j * chunk) by (apply N.mul_le_mono_r; lia). lia.
  - right. assert (H1 : (N.of_nat j + 1) * chunk <= N.of_nat i * chunk) by (apply N.mul_le_mono_r; lia). lia.
Qed.
Lemma one_data data : stream_bytes [Data data] = data.
Proof. cbn. apply app_nil_r. Qed.
Lemma find_com st key o : ss_com st !! key = Some o -> ss_find st key None = Some o.
Proof. intros H. unfold ss_find. rewrite H. reflexivity. Qed.
Lemma incomplete_of st key id o : ss_inc st !! id = Some (key, o) -> ss_incomplete st key id = Some o.
Proof. intros H. unfold ss_incomplete. rewrite H. cbn. now rewrite bool_decide_eq_true_2. Qed.

Lemma held_step lpage st (F : list N -> kstate) op o st' : lpage < 32 -> (forall key, held lpage st key (F key)) ->
  allowed (2 ^ lpage) (F (op_key op)) op -> lite_ok (F (op_key op)) op -> obs_of op o -> sstep lpage st o st' ->
  (exists a, lite_answer o = Some a /\ right (F (op_key op)) op a /\ forall key, held lpage st' key ((<[op_key op := next (2 ^ lpage) (F (op_key op)) op a]> F) key)) \/
  (lite_answer o = None /\ exists key size, op = SoCreate key size).
Proof.
  intros Hlp HF Hal Hok Hob Hst. assert (Hch : 0 < 2 ^ lpage) by (apply N.neq_0_lt_0, N.pow_nonzero; lia).
  pose proof (HF (op_key op)) as Hk. set (chunk := 2 ^ lpage) in *.
  assert (Hother : forall key k2, (forall key', key <> key' -> held lpage st' key' (F key')) -> held lpage st' key k2 -> forall key', held lpage st' key' ((<[key := k2]> F) key')).
  { intros key k2 H1 H2 key'. destruct (decide (key = key')) as [<-|Hn]; [now rewrite fn_insert_eq|]. rewrite fn_insert_ne by exact Hn. now apply H1. }
  destruct op as [key size|key tok off data|key tok|key|key start fin|key]; cbn [op_key allowed lite_ok obs_of right] in *.
  - destruct (F key) eqn:EF; try contradiction. cbn [held] in Hk. destruct Hob as [[id ->]|[-> | ->]]; [|right; cbn; eauto..].
    left. exists (AnToken id). split; [reflexivity|]. split; [eauto|]. inversion Hst as [k0 s0 i0 Hni Hnc| | | | | | | | | | | | | |]; subst. cbn [next].
    apply (Hother key).
    + intros key' Hn. specialize (HF key'). destruct (F key') as [|tok sz parts|d]; cbn [held ss_inc ss_com] in *; [exact HF| |exact HF].
      destruct HF as (H1 & H2 & o & H3 & H4). split; [exact H1|]. split; [exact H2|]. exists o. rewrite lookup_insert_ne by congruence. auto.
    + cbn [held ss_inc ss_com]. split; [exact Hk|]. split; [apply Hok|]. eexists. rewrite lookup_insert. split; [reflexivity|]. split; [reflexivity|]. intros off d H. rewrite lookup_empty in H. discriminate.
  - destruct (F key) as [|tok' size parts|] eqn:EF; try contradiction. destruct Hal as (-> & Hin & Hnew & Hlen), Hob as [r ->], Hk as (Hcom & Hsz & o & Ho & Hos & Hby).
    destruct (tile_aligned chunk size off Hch Hin) as [Hmod Hlt]. left. exists AnUnit. pose proof (incomplete_of _ _ _ _ Ho) as Hi.
    assert (Hvp : valid_part lpage size off (blen data)) by (split; [exact Hmod|]; fold chunk; lia).
    assert (Hne : data <> []) by (intros ->; unfold blen in Hlen; cbn in Hlen; lia).
    inversion Hst as [| | | | | | | |k0 i0 o0 l0 s0 ob H1 H2 H3 H4|k0 i0 o0 l0 s0 e ob H1 H2|k0 i0 o0 l0 s0 r0 ob H1 H2 H3|k0 i0 o0 l0 s0 H1| | |]; subst.
    + split; [reflexivity|]. split; [reflexivity|]. rewrite Hi in H1. injection H1 as <-. cbn [next]. rewrite one_data in *. apply (Hother key).
      * intros key' Hn. specialize (HF key'). destruct (F key') as [|tok sz parts'|d]; cbn [held ss_inc ss_com] in *; [exact HF| |exact HF].
        destruct HF as (G1 & G2 & o' & G3 & G4). split; [exact G1|]. split; [exact G2|]. exists o'. rewrite lookup_insert_ne by (intros ->; congruence). auto.
      * cbn [held ss_inc ss_com]. split; [exact Hcom|]. split; [exact Hsz|]. exists (put o off data). rewrite lookup_insert. split; [reflexivity|]. split; [reflexivity|].
        intros off' d'. rewrite lookup_insert_Some. intros [[<- <-]|[Hno Hp]].
        -- split; [exact Hin|]. split; [exact Hlen|]. intros i Hi'. cbn [put so_bytes]. fold (blen data). destruct (N.leb_spec off (off + i)); [|lia]. destruct (N.ltb_spec (off + i) (off + blen data)); [|lia]. cbn [andb]. f_equal. lia.
        -- destruct (Hby off' d' Hp) as (B1 & B2 & B3). split; [exact B1|]. split; [exact B2|]. intros i Hi'. cbn [put so_bytes]. fold (blen data). rewrite <- (B3 i Hi').
           destruct (tiles_apart chunk _ _ _ Hch Hin B1 Hno); destruct (N.leb_spec off (off' + i)); destruct (N.ltb_spec (off' + i) (off + blen data)); cbn [andb]; try reflexivity; fold chunk in B2; lia.
    + exfalso. rewrite Hi in H1. injection H1 as <-. destruct Hvp as [V1 V2]. destruct e; cbn [part_error] in H2; try contradiction; fold chunk in H2, V2; try congruence; lia.
    + exfalso. destruct H3 as [H3|H3|H3]; [apply elem_of_list_singleton in H3; discriminate|rewrite one_data in H3; contradiction|apply elem_of_list_singleton in H3; congruence].
    + exfalso. congruence.
  - destruct (F key) as [|tok' size parts|] eqn:EF; try contradiction. destruct Hal as (-> & Hall), Hob as [b ->], Hk as (Hcom & Hsz & o & Ho & Hos & Hby). left. exists AnUnit.
    pose proof (incomplete_of _ _ _ _ Ho) as Hi. inversion Hst as [| | |k0 i0 ob H1|k0 i0 H1| | | | | | | | | |]; subst; [|exfalso; congruence]. rewrite Hi in H1. injection H1 as <-.
    split; [reflexivity|]. split; [reflexivity|]. cbn [next]. apply (Hother key).
    + intros key' Hn. specialize (HF key'). destruct (F key') as [|tok sz parts'|d]; cbn [held ss_inc ss_com] in *; rewrite ?(lookup_insert_ne (ss_com st)) by exact Hn; [exact HF| |exact HF].
      destruct HF as (G1 & G2 & o' & G3 & G4). split; [exact G1|]. split; [exact G2|]. exists o'. rewrite lookup_delete_ne by (intros ->; congruence). auto.
    + cbn [held ss_com]. exists o. rewrite lookup_insert. split; [reflexivity|].
      destruct (upload_bytes chunk (so_size o) parts (so_bytes o) Hch) as [U1 U2].
      { intros off Hoff. destruct (Hall off Hoff) as [d Hd]. exists d. split; [exact Hd|]. apply (Hby off d Hd). }
      rewrite U1. auto.
  - destruct (F key) as [| |d] eqn:EF; try contradiction. destruct Hob as [r ->], Hk as (o & Ho & Hs & Hb). left. exists (AnSize (blen d)). pose proof (find_com _ _ _ Ho) as Hf.
    inversion Hst as [| | | | | | |k0 oid| | | | | | |]; subst. rewrite Hf. cbn [fmap option_fmap option_map lite_answer]. rewrite Hs. split; [reflexivity|]. split; [reflexivity|].
    cbn [next]. apply (Hother key); [intros; apply HF|]. cbn [held]. eauto.
  - destruct (F key) as [| |d] eqn:EF; try contradiction. destruct Hob as [r ->], Hk as (o & Ho & Hs & Hb). left. pose proof (find_com _ _ _ Ho) as Hf.
    inversion Hst as [| | | | | | | | | | | |k0 oid s0 f0 ob l H1 H2 H3 H4|k0 oid s0 f0 ob H1 H2|k0 oid s0 f0 H1]; subst; [| |exfalso; congruence].
    + rewrite Hf in H1. injection H1 as <-. rewrite Hs in *. exists (AnData l). split; [reflexivity|]. split.
      * f_equal. apply list_eq. intros i. unfold bytes_from, blen in *. destruct (decide (i < length l)%nat) as [Hi|Hi].
        -- rewrite lookup_take by lia. rewrite lookup_drop. destruct (lookup_lt_is_Some_2 d (N.to_nat start + i)) as [v Hv]; [lia|]. rewrite Hv.
           rewrite <- (H4 (start + N.of_nat i) v); [f_equal; lia|lia|]. rewrite Hb by lia. rewrite <- Hv. f_equal. lia.
        -- rewrite !lookup_ge_None_2; [reflexivity|rewrite take_length, drop_length; lia|lia].
      * cbn [next]. apply (Hother key); [intros; apply HF|]. cbn [held]. eauto.
    + exfalso. rewrite Hf in H1. injection H1 as <-. rewrite Hs in H2. lia.
  - destruct (F key) as [| |d] eqn:EF; try contradiction. destruct Hob as [r ->], Hk as (o & Ho & Hs & Hb). left. exists AnUnit. pose proof (find_com _ _ _ Ho) as Hf.
    inversion Hst as [| | | | |k0 oid ob H1|k0 oid H1| | | | | | | |]; subst; [|exfalso; congruence]. split; [reflexivity|]. split; [reflexivity|]. cbn [next]. apply (Hother key).
    + intros key' Hn. specialize (HF key'). destruct (F key') as [|tok sz parts'|d']; cbn [held ss_inc ss_com] in *; rewrite ?(lookup_delete_ne (ss_com st)) by exact Hn; exact HF.
    + cbn [held ss_com]. apply lookup_delete.
Qed.

(** ** The adapter *)
Lemma no_panic lpage st obs st' : ssteps lpage st obs st' -> OPanic ∉ obs.
Proof. induction 1 as [|st o st1 os st2 H _ IH]; intros Hin; [inversion Hin|]. apply elem_of_cons in Hin as [<-|Hin]; [inversion H|exact (IH Hin)]. Qed.
Definition begun (op : sop) (r : create_req) : Prop := match op with SoCreate key size => cr_key r = key /\ cr_size r = size | _ => False end.
Lemma idle_makes P s : idle s -> makes P s.
Proof. intros H i cl Hi. rewrite (H i cl Hi). exact I. Qed.
Lemma makes_snoc (P : create_req -> Prop) s j a o u cl0 : idle s -> match cl0 with LNew r _ _ _ | LRec r _ _ _ => P r | _ => True end -> makes P (mk j a o (ls_calls s ++ [cl0]) u).
Proof.
  intros H H0 i cl Hi. cbn [mk ls_calls] in Hi. apply lookup_app_Some in Hi as [Hi|[_ Hi]]; [rewrite (H i cl Hi); exact I|]. apply list_lookup_singleton_Some in Hi as [_ <-]. exact H0.
Qed.
(** The step that starts a call. *)
Lemma start_step c s op e s1 o1 : idle s -> lite_event op e -> lstep c s e = Some (s1, o1) ->
  makes (begun op) s1 /\ (length (ls_used s1) <= S (length (ls_used s)))%nat /\
  (o1 = [OPanic] \/ (exists o, o1 = [o] /\ obs_of op o) \/ o1 = [] /\ exists key size, op = SoCreate key size).
Proof.
  intros Hid He E. destruct op as [key size|key tok off data|key tok|key|key start fin|key]; cbn [lite_event] in He.
  - destruct He as (id & ms & _ & _ & ->). cbn [lstep] in E. unfold do_create in E.
    destruct (bool_decide (id ∈ ls_used s)); [discriminate|]. cbn zeta in E.
    assert (Hstay : forall o, stay s o = Some (s1, o1) -> makes (begun (SoCreate key size)) s1 /\ (length (ls_used s1) <= S (length (ls_used s)))%nat /\ o1 = [o]).
    { intros o Es. injection Es as <- <-. split; [now apply idle_makes|]. split; [lia|reflexivity]. }
    destruct (calc_object_layout _ _ _ _) as [[lcount t]|]; [|destruct (create_record _ _ _) as [[|raw0 p0]|]; destruct (Hstay _ E) as (G1 & G2 & ->); (split; [exact G1|]; split; [exact G2|]; cbn [obs_of]; eauto 10)].
    destruct (create_record _ _ _) as [[|raw0 p0]|]; [destruct (Hstay _ E) as (G1 & G2 & ->); (split; [exact G1|]; split; [exact G2|]; cbn [obs_of]; eauto 10)| |destruct (Hstay _ E) as (G1 & G2 & ->); (split; [exact G1|]; split; [exact G2|]; cbn [obs_of]; eauto 10)].
    destruct (tps_collect t) as [l|]; [|destruct (Hstay _ E) as (G1 & G2 & ->); (split; [exact G1|]; split; [exact G2|]; cbn [obs_of]; eauto 10)].
    destruct (alloc_list _ _) as [a [offs|]].
    + destruct (drop _ offs) as [|off [|]]; [destruct (Hstay _ E) as (G1 & G2 & ->); (split; [exact G1|]; split; [exact G2|]; cbn [obs_of]; eauto 10)| |destruct (Hstay _ E) as (G1 & G2 & ->); (split; [exact G1|]; split; [exact G2|]; cbn [obs_of]; eauto 10)].
      destruct (create_record _ _ _) as [[|raw pw]|]; [destruct (Hstay _ E) as (G1 & G2 & ->); (split; [exact G1|]; split; [exact G2|]; cbn [obs_of]; eauto 10)| |destruct (Hstay _ E) as (G1 & G2 & ->); (split; [exact G1|]; split; [exact G2|]; cbn [obs_of]; eauto 10)].
      apply (inj Some), pair_equal_spec in E as [<- <-]. split; [apply makes_snoc; [exact Hid|cbn; auto]|]. split; [cbn [mk ls_used length]; lia|]. right; right. eauto.
    + apply (inj Some), pair_equal_spec in E as [<- <-]. split; [intros i cl Hi; cbn [mk ls_calls] in Hi; rewrite (Hid i cl Hi); exact I|]. split; [cbn [mk ls_used]; lia|]. right; left. eexists. split; [reflexivity|]. cbn; auto.
  - destruct He as (fuel & steps & ->). cbn [lstep] in E. unfold do_write in E.
    assert (Hstay : forall o, stay s o = Some (s1, o1) -> makes (begun (SoWrite key tok off data)) s1 /\ (length (ls_used s1) <= S (length (ls_used s)))%nat /\ o1 = [o]).
    { intros o Es. injection Es as <- <-. split; [now apply idle_makes|]. split; [lia|reflexivity]. }
    destruct (find_object _ _ _ _ _ _) as [| |[f|]]; [discriminate|destruct (Hstay _ E) as (G1 & G2 & ->); (split; [exact G1|]; split; [exact G2|]; auto)| |destruct (Hstay _ E) as (G1 & G2 & ->); (split; [exact G1|]; split; [exact G2|]; cbn; eauto 10)].
    destruct (mbind _ _) as [ob|]; [|destruct (Hstay _ E) as (G1 & G2 & ->); (split; [exact G1|]; split; [exact G2|]; auto)].
    destruct (call_run _ _ _ _) as [d' [w|r]]; [discriminate|]. apply (inj Some), pair_equal_spec in E as [<- <-]. split; [intros i cl Hi; cbn [mk ls_calls] in Hi; rewrite (Hid i cl Hi); exact I|]. split; [cbn [mk ls_used]; lia|]. cbn; eauto 10.
  - destruct He as (fuel & seen & ->). cbn [lstep] in E. unfold do_commit in E.
    assert (Hstay : forall o, stay s o = Some (s1, o1) -> makes (begun (SoCommit key tok)) s1 /\ (length (ls_used s1) <= S (length (ls_used s)))%nat /\ o1 = [o]).
    { intros o Es. injection Es as <- <-. split; [now apply idle_makes|]. split; [lia|reflexivity]. }
    destruct (find_for_commit _ _ _ _ _) as [| |[[f|] ex]]; [discriminate|destruct (Hstay _ E) as (G1 & G2 & ->); (split; [exact G1|]; split; [exact G2|]; auto)| |destruct (Hstay _ E) as (G1 & G2 & ->); (split; [exact G1|]; split; [exact G2|]; cbn; eauto 10)].
    match type of E with context [match ?x with _ => _ end] => destruct x as [[[[[d o] t] ps] tks]|]; [|destruct (Hstay _ E) as (G1 & G2 & ->); (split; [exact G1|]; split; [exact G2|]; auto)] end.
    destruct (ov_set_state _ _ _) as [o' tk]. cbn zeta in E. destruct (do_txn _ _ _ _) as [j sig]. apply (inj Some), pair_equal_spec in E as [<- <-].
    split; [apply makes_snoc; [exact Hid|exact I]|]. split; [cbn [mk ls_used]; lia|]. cbn; eauto 10.
  - destruct He as (fuel & ->). cbn [lstep] in E. unfold do_inspect in E.
    assert (Hstay : forall o, stay s o = Some (s1, o1) -> makes (begun (SoInspect key)) s1 /\ (length (ls_used s1) <= S (length (ls_used s)))%nat /\ o1 = [o]).
    { intros o Es. injection Es as <- <-. split; [now apply idle_makes|]. split; [lia|reflexivity]. }
    destruct (find_object _ _ _ _ _ _) as [| |[f|]]; [discriminate| | |]; [| |destruct (Hstay _ E) as (G1 & G2 & ->); (split; [exact G1|]; split; [exact G2|]; cbn; eauto 10)].
    + destruct (Hstay _ E) as (G1 & G2 & ->); (split; [exact G1|]; split; [exact G2|]; auto).
    + destruct (meta_id (f_raw f)) as [id|]; [destruct (meta_size (f_raw f)) as [sz|]|]; destruct (Hstay _ E) as (G1 & G2 & ->); (split; [exact G1|]; split; [exact G2|]; cbn; eauto 10).
  - destruct He as (fuel & steps & ->). cbn [lstep] in E. unfold do_read in E.
    assert (Hstay : forall o, stay s o = Some (s1, o1) -> makes (begun (SoRead key start fin)) s1 /\ (length (ls_used s1) <= S (length (ls_used s)))%nat /\ o1 = [o]).
    { intros o Es. injection Es as <- <-. split; [now apply idle_makes|]. split; [lia|reflexivity]. }
    destruct (find_object _ _ _ _ _ _) as [| |[f|]]; [discriminate| | |]; [| |destruct (Hstay _ E) as (G1 & G2 & ->); (split; [exact G1|]; split; [exact G2|]; cbn; eauto 10)].
    + destruct (Hstay _ E) as (G1 & G2 & ->); (split; [exact G1|]; split; [exact G2|]; auto).
    + destruct (mbind _ _) as [ob|]; [|destruct (Hstay _ E) as (G1 & G2 & ->); (split; [exact G1|]; split; [exact G2|]; auto)].
      destruct (drain _ _ _) as [[outs rc]|]; [|discriminate]. destruct rc; destruct (Hstay _ E) as (G1 & G2 & ->); (split; [exact G1|]; split; [exact G2|]; cbn; eauto 10).
  - destruct He as (fuel & seen & ->). cbn [lstep] in E. unfold do_delete in E.
    assert (Hstay : forall o, stay s o = Some (s1, o1) -> makes (begun (SoDelete key)) s1 /\ (length (ls_used s1) <= S (length (ls_used s)))%nat /\ o1 = [o]).
    { intros o Es. injection Es as <- <-. split; [now apply idle_makes|]. split; [lia|reflexivity]. }
    destruct (find_object _ _ _ _ _ _) as [| |[f|]]; [discriminate| | |]; [| |destruct (Hstay _ E) as (G1 & G2 & ->); (split; [exact G1|]; split; [exact G2|]; cbn; eauto 10)].
    + destruct (Hstay _ E) as (G1 & G2 & ->); (split; [exact G1|]; split; [exact G2|]; auto).
    + destruct (unlink _ _ _ _ _ _) as [[[[[d o] t] ps] tk]|]; [|destruct (Hstay _ E) as (G1 & G2 & ->); (split; [exact G1|]; split; [exact G2|]; auto)].
      destruct (do_txn _ _ _ _) as [j sig]. apply (inj Some), pair_equal_spec in E as [<- <-]. split; [apply makes_snoc; [exact Hid|exact I]|]. split; [cbn [mk ls_used]; lia|]. cbn; eauto 10.
Qed.

Lemma fresh_id l : N.of_nat (length l) < 2 ^ 128 -> exists id, id < 2 ^ 128 /\ id ∉ l.
Proof.
  intros Hl. set (ids := N.of_nat <$> seq 0 (S (length l))).
  destruct (decide (Exists (fun id => id ∉ l) ids)) as [H|H].
  - apply Exists_exists in H as (id & Hi & Hn). exists id. split; [|exact Hn]. apply elem_of_list_fmap in Hi as (k & -> & Hk). apply elem_of_seq in Hk. clear -Hl Hk. lia.
  - exfalso. assert (Hs : ids ⊆ l).
    { intros x Hx. destruct (decide (x ∈ l)) as [|Hn]; [assumption|]. exfalso. apply H, Exists_exists. eauto. }
    assert (Hnd : NoDup ids) by (apply NoDup_fmap_2; [intros a b E; lia|apply NoDup_seq]).
    pose proof (submseteq_length _ _ (NoDup_submseteq _ _ Hnd Hs)) as Hc. unfold ids in Hc. rewrite fmap_length, seq_length in Hc. lia.
Qed.
Definition lite_inv (c : liconf) (h : nat) (s : lstate) (F : list N -> kstate) : Prop :=
  idle s /\ (length (ls_used s) <= h)%nat /\ exists A us objs leak st, linv c s A us objs leak /\ srel c (flushed A us) objs st /\ forall key, held (li_lpage c) st key (F key).

Section A.
Context (c : liconf) (Hc : conf_ok c).
Notation lpage := (li_lpage c).
Lemma start_event_ok op e F : lite_event op e -> allowed (2 ^ lpage) (F (op_key op)) op -> lite_ok (F (op_key op)) op ->
  (forall tok size parts, F (op_key op) = KUpload tok size parts -> size < 2 ^ 40) -> event_ok c e.
Proof using Hc.
  intros He Hal Hok Hsz. destruct op as [key size|key tok off data|key tok|key|key start fin|key]; cbn [lite_event op_key allowed lite_ok] in *.
  - destruct He as (id & ms & H1 & H2 & ->). cbn [event_ok]. destruct Hok. repeat split; auto.
  - destruct He as (fuel & steps & ->). destruct (F key) as [|tok' size parts|]; try contradiction. destruct Hal as (_ & Hin & _). cbn [event_ok].
    assert (Hch : 0 < 2 ^ lpage) by (apply N.neq_0_lt_0, N.pow_nonzero; lia). pose proof (tiles_lt _ _ _ Hch Hin) as Hlt. specialize (Hsz _ _ _ eq_refl).
    assert (2 ^ lpage < 2 ^ 32) by (apply N.pow_lt_mono_r; [lia|exact (co_lpage _ Hc)]). assert (2 ^ 40 + 2 ^ 32 < 2 ^ 64) by reflexivity. lia.
  - destruct He as (? & ? & ->). exact I.
  - destruct He as (? & ->). exact I.
  - destruct He as (? & ? & ->). exact I.
  - destruct He as (? & ? & ->). exact I.
Qed.
Lemma lite_step h s F op : lite_inv c h s F -> allowed (2 ^ lpage) (F (op_key op)) op -> lite_ok (F (op_key op)) op ->
  forall out, lite_store c s op out ->
    (exists ans s', out = Some (ans, s') /\ right (F (op_key op)) op ans /\ lite_inv c (S h) s' (<[op_key op := next (2 ^ lpage) (F (op_key op)) op ans]> F)) \/
    (out = None /\ exists key size, op = SoCreate key size).
Proof using Hc.
  intros (Hid & Hus & A & us & objs & leak & st & HL & HS & Hh) Hal Hok out (_ & e & es & s' & obs & He & Hb & E & Hout).
  assert (Heo : event_ok c e).
  { eapply start_event_ok; [exact He|exact Hal|exact Hok|]. intros tok size parts EF. specialize (Hh (op_key op)). rewrite EF in Hh. apply Hh. }
  assert (Hob : one_by_one c s (e :: es)).
  { cbn [one_by_one]. split; [destruct e; auto|]. destruct (lstep c s e) as [[s1 o1]|]; [|exact I]. now apply background_one. }
  destruct (sim_run c Hc (e :: es) (co_versioning _ Hc) s A us objs leak st s' obs HL HS) as (A' & us' & objs' & leak' & st' & HL' & HS' & Hss); [constructor; [exact Heo|now apply background_ok]|now apply one_calm|exact E|].
  pose proof (no_panic _ _ _ _ Hss) as Hnp.
  cbn [lrun] in E. destruct (lstep c s e) as [[s1 o1]|] eqn:E1; [|discriminate]. cbn [mbind option_bind] in E. destruct (lrun c s1 es) as [[s2 o2]|] eqn:E2; [|discriminate]. apply (inj Some), pair_equal_spec in E as [-> <-].
  destruct (start_step c s op e s1 o1 Hid He E1) as (Hm & Hu1 & Ho1). destruct (background_run _ c es s1 s' o2 Hb Hm E2) as [Ho2 Hu2].
  assert (Hall : forall o, o ∈ o1 ++ o2 -> obs_of op o).
  { intros o Ho. assert (o <> OPanic) by (intros ->; contradiction). apply elem_of_app in Ho as [Ho|Ho].
    - destruct Ho1 as [->|[(o' & -> & Ho')|[-> _]]]; [apply elem_of_list_singleton in Ho; contradiction|apply elem_of_list_singleton in Ho as ->; exact Ho'|inversion Ho].
    - rewrite Forall_forall in Ho2. destruct (Ho2 o Ho) as [?|(r & Hr & ->)]; [contradiction|]. destruct op; cbn [begun] in Hr; try contradiction. destruct Hr as [-> ->]. cbn. eauto. }
  destruct Hout as [(o & a & Eo & Ha & Hid' & ->)|(o & Hin & Ha & ->)].
  - rewrite Eo in *. inversion Hss as [|st0 o0 st1 os st2 Hst Hrest]; subst. inversion Hrest; subst.
    destruct (held_step lpage st F op o st' (co_lpage _ Hc) Hh Hal Hok (Hall o ltac:(constructor)) Hst) as [(a' & Ha' & Hr & Hh')|[Hn _]]; [|congruence].
    rewrite Ha in Ha'. injection Ha' as <-. left. exists a, s'. split; [reflexivity|]. split; [exact Hr|]. split; [exact Hid'|]. split; [rewrite Hu2; lia|].
    exists A', us', objs', leak', st'. auto.
  - right. split; [reflexivity|]. destruct Ho1 as [->|[(o' & -> & Ho')|[_ Hop]]]; [exfalso; apply Hnp; constructor| |exact Hop].
    destruct (match op with SoCreate _ _ => true | _ => false end) eqn:Eop; [destruct op; try discriminate; eauto|].
    assert (o2 = []) as ->.
    { destruct o2 as [|x o2]; [reflexivity|]. exfalso. apply Forall_cons in Ho2 as [[->|(r & Hr & _)] _]; [apply Hnp; constructor; constructor|]. destruct op; cbn in Hr; try contradiction; discriminate. }
    cbn [app] in *. apply elem_of_list_singleton in Hin as ->. inversion Hss as [|st0 o0 st1 os st2 Hst Hrest]; subst.
    destruct (held_step lpage st F op o' st1 (co_lpage _ Hc) Hh Hal Hok Ho' Hst) as [(a' & Ha' & _)|[_ Hcr]]; [congruence|exact Hcr].
Qed.

(** *** Every call comes to an end *)
Lemma txn_signal j t seen j' sig : do_txn c j t seen = (j', sig) -> match sig with Some n => n ∈ pj_signals (js_pending j') | None => True end.
Proof using. unfold do_txn. intros [= <- <-]. destruct t as [|w t]; [exact I|]. now apply signal_pending. Qed.
Lemma outcome s op e es s' o rest : idle s -> lite_event op e -> Forall background es -> lrun c s (e :: es) = Some (s', o :: rest) -> (rest = [] /\ idle s' \/ OPanic ∈ rest) -> exists out, lite_store c s op out.
Proof using.
  intros Hid He Hb E [[-> Hid']|Hp].
  - destruct (lite_answer o) as [a|] eqn:Ea.
    + exists (Some (a, s')). split; [exact Hid|]. exists e, es, s', [o]. split; [exact He|]. split; [exact Hb|]. split; [exact E|]. left. exists o, a. auto.
    + exists None. split; [exact Hid|]. exists e, es, s', [o]. split; [exact He|]. split; [exact Hb|]. split; [exact E|]. right. exists o. split; [constructor|auto].
  - exists None. split; [exact Hid|]. exists e, es, s', (o :: rest). split; [exact He|]. split; [exact Hb|]. split; [exact E|]. right. exists OPanic. split; [now constructor|auto].
Qed.
Lemma outcome_now s op e s' o : idle s -> lite_event op e -> lstep c s e = Some (s', [o]) -> ls_calls s' = ls_calls s -> exists out, lite_store c s op out.
Proof using.
  intros Hid He E Ec. eapply (outcome s op e [] s' o []); [exact Hid|exact He|constructor|cbn [lrun]; rewrite E; reflexivity|]. left. split; [reflexivity|]. intros i cl Hi. rewrite Ec in Hi. exact (Hid i cl Hi).
Qed.
Lemma outcome_stay s op e o : idle s -> lite_event op e -> lstep c s e = stay s o -> exists out, lite_store c s op out.
Proof using. intros Hid He E. eapply (outcome_now s op e s o); [exact Hid|exact He|exact E|reflexivity]. Qed.
Lemma outcome_wait s op e s1 o b sig tks free : idle s -> lite_event op e -> lstep c s e = Some (s1, [o]) -> ls_calls s1 = ls_calls s ++ [LWait b sig tks free] ->
  match sig with Some n => n ∈ pj_signals (js_pending (ls_j s1)) | None => True end -> exists out, lite_store c s op out.
Proof using.
  intros Hid He E Ec Hs. destruct (finishes c s1 (length (ls_calls s)) b sig tks free) as (es & s' & obs & Hb & E2 & Hobs); [rewrite Ec; apply list_lookup_middle; reflexivity|exact Hs| |].
  { intros k cl Hk. rewrite Ec in Hk. apply lookup_app_Some in Hk as [Hk|[Hk1 Hk2]]; [right; exact (Hid k cl Hk)|]. apply list_lookup_singleton_Some in Hk2 as [Hk2 _]. left. lia. }
  eapply (outcome s op e es s' o obs); [exact Hid|exact He|exact Hb|cbn [lrun]; rewrite E; cbn [mbind option_bind]; rewrite E2; reflexivity|].
  destruct Hobs as [[-> Hi]| ->]; [left; auto|right; constructor].
Qed.
Lemma outcome_case s op e : idle s -> lite_event op e ->
  (exists s1 o, lstep c s e = Some (s1, [o]) /\ (ls_calls s1 = ls_calls s \/ exists b sig tks free, ls_calls s1 = ls_calls s ++ [LWait b sig tks free] /\
     match sig with Some n => n ∈ pj_signals (js_pending (ls_j s1)) | None => True end)) -> exists out, lite_store c s op out.
Proof using.
  intros Hid He (s1 & o & E & [Ec|(b & sig & tks & free & Ec & Hs)]); [eapply outcome_now; eassumption|eapply outcome_wait; eassumption].
Qed.
Lemma lite_goes h s F op : lite_inv c h s F -> N.of_nat h < 2 ^ 128 -> allowed (2 ^ lpage) (F (op_key op)) op -> lite_ok (F (op_key op)) op -> exists out, lite_store c s op out.
Proof using Hc.
  intros (Hid & Hus & A & us & objs & leak & st & HL & HS & Hh) Hlen Hal Hok. set (n := length objs).
  assert (Hle : forall key, (length (bchain c objs (bucket_of c key)) <= n)%nat) by (intros; apply filter_length).
  destruct op as [key size|key tok off data|key tok|key|key start fin|key]; cbn [op_key allowed lite_ok] in *.
  - destruct (fresh_id (ls_used s)) as (id & Hid1 & Hid2); [clear -Hus Hlen; lia|].
    assert (He : lite_event (SoCreate key size) (LCreate key size [] id 0)) by (exists id, 0; split; [exact Hid1|]; split; reflexivity).
    destruct (lstep c s (LCreate key size [] id 0)) as [[s1 o1]|] eqn:E.
    2: { exfalso. cbn [lstep] in E. unfold do_create in E. rewrite bool_decide_eq_false_2 in E by exact Hid2. cbn zeta in E.
         destruct (calc_object_layout _ _ _ _) as [[lcount t]|]; [|destruct (create_record _ _ _) as [[|raw0 p0]|]; discriminate]. destruct (create_record _ _ _) as [[|raw0 p0]|]; try discriminate.
         destruct (tps_collect t) as [l|]; [|discriminate]. destruct (alloc_list _ _) as [a [offs|]]; [|discriminate]. destruct (drop _ offs) as [|off [|]]; try discriminate. destruct (create_record _ _ _) as [[|raw pw]|]; discriminate. }
    assert (Hcase : (exists o, o1 = [o] /\ ls_calls s1 = ls_calls s) \/ (o1 = [] /\ exists r raw p off, ls_calls s1 = ls_calls s ++ [LNew r raw p off])).
    { cbn [lstep] in E. unfold do_create in E. rewrite bool_decide_eq_false_2 in E by exact Hid2. cbn zeta in E.
      assert (Hst : forall o, stay s o = Some (s1, o1) -> exists o, o1 = [o] /\ ls_calls s1 = ls_calls s) by (intros o [= <- <-]; eauto).
      destruct (calc_object_layout _ _ _ _) as [[lcount t]|]; [|destruct (create_record _ _ _) as [[|raw0 p0]|]; left; eapply Hst, E]. destruct (create_record _ _ _) as [[|raw0 p0]|]; [left; eapply Hst, E| |left; eapply Hst, E].
      destruct (tps_collect t) as [l|]; [|left; eapply Hst, E]. destruct (alloc_list _ _) as [a [offs|]]; [|left; apply (inj Some), pair_equal_spec in E as [<- <-]; eauto].
      destruct (drop _ offs) as [|off [|]]; [left; eapply Hst, E| |left; eapply Hst, E]. destruct (create_record _ _ _) as [[|raw pw]|]; [left; eapply Hst, E| |left; eapply Hst, E].
      apply (inj Some), pair_equal_spec in E as [<- <-]. right. split; [reflexivity|]. do 4 eexists. reflexivity. }
    destruct Hcase as [(o & -> & Ec)|(-> & r & raw & p & off & Ec)]; [eapply outcome_now; eassumption|].
    set (i := length (ls_calls s)) in *.
    assert (Hdone : forall k cl, ls_calls s1 !! k = Some cl -> k = i \/ cl = LDone).
    { intros k cl Hk. rewrite Ec in Hk. apply lookup_app_Some in Hk as [Hk|[Hk1 Hk2]]; [right; exact (Hid k cl Hk)|]. apply list_lookup_singleton_Some in Hk2 as [Hk2 _]. left. unfold i. lia. }
    assert (E1 : exists s2, lstep c s1 (LCreateWrite i) = Some (s2, []) /\ ls_calls s2 = <[i := LRec r raw p off]> (ls_calls s1)).
    { cbn [lstep]. rewrite Ec. unfold i. rewrite list_lookup_middle by reflexivity. eexists. split; [reflexivity|]. cbn [mk ls_calls]. reflexivity. }
    destruct E1 as (s2 & E1 & Ec2).
    assert (Hli : (i < length (ls_calls s1))%nat) by (rewrite Ec, app_length; cbn [length]; unfold i; lia).
    assert (E2 : exists s3 b sig tks free, lstep c s2 (LCreateLink i 0) = Some (s3, [OCreate (cr_key r) (cr_size r) (cr_id r)]) /\ ls_calls s3 = <[i := LWait b sig tks free]> (ls_calls s2) /\
      match sig with Some n => n ∈ pj_signals (js_pending (ls_j s3)) | None => True end).
    { cbn [lstep]. assert (El : ls_calls s2 !! i = Some (LRec r raw p off)) by (rewrite Ec2; now apply list_lookup_insert). rewrite El. unfold do_link.
      destruct (update_head _ _ _ _) as [[oa t1] tk1]. destruct (ov_set_next _ _ _) as [o2 tk2]. cbn zeta. destruct (do_txn _ _ _ _) as [j sig] eqn:Et. do 5 eexists. split; [reflexivity|]. split; [reflexivity|]. cbn [mk ls_j]. eapply txn_signal, Et. }
    destruct E2 as (s3 & b & sig & tks & free & E2 & Ec3 & Hsig).
    destruct (finishes c s3 i b sig tks free) as (es & s' & obs & Hb & E3 & Hobs); [rewrite Ec3, Ec2; apply list_lookup_insert; now rewrite insert_length|exact Hsig| |].
    { intros k cl Hk. destruct (decide (k = i)) as [|Hn]; [auto|]. rewrite Ec3, Ec2 in Hk. rewrite !list_lookup_insert_ne in Hk by congruence. exact (Hdone k cl Hk). }
    eapply (outcome s (SoCreate key size) _ (LCreateWrite i :: LCreateLink i 0 :: es) s' _ obs); [exact Hid|exact He|repeat (constructor; [exact I|]); exact Hb| |].
    + cbn [lrun]. rewrite E. cbn [mbind option_bind]. rewrite E1. cbn [mbind option_bind]. rewrite E2. cbn [mbind option_bind]. rewrite E3. reflexivity.
    + destruct Hobs as [[-> Hi]| ->]; [left; auto|right; constructor].
  - destruct (F key) as [|tok' size parts|] eqn:EF; try contradiction. destruct Hal as (-> & Hin & _ & Hdl). pose proof (Hh key) as Hk. rewrite EF in Hk. destruct Hk as (_ & Hsz & so & Hso & Hsos & _).
    assert (Hch : 0 < 2 ^ lpage) by (apply N.neq_0_lt_0, N.pow_nonzero; lia). destruct (tile_aligned _ _ _ Hch Hin) as [Hmod Hlt].
    assert (He : forall steps, lite_event (SoWrite key tok' off data) (LWrite key tok' off (blen data) [Data data] n steps)) by (intros; exists n, steps; reflexivity).
    pose proof (lin_find c Hc HL key n st_incomplete (Some tok')) as Hf. specialize (Hle key).
    destruct (find_object c (now s) key n st_incomplete (Some tok')) as [| |[f|]] eqn:Ef; [exfalso; lia|contradiction| |].
    2: { eapply outcome_stay; [exact Hid|apply (He 0%nat)|]. cbn [lstep]. unfold do_write. rewrite Ef. reflexivity. }
    destruct Hf as (l1 & o & l2 & _ & _ & Hm & Ho & [[F1 _ _ _ F5] _]). destruct (lin_decodes c Hc HL o Ho) as [_ Hdec].
    destruct (srel_inc_some c HS key tok' o Ho Hm) as (so' & Hsi & (R1 & R2 & R3) & _ & _). rewrite (incomplete_of _ _ _ _ Hso) in Hsi. injection Hsi as <-.
    pose proof (obj_op c Hc s A us objs leak HL o Ho) as Hop.
    assert (Hpr : part_request lpage (o_size (obj_of_req (lo_req o))) off (blen data)).
    { change (o_size (obj_of_req (lo_req o))) with (cr_size (lo_req o)). rewrite <- R2, Hsos. assert (2 ^ lpage < 2 ^ 32) by (apply N.pow_lt_mono_r; [lia|exact (co_lpage _ Hc)]). assert (2 ^ 40 + 2 ^ 32 < 2 ^ 64) by reflexivity.
      split; [exact Hmod|]. clear -Hdl Hlt Hsz H H0. repeat split; lia. }
    destruct (C10_exact_stream_succeeds Lite (li_spage c) lpage _ _ off (blen data) [Data data] Hop Hpr) as [steps Hret].
    { unfold no_fail. intros Hx. apply elem_of_list_singleton in Hx. discriminate. }
    { unfold no_empty. intros Hx. apply elem_of_list_singleton in Hx. injection Hx as <-. unfold blen in Hdl. cbn in Hdl. lia. }
    { rewrite one_data. reflexivity. }
    specialize (Hret (ls_dev s) (replicate steps (true, fun _ => 0))). rewrite replicate_length in Hret. specialize (Hret ltac:(lia)). specialize (Hret ltac:(apply Forall_replicate; reflexivity)).
    destruct (call_run Lite (li_spage c) (ls_dev s, write_start Lite (li_spage c) lpage (obj_of_req (lo_req o)) off (blen data) [Data data]) (replicate steps (true, fun _ => 0))) as [d' w] eqn:Ec. cbn [snd] in Hret. subst w.
    eapply outcome_now; [exact Hid|apply (He steps)| |].
    + cbn [lstep]. unfold do_write. rewrite Ef, F5. cbn [mbind option_bind]. rewrite F1, Hdec, Ec. reflexivity.
    + reflexivity.
  - assert (He : lite_event (SoCommit key tok) (LCommit key tok n 0)) by (exists n, 0; reflexivity).
    pose proof (lin_find_commit c Hc HL key n tok) as Hf. specialize (Hle key).
    eapply outcome_case; [exact Hid|exact He|]. cbn [lstep]. unfold do_commit. destruct (find_for_commit c (now s) key n tok) as [| |[[f|] ex]]; [exfalso; lia|contradiction| |].
    + match goal with |- context [match ?x with _ => _ end] => destruct x as [[[[[d o] t] ps] tks]|] end; [|do 2 eexists; split; [reflexivity|left; reflexivity]].
      destruct (ov_set_state _ _ _) as [o' tk]. cbn zeta. destruct (do_txn _ _ _ _) as [j sig] eqn:Et. do 2 eexists. split; [reflexivity|]. right. do 4 eexists. split; [reflexivity|]. cbn [mk ls_j]. eapply txn_signal, Et.
    + do 2 eexists. split; [reflexivity|left; reflexivity].
  - assert (He : lite_event (SoInspect key) (LInspect key None n)) by (exists n; reflexivity).
    pose proof (lin_find c Hc HL key n st_committed None) as Hf. specialize (Hle key).
    eapply outcome_case; [exact Hid|exact He|]. cbn [lstep]. unfold do_inspect. destruct (find_object c (now s) key n st_committed None) as [| |[f|]]; [exfalso; lia|contradiction| |].
    + destruct (meta_id (f_raw f)) as [id|]; [destruct (meta_size (f_raw f)) as [sz|]|]; (do 2 eexists; split; [reflexivity|left; reflexivity]).
    + do 2 eexists. split; [reflexivity|left; reflexivity].
  - assert (He : forall steps, lite_event (SoRead key start fin) (LRead key None start fin n steps)) by (intros; exists n, steps; reflexivity).
    pose proof (lin_find c Hc HL key n st_committed None) as Hf. specialize (Hle key).
    destruct (find_object c (now s) key n st_committed None) as [| |[f|]] eqn:Ef; [exfalso; lia|contradiction| |].
    2: { eapply outcome_stay; [exact Hid|apply (He 0%nat)|]. cbn [lstep]. unfold do_read. rewrite Ef. reflexivity. }
    destruct Hf as (l1 & o & l2 & _ & _ & Hm & Ho & [[F1 _ _ _ F5] _]). destruct (lin_decodes c Hc HL o Ho) as [_ Hdec].
    pose proof (C08_lite_read_returns_range (li_spage c) lpage _ _ (ls_dev s) start fin (obj_op c Hc s A us objs leak HL o Ho)) as HR.
    assert (Hd : exists steps r, drain (lite_read_step lpage (ls_dev s)) steps (read_start Lite (li_spage c) lpage (obj_of_req (lo_req o)) start fin) = Some r).
    { destruct (_ && _); [destruct HR as (fuel & outs & Hd & _); eauto|]. rewrite HR. exists 0%nat. eexists. reflexivity. }
    destruct Hd as (steps & [outs rc] & Hd). eapply outcome_case; [exact Hid|apply (He steps)|]. cbn [lstep]. unfold do_read. rewrite Ef, F5. cbn [mbind option_bind]. rewrite F1, Hdec, Hd.
    destruct rc; (do 2 eexists; split; [reflexivity|left; reflexivity]).
  - assert (He : lite_event (SoDelete key) (LDelete key None n 0)) by (exists n, 0; reflexivity).
    pose proof (lin_find c Hc HL key n st_committed None) as Hf. specialize (Hle key).
    eapply outcome_case; [exact Hid|exact He|]. cbn [lstep]. unfold do_delete. destruct (find_object c (now s) key n st_committed None) as [| |[f|]]; [exfalso; lia|contradiction| |].
    + destruct (unlink _ _ _ _ _ _) as [[[[[d o] t] ps] tk]|]; [|do 2 eexists; split; [reflexivity|left; reflexivity]].
      destruct (do_txn _ _ _ _) as [j sig] eqn:Et. do 2 eexists. split; [reflexivity|]. right. do 4 eexists. split; [reflexivity|]. cbn [mk ls_j]. eapply txn_signal, Et.
    + do 2 eexists. split; [reflexivity|left; reflexivity].
Qed.
Theorem lite_contract d a : allocator_new (li_base c) (li_heap c) (li_spage c) lpage (2 ^ 64) DirLeft = Ok a ->
  keeps_contract_while_room (lite_store c) (li_init c d a) (lite_chunk c) lite_ok /\
  forall h s F, runs (lite_store c) (li_init c d a) h s -> follows (lite_chunk c) lite_ok h F -> lite_inv c (length h) s F.
Proof using Hc.
  intros Ha.
  assert (HI : forall h s, runs (lite_store c) (li_init c d a) h s -> forall F, follows (lite_chunk c) lite_ok h F -> lite_inv c (length h) s F).
  { induction 1 as [|h s op ans s' Hr IH Hs]; intros F Hf.
    - inversion Hf; [|destruct h; discriminate]. split; [intros i cl Hi; inversion Hi|]. split; [reflexivity|].
      exists (li_format c d), [], [], [], ss_empty. split; [apply init_inv; [exact Hc|exact Ha]|]. split; [apply init_rel|]. intros key. apply lookup_empty.
    - inversion Hf as [E|h' F' op' ans' Hf' Hal Hok E]; [destruct h; discriminate|]. apply app_inj_tail in E as [-> E]. injection E as -> ->.
      rewrite app_length, Nat.add_comm. cbn [length plus]. destruct (lite_step (length h) s F' op (IH F' Hf') Hal Hok _ Hs) as [(a2 & s2 & E2 & _ & HI2)|[E2 _]]; [|discriminate]. injection E2 as <- <-. exact HI2. }
  split; [|intros h s F Hr Hf; exact (HI h s Hr F Hf)].
  intros h s F op Hr Hf Hal Hok. pose proof (HI h s Hr F Hf) as Hi. split; [intros Hlen; eapply lite_goes; eassumption|].
  intros out Ho. destruct (lite_step _ _ _ _ Hi Hal Hok out Ho) as [(ans & s' & E & Hri & _)|H]; eauto.
Qed.

(** Why a creation is refused. *)
Lemma lite_refused h s F key size : lite_inv c h s F -> allowed (2 ^ lpage) (F key) (SoCreate key size) -> lite_ok (F key) (SoCreate key size) -> lite_store c s (SoCreate key size) None ->
  2 ^ lpage < 39 + blen key + 6 * (size / 2 ^ lpage + 24) \/ exists id ms s1, lstep c s (LCreate key size [] id ms) = Some (s1, [OFull key size]).
Proof using Hc.
  intros (Hid & Hus & A & us & objs & leak & st & HL & HS & Hh) Hal Hok (_ & e & es & s' & obs & He & Hb & E & Hout). set (op := SoCreate key size) in *.
  assert (Heo : event_ok c e).
  { eapply (start_event_ok op e F); [exact He|exact Hal|exact Hok|]. intros tok sz parts EF. specialize (Hh (op_key op)). rewrite EF in Hh. apply Hh. }
  assert (Hob : one_by_one c s (e :: es)).
  { cbn [one_by_one]. split; [destruct e; auto|]. destruct (lstep c s e) as [[s1 o1]|]; [|exact I]. now apply background_one. }
  destruct (sim_run c Hc (e :: es) (co_versioning _ Hc) s A us objs leak st s' obs HL HS) as (A' & us' & objs' & leak' & st' & HL' & HS' & Hss); [constructor; [exact Heo|now apply background_ok]|now apply one_calm|exact E|].
  pose proof (no_panic _ _ _ _ Hss) as Hnp.
  cbn [lrun] in E. destruct (lstep c s e) as [[s1 o1]|] eqn:E1; [|discriminate]. cbn [mbind option_bind] in E. destruct (lrun c s1 es) as [[s2 o2]|] eqn:E2; [|discriminate]. apply (inj Some), pair_equal_spec in E as [-> <-].
  destruct (start_step c s op e s1 o1 Hid He E1) as (Hm & _ & Ho1). destruct (background_run _ c es s1 s' o2 Hb Hm E2) as [Ho2 _].
  destruct Hout as [(o & a & _ & _ & _ & Ex)|(o & Hin & Ha & _)]; [discriminate|].
  apply elem_of_app in Hin as [Hin|Hin].
  - destruct Ho1 as [->|[(o' & -> & Ho')|[-> _]]]; [exfalso; apply Hnp; constructor| |inversion Hin]. apply elem_of_list_singleton in Hin as ->.
    destruct Ho' as [[id ->]|[-> | ->]]; [discriminate| |].
    + right. destruct He as (id & ms & _ & _ & ->). eauto.
    + left. inversion Hss as [|st0 o0 st1 os st2 Hst Hrest]; subst. inversion Hst; subst. unfold blen. cbn [length] in *. lia.
  - exfalso. rewrite Forall_forall in Ho2. destruct (Ho2 o Hin) as [->|(r & _ & ->)]; [apply Hnp, elem_of_app; auto|discriminate].
Qed.
(** A range without a byte is not read. *)
Lemma lite_empty_range h s F key d x : lite_inv c h s F -> F key = KStored d -> forall out, lite_store c s (SoRead key x (Some x)) out -> out = None.
Proof using Hc.
  intros (Hid & Hus & A & us & objs & leak & st & HL & HS & Hh) EF out (_ & e & es & s' & obs & He & Hb & E & Hout). set (op := SoRead key x (Some x)) in *.
  assert (Heo : event_ok c e) by (destruct He as (? & ? & ->); exact I).
  assert (Hob : one_by_one c s (e :: es)).
  { cbn [one_by_one]. split; [destruct e; auto|]. destruct (lstep c s e) as [[s1 o1]|]; [|exact I]. now apply background_one. }
  destruct (sim_run c Hc (e :: es) (co_versioning _ Hc) s A us objs leak st s' obs HL HS) as (A' & us' & objs' & leak' & st' & HL' & HS' & Hss); [constructor; [exact Heo|now apply background_ok]|now apply one_calm|exact E|].
  destruct Hout as [(o & a & -> & Ha & _ & ->)|(o & _ & _ & ->)]; [|reflexivity]. exfalso.
  pose proof (no_panic _ _ _ _ Hss) as Hnp. cbn [lrun] in E. destruct (lstep c s e) as [[s1 o1]|] eqn:E1; [|discriminate]. cbn [mbind option_bind] in E. destruct (lrun c s1 es) as [[s2 o2]|] eqn:E2; [|discriminate]. apply (inj Some), pair_equal_spec in E as [-> Eo].
  destruct (start_step c s op e s1 o1 Hid He E1) as (_ & _ & Ho1). destruct Ho1 as [->|[(o' & -> & Ho')|[_ (? & ? & ?)]]]; [apply Hnp; rewrite <- Eo; constructor| |discriminate].
  cbn [app] in Eo. injection Eo as -> _. destruct Ho' as [r ->]. pose proof (Hh key) as Hk. rewrite EF in Hk. destruct Hk as (ob & Hcom & _). pose proof (find_com _ _ _ Hcom) as Hfc.
  inversion Hss as [|st0 o0 st1 os st2 Hst Hrest]; subst. inversion Hst as [| | | | | | | | | | | |k0 oid s0 f0 ob' l H1 H2 H3 H4|k0 oid s0 f0 ob' H1 H2|k0 oid s0 f0 H1]; subst; [|discriminate|discriminate].
  cbn [default from_option id] in H2. lia.
Qed.
End A.
