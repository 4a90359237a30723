(** The steps of a call as an inductive relation, one rule per outcome. *)
From Coq Require Import ZifyBool ZifyNat ZifyN.
From stdpp Require Import base numbers list_numbers option gmap sets list.
From Verif Require Import Util Bytes BuddyModel LayoutModel PageIOModel TuplesModel DirectModel.
Open Scope N_scope.
Ltac Zify.zify_post_hook ::= idtac.

Definition create_sizes (c : dcfg) (lc : N) (l : list (N * N)) : list N :=
  replicate (N.to_nat lc) (N.shiftl 1 (dc_lpage c)) ++ map (fun '(_, sz) => N.shiftl 1 sz) l.
Definition new_meta (o : oracle) (key : list N) (size : N) (lpages tails : list N) : dmeta :=
  {| m_size := size; m_created := or_time o; m_key := key; m_lpages := lpages; m_tails := tails |}.
Definition msize_of (m : dmeta) : N := N.of_nat (length (meta_encode m)).
Definition meta_write (c : dcfg) (o : oracle) (d : device) (m : dmeta) (msize moff : N) : device :=
  dev_write d moff (meta_encode m ++
    ((fun i => or_junk o (N.of_nat i)) <$> seq 0 (N.to_nat (metadata_page_size (dc_spage c) msize - msize)))).
Definition new_tuple (c : dcfg) (msize moff id : N) : tuple :=
  {| t_state := ds_incomplete; t_id := id; t_off := moff; t_pow2 := metadata_page_pow2 (dc_spage c) msize |}.
Definition created_obj (c : dcfg) (m : dmeta) (msize moff id : N) : dobj :=
  {| b_id := id; b_state := ds_incomplete; b_readers := 0; b_meta := m; b_msize := msize;
     b_mpage := (moff, metadata_page_pow2 (dc_spage c) msize) |}.
Definition published_obj (ob : dobj) (id : N) : dobj :=
  {| b_id := id; b_state := b_state ob; b_readers := 0; b_meta := b_meta ob; b_msize := b_msize ob; b_mpage := b_mpage ob |}.
Definition set_obj (h : shared) (r : nat) (ob : dobj) : shared := set_objs h (<[r := ob]> (h_objs h)).
Definition add_obj (h : shared) (ob : dobj) : shared := set_objs h (h_objs h ++ [ob]).
Definition with_buf (w : writer) (buf : list N) (st : list item) : writer :=
  {| w_len := w_len w; w_targets := w_targets w; w_stream := st; w_written := w_written w; w_page := w_page w; w_buf := buf |}.
Definition empty_reader (ob : dobj) (start : N) : reader :=
  {| r_obj := obj_of (b_meta ob); r_lpage_count := 0; r_tails := tps_new; r_idx := 0; r_next := start; r_end := start |}.

(** The next item of the stream has been taken into the buffer. *)
Inductive polled (w : writer) : list N -> list item -> Prop :=
| polled_data chunk st : w_stream w = Data chunk :: st -> polled w (w_buf w ++ chunk) st
| polled_end : w_stream w = [] -> w_buf w <> [] -> polled w (w_buf w) [].

(** How a write call ends by itself. *)
Inductive write_ends (w : writer) : dresp -> Prop :=
| we_fail st : w_stream w = Fail :: st -> write_ends w (RFailed DataStreamError)
| we_short : w_stream w = [] -> w_buf w = [] -> w_written w <> w_len w -> write_ends w (RFailed DataStreamLengthMismatch)
| we_ok : w_stream w = [] -> w_buf w = [] -> w_written w = w_len w -> write_ends w RWritten
| we_long buf st : polled w buf st -> w_len w < w_written w + N.of_nat (length buf) ->
    write_ends w (RFailed DataStreamLengthMismatch)
| we_panic buf st : polled w buf st -> w_written w + N.of_nat (length buf) <= w_len w ->
    w_targets w !! w_page w = None -> write_ends w RPanicked.

Notation panicked := (Some (VRet RPanicked)).
Notation failed e := (Some (VRet (RFailed e))).

Inductive pstepR (c : dcfg) (o : oracle) (h : shared) : pc -> shared -> pc -> option vis -> Prop :=
| R_create_panic key size : pstepR c o h (PStart (OCreate key size)) h PDone panicked
| R_create_oos key size lc t l a :
    calc_object_layout (dc_spage c) (dc_lpage c) (2 ^ 32) size = Some (lc, t) -> tps_collect t = Some l ->
    alloc_list (h_alloc h) (create_sizes c lc l) = (a, None) ->
    pstepR c o h (PStart (OCreate key size)) (set_alloc h a) PDone panicked
| R_create key size lc t l a offs :
    calc_object_layout (dc_spage c) (dc_lpage c) (2 ^ 32) size = Some (lc, t) -> tps_collect t = Some l ->
    alloc_list (h_alloc h) (create_sizes c lc l) = (a, Some offs) ->
    pstepR c o h (PStart (OCreate key size)) (set_alloc h a)
      (PCreate1 key size (take (N.to_nat lc) offs) (drop (N.to_nat lc) offs)) None
| R_create1_panic key size lpages tails : pstepR c o h (PCreate1 key size lpages tails) h PDone panicked
| R_create1_oos key size lpages tails a r :
    msize_of (new_meta o key size lpages tails) <= 2 ^ dc_lpage c ->
    allocate (h_alloc h) (msize_of (new_meta o key size lpages tails)) = (a, r) -> (forall off, r <> Ok off) ->
    pstepR c o h (PCreate1 key size lpages tails) (set_alloc h a) PDone panicked
| R_create1 key size lpages tails a off :
    msize_of (new_meta o key size lpages tails) <= 2 ^ dc_lpage c ->
    allocate (h_alloc h) (msize_of (new_meta o key size lpages tails)) = (a, Ok off) ->
    pstepR c o h (PCreate1 key size lpages tails) (use_id (set_alloc h a) (or_id o))
      (PCreate2 (new_meta o key size lpages tails) (msize_of (new_meta o key size lpages tails)) off (or_id o)) None
| R_create2 m msize moff id :
    pstepR c o h (PCreate2 m msize moff id) (set_dev h (meta_write c o (h_dev h) m msize moff)) (PCreate3 m msize moff id) None
| R_create3_panic m msize moff id :
    tup_call (h_tup h) (CInsert (new_tuple c msize moff id)) = None ->
    pstepR c o h (PCreate3 m msize moff id) h PDone panicked
| R_create3 m msize moff id y :
    tup_call (h_tup h) (CInsert (new_tuple c msize moff id)) = Some y ->
    pstepR c o h (PCreate3 m msize moff id) (set_tup h y) (PCreate4 m msize moff id (sy_calls (h_tup h))) None
| R_create4_panic m msize moff id k r :
    k ∈ sy_acked (h_tup h) -> h_inc h !! id = Some r ->
    pstepR c o h (PCreate4 m msize moff id k) h PDone panicked
| R_create4 m msize moff id k :
    k ∈ sy_acked (h_tup h) -> h_inc h !! id = None ->
    pstepR c o h (PCreate4 m msize moff id k)
      (bump (set_inc (add_obj h (created_obj c m msize moff id)) (<[id := length (h_objs h)]> (h_inc h)))
            (met_create_done msize (m_size m))) PDone (Some (VRet (RCreated id)))
| R_write_nf tok offset len st :
    h_inc h !! tok = None ->
    pstepR c o h (PStart (OWrite tok offset len st)) h PDone (failed ObjectNotFound)
| R_write_check tok offset len st r ob e :
    h_inc h !! tok = Some r -> h_objs h !! r = Some ob ->
    write_check (dc_lpage c) (m_size (b_meta ob)) offset len = Some e ->
    pstepR c o h (PStart (OWrite tok offset len st)) h PDone (failed e)
| R_write tok offset len st r ob w :
    h_inc h !! tok = Some r -> h_objs h !! r = Some ob ->
    write_check (dc_lpage c) (m_size (b_meta ob)) offset len = None ->
    write_start Direct (dc_spage c) (dc_lpage c) (obj_of (b_meta ob)) offset len st = Running w ->
    pstepR c o h (PStart (OWrite tok offset len st)) (bump h met_one_write) (PWrite1 r offset w) None
| R_write_panic tok offset len st r ob x :
    h_inc h !! tok = Some r -> h_objs h !! r = Some ob ->
    write_check (dc_lpage c) (m_size (b_meta ob)) offset len = None ->
    write_start Direct (dc_spage c) (dc_lpage c) (obj_of (b_meta ob)) offset len st = Returned x ->
    pstepR c o h (PStart (OWrite tok offset len st)) (bump h met_one_write) PDone panicked
| R_w1_end r offset w resp : write_ends w resp -> pstepR c o h (PWrite1 r offset w) h PDone (Some (VRet resp))
| R_w1_more r offset w buf st amount a :
    polled w buf st -> w_written w + N.of_nat (length buf) <= w_len w ->
    w_targets w !! w_page w = Some (amount, a) -> N.of_nat (length buf) < amount ->
    pstepR c o h (PWrite1 r offset w) h (PWrite1 r offset (with_buf w buf st)) None
| R_w1_go r offset w buf st amount a :
    polled w buf st -> w_written w + N.of_nat (length buf) <= w_len w ->
    w_targets w !! w_page w = Some (amount, a) -> amount <= N.of_nat (length buf) ->
    pstepR c o h (PWrite1 r offset w) h (PWrite2 r offset w buf st) None
| R_w2 r offset w buf st ob :
    h_objs h !! r = Some ob ->
    pstepR c o h (PWrite2 r offset w buf st) (set_obj h r (set_b_readers ob (S (b_readers ob)))) (PWrite3 r offset w buf st) None
| R_w3 r offset w buf st ob :
    h_objs h !! r = Some ob -> b_state ob = ds_incomplete ->
    pstepR c o h (PWrite3 r offset w buf st) h (PWrite4 r offset w buf st) None
| R_w3_no r offset w buf st ob :
    h_objs h !! r = Some ob -> b_state ob <> ds_incomplete ->
    pstepR c o h (PWrite3 r offset w buf st) (set_obj h r (set_b_readers ob (pred (b_readers ob)))) PDone (failed ObjectNotFound)
| R_w4 r offset w buf st d w' :
    write_continue Direct (dc_spage c) true (or_junk o) (h_dev h) w buf st = (d, Running w') ->
    pstepR c o h (PWrite4 r offset w buf st) (set_dev h d) (PWrite5 r offset w') None
| R_w5 r offset w ob :
    h_objs h !! r = Some ob ->
    pstepR c o h (PWrite5 r offset w) (set_obj h r (set_b_readers ob (pred (b_readers ob)))) (PWrite1 r offset w) None
| R_commit_nf tok ine :
    h_inc h !! tok = None -> pstepR c o h (PStart (OCommit tok ine)) h PDone (failed ObjectNotFound)
| R_commit tok ine r :
    h_inc h !! tok = Some r ->
    pstepR c o h (PStart (OCommit tok ine)) (set_inc h (delete tok (h_inc h))) (PCommit1 r tok ine) None
| R_c1 r tok ine ob :
    h_objs h !! r = Some ob ->
    pstepR c o h (PCommit1 r tok ine) (set_obj h r (set_b_state ob ds_committed)) (PCommit2 r tok ine) None
| R_c2 r tok ine ob :
    h_objs h !! r = Some ob -> b_readers ob = 0%nat ->
    pstepR c o h (PCommit2 r tok ine) h (PCommit3 r tok ine) None
| R_c3_exists r tok ob e :
    h_objs h !! r = Some ob -> h_com h !! m_key (b_meta ob) = Some e ->
    pstepR c o h (PCommit3 r tok true) h (PReap1 r (KCommit None true)) None
| R_c3 r tok ine ob existing :
    h_objs h !! r = Some ob -> h_com h !! m_key (b_meta ob) = existing -> (ine = true -> existing = None) ->
    pstepR c o h (PCommit3 r tok ine)
      (use_id (set_com (add_obj h (published_obj ob (or_id o)))
                 (<[m_key (b_meta ob) := length (h_objs h)]> (h_com h))) (or_id o))
      (PCommit4 tok (or_id o) existing) None
| R_c4_panic tok new_id existing :
    tup_call (h_tup h) (CUpdate tok new_id ds_committed) = None ->
    pstepR c o h (PCommit4 tok new_id existing) h PDone panicked
| R_c4 tok new_id existing y :
    tup_call (h_tup h) (CUpdate tok new_id ds_committed) = Some y ->
    pstepR c o h (PCommit4 tok new_id existing) (set_tup h y) (PCommit5 tok (sy_calls (h_tup h)) new_id existing) None
| R_c5_some tok k new_id r :
    k ∈ sy_acked (h_tup h) ->
    pstepR c o h (PCommit5 tok k new_id (Some r)) h (PReap1 r (KCommit (Some new_id) true)) None
| R_c5_none tok k new_id :
    k ∈ sy_acked (h_tup h) ->
    pstepR c o h (PCommit5 tok k new_id None) h (PFinish (KCommit (Some new_id) false)) None
| R_delete_nf key id :
    find_committed h key id = None -> pstepR c o h (PStart (ODelete key id)) h PDone (failed ObjectNotFound)
| R_delete key id r ob :
    find_committed h key id = Some (r, ob) ->
    pstepR c o h (PStart (ODelete key id)) (set_com h (delete key (h_com h))) (PReap1 r KDelete) None
| R_reap1_panic r k ob :
    h_objs h !! r = Some ob ->
    delete_object (sy_state (h_tup h)) (sy_calls (h_tup h)) (b_id ob) = None ->
    pstepR c o h (PReap1 r k) h PDone panicked
| R_reap1 r k ob s t :
    h_objs h !! r = Some ob ->
    delete_object (sy_state (h_tup h)) (sy_calls (h_tup h)) (b_id ob) = Some (s, t) ->
    pstepR c o h (PReap1 r k)
      (set_tup h {| sy_state := s; sy_flush := sy_flush (h_tup h); sy_disk := sy_disk (h_tup h);
                    sy_calls := S (sy_calls (h_tup h)); sy_acked := sy_acked (h_tup h) |})
      (PReap2 r t (sy_calls (h_tup h)) k) None
| R_reap2_panic r t n k ob l :
    n ∈ sy_acked (h_tup h) -> h_objs h !! r = Some ob ->
    data_pages c (b_meta ob) = None \/ data_pages c (b_meta ob) = Some l /\
      (forall a, release_all (h_alloc h) (l ++ [(t_off t, t_pow2 t)]) <> Ok a) ->
    pstepR c o h (PReap2 r t n k) h PDone panicked
| R_reap2 r t n k ob l a :
    n ∈ sy_acked (h_tup h) -> h_objs h !! r = Some ob -> data_pages c (b_meta ob) = Some l ->
    release_all (h_alloc h) (l ++ [(t_off t, t_pow2 t)]) = Ok a ->
    pstepR c o h (PReap2 r t n k) (set_alloc h a) (PReap3 r k) None
| R_reap3 r k ob :
    h_objs h !! r = Some ob ->
    pstepR c o h (PReap3 r k) (bump h (met_reaped (b_msize ob) (m_size (b_meta ob)))) (PFinish k) None
| R_finish k : pstepR c o h (PFinish k) (bump h (met_cont k)) PDone (Some (VRet (cont_resp k)))
| R_inspect_nf key id :
    find_committed h key id = None -> pstepR c o h (PStart (OInspect key id)) h PDone (failed ObjectNotFound)
| R_inspect key id r ob :
    find_committed h key id = Some (r, ob) ->
    pstepR c o h (PStart (OInspect key id)) (bump h met_one_inspect) PDone
      (Some (VRet (RInspected (b_id ob) (m_size (b_meta ob)) (m_created (b_meta ob)))))
| R_read_nf key id start fin sbs :
    find_committed h key id = None -> pstepR c o h (PStart (ORead key id start fin sbs)) h PDone (failed ObjectNotFound)
| R_read_err key id start fin sbs r ob e :
    find_committed h key id = Some (r, ob) ->
    read_start Direct (dc_spage c) (dc_lpage c) (obj_of (b_meta ob)) start fin = RErr e ->
    pstepR c o h (PStart (ORead key id start fin sbs)) h PDone (failed e)
| R_read_panic key id start fin sbs r ob :
    find_committed h key id = Some (r, ob) ->
    read_start Direct (dc_spage c) (dc_lpage c) (obj_of (b_meta ob)) start fin = RPanic ->
    pstepR c o h (PStart (ORead key id start fin sbs)) h PDone panicked
| R_read key id start fin sbs r ob rd :
    find_committed h key id = Some (r, ob) ->
    read_start Direct (dc_spage c) (dc_lpage c) (obj_of (b_meta ob)) start fin = RNext rd \/
      read_start Direct (dc_spage c) (dc_lpage c) (obj_of (b_meta ob)) start fin = RDone /\ rd = empty_reader ob start ->
    pstepR c o h (PStart (ORead key id start fin sbs)) (bump h met_one_read) (PRead r sbs rd)
      (Some (VRet (RReading (b_id ob) (m_size (b_meta ob)) start (default (m_size (b_meta ob)) fin))))
| R_chunk r sbs rd ob data rng rd' :
    h_objs h !! r = Some ob ->
    direct_read_step (dc_spage c) (dc_lpage c) sbs (b_state ob =? ds_committed) (b_state ob =? ds_committed) (h_dev h) rd
      = (Some (data, rng), RNext rd') ->
    pstepR c o h (PRead r sbs rd) h (PRead r sbs rd') (Some (VChunk data))
| R_end r sbs rd ob x e :
    h_objs h !! r = Some ob ->
    direct_read_step (dc_spage c) (dc_lpage c) sbs (b_state ob =? ds_committed) (b_state ob =? ds_committed) (h_dev h) rd
      = (x, e) -> (forall rd', e <> RNext rd') ->
    pstepR c o h (PRead r sbs rd) h PDone (Some (VEnd e)).

Lemma poll_R c o h r offset w buf st x : polled w buf st -> poll h r offset w buf st = Some x ->
  pstepR c o h (PWrite1 r offset w) x.1.1 x.1.2 x.2.
Proof.
  intros Hp. unfold poll. destruct (N.ltb_spec (w_len w) (w_written w + N.of_nat (length buf))) as [H1|H1].
  { intros H. injection H as <-. apply R_w1_end. eapply we_long; eassumption. }
  destruct (w_targets w !! w_page w) as [[amount a]|] eqn:Et.
  2:{ intros H. injection H as <-. apply R_w1_end. eapply we_panic; eassumption. }
  destruct (N.ltb_spec (N.of_nat (length buf)) amount) as [H2|H2]; intros H; injection H as <-.
  - eapply R_w1_more; eassumption.
  - eapply R_w1_go; eassumption.
Qed.

Lemma read_step_next spage lpage sbs v1 v2 d r x r' :
  direct_read_step spage lpage sbs v1 v2 d r = (x, RNext r') -> x <> None.
Proof.
  unfold direct_read_step. repeat case_match; let HH := fresh in intros HH; injection HH; intros; subst; discriminate.
Qed.

Ltac ok := match goal with H : Some _ = Some (_, _, _) |- _ => injection H as <- <- <- end.
Lemma pstep_R c o h p h' p' v : pstep c o h p = Some (h', p', v) -> pstepR c o h p h' p' v.
Proof.
  destruct p as [op|key size lpages tails|m msize moff id|m msize moff id|m msize moff id k|r offset w|r offset w buf st
    |r offset w buf st|r offset w buf st|r offset w|r tok ine|r tok ine|r tok ine|tok new_id existing|tok k new_id existing
    |r k|r t n k|r k|k|r sbs rd|]; cbn [pstep]; unfold ret, go.
  - destruct op as [key size|tok offset len st|tok ine|key id|key id|key id start fin sbs].
    + destruct (calc_object_layout _ _ _ _) as [[lc t]|] eqn:E1; [|intros; ok; constructor].
      destruct (tps_collect t) as [l|] eqn:E2; [|intros; ok; constructor].
      fold (create_sizes c lc l). destruct (alloc_list _ _) as [a [offs|]] eqn:E3; intros; ok.
      * eapply R_create; eassumption.
      * eapply R_create_oos; eassumption.
    + destruct (h_inc h !! tok) as [r|] eqn:E1; [|intros; ok; now constructor].
      destruct (h_objs h !! r) as [ob|] eqn:E2; [|discriminate].
      destruct (write_check _ _ _ _) eqn:E3; [intros; ok; eapply R_write_check; eassumption|].
      destruct (write_start _ _ _ _ _ _ _) eqn:E4; intros; ok; [eapply R_write|eapply R_write_panic]; eassumption.
    + destruct (h_inc h !! tok) as [r|] eqn:E1; intros; ok; now constructor.
    + destruct (find_committed h key id) as [[r ob]|] eqn:E1; intros; ok; [eapply R_delete|eapply R_delete_nf]; eassumption.
    + destruct (find_committed h key id) as [[r ob]|] eqn:E1; intros; ok; [eapply R_inspect|eapply R_inspect_nf]; eassumption.
    + destruct (find_committed h key id) as [[r ob]|] eqn:E1; [|intros; ok; now eapply R_read_nf].
      destruct (read_start _ _ _ _ _ _) eqn:E2; intros; ok.
      * eapply R_read; eauto.
      * eapply R_read; eauto.
      * eapply R_read_err; eauto.
      * eapply R_read_panic; eauto.
  - fold (new_meta o key size lpages tails). fold (msize_of (new_meta o key size lpages tails)).
    destruct (N.ltb_spec (2 ^ dc_lpage c) (msize_of (new_meta o key size lpages tails))) as [H1|H1]; [intros; ok; constructor|].
    destruct (allocate _ _) as [a [off| |]] eqn:E; intros; ok.
    + now apply R_create1.
    + eapply R_create1_oos; [exact H1|exact E|discriminate].
    + eapply R_create1_oos; [exact H1|exact E|discriminate].
  - intros; ok. apply R_create2.
  - fold (new_tuple c msize moff id). destruct (tup_call _ _) as [y|] eqn:E; intros; ok; now constructor.
  - destruct (bool_decide _) eqn:Ek; [|discriminate]. apply bool_decide_eq_true in Ek.
    destruct (h_inc h !! id) as [r|] eqn:E; intros; ok; [eapply R_create4_panic|eapply R_create4]; eassumption.
  - destruct (w_stream w) as [|[chunk|] st] eqn:E.
    + destruct (w_buf w) as [|b buf] eqn:Eb.
      * intros; ok. apply R_w1_end. destruct (N.eqb_spec (w_written w) (w_len w)); cbn [negb]; [apply we_ok|apply we_short]; auto.
      * intros H. rewrite <- Eb in H. apply (poll_R c o) in H; [exact H|]. apply polled_end; [exact E|rewrite Eb; discriminate].
    + intros H. apply (poll_R c o) in H; [exact H|]. constructor. exact E.
    + intros; ok. apply R_w1_end. eapply we_fail. exact E.
  - destruct (h_objs h !! r) eqn:E; [|discriminate]. intros; ok. now apply R_w2.
  - destruct (h_objs h !! r) eqn:E; [|discriminate]. destruct (N.eqb_spec (b_state d) ds_incomplete); intros; ok.
    + eapply R_w3; eassumption.
    + eapply R_w3_no; eassumption.
  - destruct (write_continue _ _ _ _ _ _ _ _) as [d [w'|]] eqn:E; [|discriminate]. intros; ok. eapply R_w4; exact E.
  - destruct (h_objs h !! r) eqn:E; [|discriminate]. intros; ok. now apply R_w5.
  - destruct (h_objs h !! r) eqn:E; [|discriminate]. intros; ok. now apply R_c1.
  - destruct (h_objs h !! r) eqn:E; [|discriminate]. destruct (Nat.eqb_spec (b_readers d) 0); [|discriminate]. intros; ok. eapply R_c2; eassumption.
  - destruct (h_objs h !! r) as [ob|] eqn:E; [|discriminate].
    destruct (h_com h !! m_key (b_meta ob)) as [e|] eqn:E2; [destruct ine|]; intros; ok.
    + eapply R_c3_exists; eassumption.
    + eapply R_c3; [exact E|exact E2|discriminate].
    + eapply R_c3; [exact E|exact E2|reflexivity].
  - destruct (tup_call _ _) as [y|] eqn:E; intros; ok; now constructor.
  - destruct (bool_decide _) eqn:Ek; [|discriminate]. apply bool_decide_eq_true in Ek.
    destruct existing; intros; ok; now constructor.
  - destruct (h_objs h !! r) as [ob|] eqn:E; [|discriminate]. unfold tup_call, call_exec.
    destruct (delete_object _ _ _) as [[s t]|] eqn:E2; cbn; intros; ok.
    + eapply R_reap1; eassumption.
    + eapply R_reap1_panic; eassumption.
  - destruct (bool_decide _) eqn:Ek; [|discriminate]. apply bool_decide_eq_true in Ek.
    destruct (h_objs h !! r) as [ob|] eqn:E; [|discriminate].
    destruct (data_pages c (b_meta ob)) as [l|] eqn:E2; [|intros; ok; eapply (R_reap2_panic _ _ _ _ _ _ _ _ []); eauto].
    destruct (release_all _ _) as [a| |] eqn:E3; intros; ok.
    + eapply R_reap2; eassumption.
    + eapply R_reap2_panic; [eassumption..|]. right. split; [exact E2|]. rewrite E3. discriminate.
    + eapply R_reap2_panic; [eassumption..|]. right. split; [exact E2|]. rewrite E3. discriminate.
  - destruct (h_objs h !! r) eqn:E; [|discriminate]. intros; ok. now apply R_reap3.
  - intros; ok. apply R_finish.
  - destruct (h_objs h !! r) as [ob|] eqn:E; [|discriminate].
    destruct (direct_read_step _ _ _ _ _ _ _) as [x e] eqn:E2. destruct x as [[data rng]|].
    + destruct e; intros; ok; [eapply R_chunk; eassumption|eapply R_end; [exact E|exact E2|discriminate]..].
    + destruct e as [rd'| | |]; intros; ok; [|eapply R_end; [exact E|exact E2|discriminate]..].
      exfalso. eapply read_step_next; [exact E2|reflexivity].
  - discriminate.
Qed.
