(** Properties C17-C20: the object index of libblobd-direct. *)
From stdpp Require Import base numbers list list_numbers option gmap sets fin_sets fin_maps.
From Coq Require Import ZifyBool ZifyNat ZifyN.
From Verif Require Import Util Bytes TuplesModel TuplesSpec TuplesCodec TuplesProofs TuplesSys TuplesDurable.
Open Scope N_scope.
Ltac Zify.zify_post_hook ::= idtac.

(** ** C17 *)
(** Whatever the page buffer contained before, an index page written with at
    most its capacity of entries has the size of a page and reads back as exactly
    those entries. *)
Theorem C17_index_page_round_trip : forall spage junk ts,
  N.of_nat (length junk) = 2 ^ spage -> Forall valid_entry ts -> N.of_nat (length ts) <= 2 ^ spage / 24 ->
  exists page, serialise_bundle (2 ^ spage / 24) junk ts = Some page /\ length page = length junk /\
    parse_bundle page = Some ts.
Proof.
  intros spage junk ts Hj Hv Hl. pose proof (N.div_mod (2 ^ spage) 24 ltac:(discriminate)). pose proof (N.mod_lt (2 ^ spage) 24 ltac:(discriminate)).
  apply bundle_roundtrip; [exact Hv|exact Hl|lia|lia].
Qed.
(** The whole index area: page by page, in order. *)
Theorem C17_index_area_round_trip : forall spage junks ls pages,
  Forall (fun p => N.of_nat (length p) = 2 ^ spage) junks ->
  Forall (fun ts => Forall valid_entry ts /\ N.of_nat (length ts) <= 2 ^ spage / 24) ls ->
  Forall2 (fun '(junk, ts) page => serialise_bundle (2 ^ spage / 24) junk ts = Some page) (zip junks ls) pages ->
  length junks = length ls ->
  load_area spage (concat pages) = Some ls.
Proof.
  intros spage junks ls pages Hj Hl H Hlen.
  assert (Forall (fun p => N.of_nat (length p) = 2 ^ spage) pages /\ mapM parse_bundle pages = Some ls) as [Hp Hm].
  { revert ls pages Hl H Hlen. induction Hj as [|junk junks Hj1 _ IH]; intros [|ts ls] pages Hl H Hlen; try discriminate.
    - inversion H; subst. split; [constructor|reflexivity].
    - cbn [zip zip_with] in H. inversion H as [|? page ? pages' H1 H2]; subst. inversion Hl as [|? ? [Hv Hn] Hl']; subst.
      destruct (C17_index_page_round_trip spage junk ts Hj1 Hv Hn) as (page' & E1 & E2 & E3). rewrite E1 in H1. injection H1 as <-.
      destruct (IH ls pages' Hl' H2 ltac:(injection Hlen as Hlen; exact Hlen)) as [IH1 IH2].
      split; [constructor; [rewrite E2; exact Hj1|exact IH1]|]. cbn [mapM]. rewrite E3. cbn [mbind option_bind]. rewrite IH2. reflexivity. }
  rewrite load_area_pages by exact Hp. exact Hm.
Qed.
(** A full page (21 entries of 24 bytes in 512) needs and has no end marker. *)
Definition ex_tuple (i : N) : tuple := {| t_state := 1 + i mod 2; t_id := 2 ^ 127 + i; t_off := 4096 * i; t_pow2 := 9 |}.
Definition ex_full : list tuple := ex_tuple <$> (N.of_nat <$> seq 0 21).
Theorem C17_example_full : option_map parse_bundle (serialise_bundle (2 ^ 9 / 24) (replicate 512 0xAB) ex_full) = Some (Some ex_full).
Proof. vm_compute. reflexivity. Qed.
Theorem C17_example_partial : option_map parse_bundle (serialise_bundle (2 ^ 9 / 24) (replicate 512 0xAB) (take 3 ex_full)) = Some (Some (take 3 ex_full)).
Proof. vm_compute. reflexivity. Qed.

(** ** C18 *)
(** In every state reachable from opening any index, by any calls interleaved in
    any way with the background flush: an object is in the index exactly if the
    calls so far say so, it is then in exactly one page, under its current state,
    and no page exceeds its capacity. *)
Theorem C18_index_pages_hold_exactly_the_objects : forall spage pages init y0 cs y,
  opens spage pages init y0 -> runs y0 cs y ->
  (forall id t, after_calls (index_of init) cs !! id = Some t ->
     exists b, in_memory (sy_state y) b id t /\ forall b' t', in_memory (sy_state y) b' id t' -> b' = b /\ t' = t) /\
  (forall id, after_calls (index_of init) cs !! id = None -> forall b t, ~ in_memory (sy_state y) b id t) /\
  (forall b m, ts_bundles (sy_state y) !! b = Some m -> N.of_nat (size m) <= 2 ^ spage / 24) /\
  length (ts_bundles (sy_state y)) = length pages.
Proof.
  intros spage pages init y0 cs y Ho R. destruct (run_inv _ _ _ _ _ _ Ho R) as (I & Hm & Hl & _).
  split; [|split; [|split]].
  - intros id t E. apply (i_sp _ _ I) in E as [b Hb]. exists b. split; [exact Hb|]. intros b' t' H'. eapply inv_unique; eauto.
  - intros id E b t H. assert (after_calls (index_of init) cs !! id = Some t) by (apply (i_sp _ _ I); eauto). congruence.
  - intros b m E. rewrite <- Hm. apply (i_max _ _ I _ _ E).
  - rewrite Hl. destruct Ho as (Hp & Hla & _). rewrite load_area_pages in Hla by (eapply Forall_impl; [exact Hp|]; intros p [H _]; exact H).
    apply mapM_length in Hla. lia.
Qed.
(** State changes and deletions of existing objects never fail. *)
Theorem C18_update_and_delete_never_fail : forall spage pages init y0 cs y id t,
  opens spage pages init y0 -> runs y0 cs y -> after_calls (index_of init) cs !! id = Some t ->
  is_Some (call_exec (sy_state y) (sy_calls y) (CDelete id)) /\
  forall new st, after_calls (index_of init) cs !! new = None -> is_Some (call_exec (sy_state y) (sy_calls y) (CUpdate id new st)).
Proof.
  intros spage pages init y0 cs y id t Ho R E. destruct (run_inv _ _ _ _ _ _ Ho R) as (I & _).
  apply (i_sp _ _ I) in E as (b & m & Em & Et).
  assert (ts_id2b (sy_state y) !! id = Some b) as E2 by (apply (i_id2b _ _ I); exists t, m; auto).
  split.
  - cbn [call_exec]. unfold delete_object. rewrite E2. cbn [mbind option_bind]. rewrite Em. cbn [mbind option_bind]. rewrite Et. eexists. reflexivity.
  - intros new st Hn. cbn [call_exec]. unfold update_object. rewrite E2. cbn [mbind option_bind]. rewrite Em. cbn [mbind option_bind]. rewrite Et. cbn [mbind option_bind].
    assert (forall b' t', ~ in_memory (sy_state y) b' new t') as Hno.
    { intros b' t' H. assert (after_calls (index_of init) cs !! new = Some t') by (apply (i_sp _ _ I); eauto). congruence. }
    destruct (delete id m !! new) as [t'|] eqn:E3.
    { exfalso. apply lookup_delete_Some in E3 as [_ E3]. apply (Hno b t'). exists m. auto. }
    destruct (delete id (ts_id2b (sy_state y)) !! new) as [b'|] eqn:E4; [|eexists; reflexivity].
    exfalso. apply lookup_delete_Some in E4 as [_ E4]. apply (i_id2b _ _ I) in E4 as [t' H]. exact (Hno _ _ H).
Qed.

(** ** C19 *)
(** At every point of every interleaving (so also if the process dies there),
    reopening the device as it is succeeds, and what it finds for an object [id]
    is what the calls up to some moment [J id] make of it - a moment after every
    acknowledged call about that object.  The two ids of one state change share
    their moment: it is found wholly or not at all. *)
Theorem C19_acknowledged_calls_are_durable : forall spage pages init y0 cs y,
  opens spage pages init y0 -> Forall valid_call cs -> fresh_ids init cs -> runs y0 cs y ->
  exists init' y' (J : N -> nat), opens spage (sy_disk y) init' y' /\
    (forall id, (J id <= length cs)%nat /\ index_of init' !! id = after_calls (index_of init) (take (J id) cs) !! id) /\
    (forall k c id, cs !! k = Some c -> k ∈ sy_acked y -> id ∈ touched c -> (k < J id)%nat) /\
    (forall k cur new st, cs !! k = Some (CUpdate cur new st) -> J cur = J new).
Proof. exact reopen. Qed.

(** ** C20 *)
Definition capacity (spage : N) (pages : list (list N)) : N := N.of_nat (length pages) * (2 ^ spage / 24).

(** Creation succeeds while the number of stored objects plus the number of
    deletions since the store was opened is below the capacity. *)
Lemma sum_room (bs : bundles) (max : N) : (forall b m, bs !! b = Some m -> N.of_nat (size m) <= max) ->
  (sum_list (imap (fun _ m => N.to_nat max - size m)%nat bs) + total bs = length bs * N.to_nat max)%nat.
Proof.
  induction bs as [|m bs IH]; intros H; [reflexivity|]. rewrite imap_cons.
  change (N.to_nat max - size m + sum_list (imap (fun _ m => N.to_nat max - size m) bs) + (size m + total bs) = S (length bs) * N.to_nat max)%nat.
  pose proof (H 0%nat m eq_refl). specialize (IH (fun b m E => H (S b) m E)). lia.
Qed.
Theorem C20_create_succeeds_partial : forall spage pages init y0 cs y o,
  opens spage pages init y0 -> runs y0 cs y ->
  N.of_nat (size (after_calls (index_of init) cs)) + N.of_nat (length (filter (fun c => is_delete c = true) cs)) < capacity spage pages ->
  after_calls (index_of init) cs !! t_id o = None ->
  is_Some (call_exec (sy_state y) (sy_calls y) (CInsert o)).
Proof.
  intros spage pages init y0 cs y o Ho R Hc Hn. destruct (run_inv _ _ _ _ _ _ Ho R) as (I & Hm & Hl & Hd & _).
  fold (deletes cs) in Hc. unfold capacity in Hc.
  assert (length pages = length init) as Lp.
  { destruct Ho as (Hp & Hla & _). rewrite load_area_pages in Hla by (eapply Forall_impl; [exact Hp|]; intros p [H _]; exact H).
    apply mapM_length in Hla. lia. }
  rewrite Lp, <- Hl, <- Hm in Hc. rewrite (i_count _ _ I) in Hc.
  pose proof (sum_room _ _ (i_max _ _ I)) as Hs.
  assert (ts_free (sy_state y) <> ∅) as Hne.
  { intros E. unfold deficit in Hd. rewrite E in Hd.
    assert (sum_list (imap (fun _ m => N.to_nat (ts_max (sy_state y)) - size m)%nat (ts_bundles (sy_state y)))
       <= sum_list (imap (fun (b : nat) m => if decide (b ∈ (∅ : gset nat)) then 0 else N.to_nat (ts_max (sy_state y)) - size m)%nat (ts_bundles (sy_state y))))%nat as Hle.
    { apply sum_imap_le. intros i x _. destruct (decide _) as [Hx|]; [exfalso; exact (not_elem_of_empty _ Hx)|lia]. }
    assert (N.of_nat (length (ts_bundles (sy_state y))) * ts_max (sy_state y) = N.of_nat (length (ts_bundles (sy_state y)) * N.to_nat (ts_max (sy_state y)))) as Ep by lia.
    rewrite Ep in Hc. clear - Hc Hs Hle Hd.
    pose proof (Nat.le_trans _ _ _ Hle Hd) as Hle2. clear Hle Hd. lia. }
  cbn [call_exec]. unfold insert_object.
  assert (exists b m, (match bm_min (ts_fad (sy_state y)) with Some b => Some b | None => bm_min (ts_free (sy_state y)) end) = Some b /\
     ts_bundles (sy_state y) !! b = Some m /\ N.of_nat (size m) < ts_max (sy_state y)) as (b & m & -> & Em & Hz).
  { destruct (bm_min (ts_fad (sy_state y))) as [b|] eqn:E.
    - apply bm_min_elem, (i_fad _ _ I) in E as (m & E1 & E2). eauto.
    - destruct (bm_min (ts_free (sy_state y))) as [b|] eqn:E'; [|apply bm_min_None in E'; contradiction].
      apply bm_min_elem, (i_free _ _ I) in E' as (m & E1 & E2). eauto. }
  cbn [mbind option_bind].
  destruct (ts_id2b (sy_state y) !! t_id o) as [b'|] eqn:E.
  { exfalso. apply (i_id2b _ _ I) in E as [t H]. assert (after_calls (index_of init) cs !! t_id o = Some t) by (apply (i_sp _ _ I); eauto). congruence. }
  rewrite Em. cbn [mbind option_bind]. destruct (m !! t_id o) as [t|] eqn:E'.
  { exfalso. assert (after_calls (index_of init) cs !! t_id o = Some t) by (apply (i_sp _ _ I); exists b, m; auto). congruence. }
  rewrite map_size_insert_None by exact E'. destruct (N.ltb_spec (ts_max (sy_state y)) (N.of_nat (S (size m)))); [lia|]. eexists. reflexivity.
Qed.

(** A driver for concrete runs: a call, or one complete flush. *)
Definition one_flush (y : tsys) : option tsys :=
  let s := sy_state y in
  let changes := (fun b => (b, default [] (values <$> (ts_bundles s !! b)))) <$> elements (ts_dirty s) in
  match sy_flush y, changes with
  | TIdle, [(b, l)] =>
      old ← sy_disk y !! b;
      page ← serialise_bundle (ts_max s) (replicate (length old) 0) l;
      if decide (is_Some (ts_bundles s !! b)) then
      Some {| sy_state := {| ts_id2b := ts_id2b s; ts_bundles := ts_bundles s; ts_free := ts_free s; ts_dirty := ∅; ts_fad := ∅;
                             ts_signals := []; ts_max := ts_max s |};
              sy_flush := TIdle; sy_disk := <[b := page]> (sy_disk y); sy_calls := sy_calls y; sy_acked := sy_acked y ++ ts_signals s |}
      else None
  | _, _ => None
  end.
Definition drive1 (y : tsys) (e : option tcall) : option tsys :=
  match e with
  | Some c => s ← call_exec (sy_state y) (sy_calls y) c;
      Some {| sy_state := s; sy_flush := sy_flush y; sy_disk := sy_disk y; sy_calls := S (sy_calls y); sy_acked := sy_acked y |}
  | None => one_flush y
  end.
Fixpoint drive (y : tsys) (es : list (option tcall)) : option tsys :=
  match es with [] => Some y | e :: es => y ← drive1 y e; drive y es end.
Lemma drive_runs y0 es : forall cs y y', runs y0 cs y -> drive y es = Some y' -> runs y0 (cs ++ omap id es) y'.
Proof.
  induction es as [|e es IH]; intros cs y y' R H.
  - cbn in *. injection H as <-. rewrite app_nil_r. exact R.
  - cbn [drive] in H. destruct (drive1 y e) as [y1|] eqn:E; [|discriminate]. cbn [mbind option_bind] in H.
    destruct e as [c|]; cbn [drive1] in E.
    + destruct (call_exec (sy_state y) (sy_calls y) c) as [s|] eqn:Es; [|discriminate]. cbn [mbind option_bind] in E. injection E as <-.
      change (omap id (Some c :: es)) with ([c] ++ omap id es). rewrite app_assoc. eapply IH; [|exact H].
      eapply runs_call; [exact R|]. apply tstep_call. exact Es.
    + change (omap id (None :: es)) with (omap id es). eapply IH; [|exact H]. clear IH H.
      unfold one_flush in E. destruct (sy_flush y) eqn:Ef; [|discriminate].
      destruct (fmap _ (elements (ts_dirty (sy_state y)))) as [|[b l] [|]] eqn:Ec; try discriminate.
      destruct (sy_disk y !! b) as [old|] eqn:Eo; [|discriminate]. cbn [mbind option_bind] in E.
      destruct (serialise_bundle _ _ l) as [page|] eqn:Ep; [|discriminate]. cbn [mbind option_bind] in E.
      destruct (decide (is_Some (ts_bundles (sy_state y) !! b))) as [[m Em]|]; [|discriminate]. injection E as <-.
      eapply runs_flush; [eapply runs_flush; [eapply runs_flush; [exact R|apply (tstep_snapshot y [(b, l)] Ef)]|]|].
      * intros b0. assert ([b] = elements (ts_dirty (sy_state y))) as Eel.
        { apply (f_equal (fmap fst)) in Ec. rewrite <- list_fmap_compose in Ec. cbn in Ec. rewrite <- Ec. transitivity (id <$> elements (ts_dirty (sy_state y))); [apply list_fmap_ext; reflexivity|apply list_fmap_id]. }
        cbn. rewrite Eel. rewrite elem_of_elements. reflexivity.
      * cbn. apply NoDup_singleton.
      * discriminate.
      * intros b0 l0 Hin. apply elem_of_list_singleton in Hin. injection Hin as -> ->.
        exists m. split; [exact Em|]. 
        assert ((b, l) ∈ (fun b => (b, default [] (values <$> (ts_bundles (sy_state y) !! b)))) <$> elements (ts_dirty (sy_state y))) as Hin.
        { rewrite Ec. constructor. }
        apply elem_of_list_fmap in Hin as (b1 & E1 & _). injection E1 as -> ->. rewrite Em. reflexivity.
      * eapply (tstep_write _ [] b l [] _ (replicate (length old) 0)); cbn; [reflexivity|exact Eo|apply replicate_length| |exact Ep].
        apply Forall_replicate. reflexivity.
      * cbn. match goal with |- tstep ?a None _ => apply (tstep_signal a) end. reflexivity.
Qed.

Definition valid_call_b (c : tcall) : bool :=
  match c with
  | CInsert o => ((t_state o =? 1) || (t_state o =? 2)) && (t_id o <? 2 ^ 128) && (t_off o <? 2 ^ 48) && (t_pow2 o <? 256)
  | CUpdate _ new st => (new <? 2 ^ 128) && ((st =? 1) || (st =? 2))
  | CDelete _ => true
  end.
Lemma valid_calls_b cs : forallb valid_call_b cs = true -> Forall valid_call cs.
Proof.
  intros H. rewrite forallb_forall in H. apply Forall_forall. intros c Hc. apply elem_of_list_In, H in Hc.
  destruct c as [o|cur new st|i]; cbn [valid_call valid_call_b] in *; [unfold valid_entry|..|exact I]; lia.
Qed.

Definition ex_pages (n : nat) : list (list N) := replicate n (replicate 512 0).
Definition ex_open (n : nat) : option tsys :=
  s ← tuples_new 9 (replicate n []);
  Some {| sy_state := s; sy_flush := TIdle; sy_disk := ex_pages n; sy_calls := 0%nat; sy_acked := [] |}.
Lemma ex_opens n y : ex_open n = Some y -> load_area 9 (concat (ex_pages n)) = Some (replicate n []) -> opens 9 (ex_pages n) (replicate n []) y.
Proof.
  unfold ex_open. destruct (tuples_new 9 (replicate n [])) as [s|] eqn:E; [|discriminate]. cbn [mbind option_bind]. intros H Hl. injection H as <-.
  unfold opens. cbn [sy_state sy_flush sy_disk sy_calls sy_acked]. split; [|auto 10]. apply Forall_replicate. split; [reflexivity|]. apply Forall_replicate. reflexivity.
Qed.

(** The full statement fails: fill the only page, delete one object, let both be
    flushed: 20 of 21 entries are stored and the next creation panics, because a
    deletion does not put the page back among the free ones (tuples.rs:130-145). *)
Definition c20_events : list (option tcall) :=
  ((fun i => Some (CInsert (ex_tuple i))) <$> (N.of_nat <$> seq 0 21)) ++ [None; Some (CDelete (2 ^ 127 + 5)); None].
Theorem C20_create_after_delete_refuted :
  exists pages init y0 cs y o, opens 9 pages init y0 /\ Forall valid_call cs /\ valid_entry o /\
    fresh_ids init (cs ++ [CInsert o]) /\ runs y0 cs y /\
    N.of_nat (size (after_calls (index_of init) cs)) < capacity 9 pages /\
    call_exec (sy_state y) (sy_calls y) (CInsert o) = None.
Proof.
  assert (match ex_open 1 ≫= fun y0 => drive y0 c20_events with
    | Some y => bool_decide (is_Some (call_exec (sy_state y) (sy_calls y) (CInsert (ex_tuple 30)))) | None => true end = false) as H by (vm_compute; reflexivity).
  destruct (ex_open 1) as [y0|] eqn:E0; [|discriminate H]. cbn [mbind option_bind] in H.
  destruct (drive y0 c20_events) as [y|] eqn:E; [|discriminate H].
  exists (ex_pages 1), (replicate 1 []), y0, (omap id c20_events), y, (ex_tuple 30).
  split; [apply ex_opens; [exact E0|vm_compute; reflexivity]|]. split.
  { apply valid_calls_b. vm_compute. reflexivity. }
  split; [unfold valid_entry; cbn; split; [left; reflexivity|]; repeat split; reflexivity|].
  split.
  { unfold fresh_ids. apply (bool_decide_unpack _). vm_compute. exact I. }
  split; [apply (drive_runs y0 c20_events [] y0 y); [constructor|exact E]|].
  split; [vm_compute; reflexivity|].
  apply bool_decide_eq_false in H. destruct (call_exec _ _ _); [exfalso; apply H; eauto|reflexivity].
Qed.

(** A non-trivial run meets the hypotheses of C18-C20: two pages, interleaved
    calls and a flush; two of the four calls are acknowledged. *)
Definition ex_events : list (option tcall) :=
  [Some (CInsert (ex_tuple 0)); Some (CUpdate (2 ^ 127) 7 2); None; Some (CInsert (ex_tuple 1)); Some (CDelete 7)].
Definition ex_calls : list tcall := omap id ex_events.
Theorem C18_C19_example : exists y0 y, opens 9 (ex_pages 2) [[]; []] y0 /\ runs y0 ex_calls y /\
  Forall valid_call ex_calls /\ fresh_ids [[]; []] ex_calls /\ sy_acked y = [0; 1]%nat /\
  (load_area 9 (concat (sy_disk y)) = Some [[{| t_state := 2; t_id := 7; t_off := 0; t_pow2 := 9 |}]; []]).
Proof.
  assert (match ex_open 2 ≫= fun y0 => drive y0 ex_events with
    | Some y => bool_decide (sy_acked y = [0; 1]%nat) &&
       match load_area 9 (concat (sy_disk y)) with Some [[t]; []] => (t_state t =? 2) && (t_id t =? 7) && (t_off t =? 0) && (t_pow2 t =? 9) | _ => false end
    | None => false end = true) as H by (vm_compute; reflexivity).
  destruct (ex_open 2) as [y0|] eqn:E0; [|discriminate H]. cbn [mbind option_bind] in H.
  destruct (drive y0 ex_events) as [y|] eqn:E; [|discriminate H].
  apply andb_prop in H as [H1 H2]. apply bool_decide_eq_true in H1.
  exists y0, y. split; [apply ex_opens; [exact E0|vm_compute; reflexivity]|].
  split; [apply (drive_runs y0 ex_events [] y0 y); [constructor|exact E]|].
  split; [apply valid_calls_b; vm_compute; reflexivity|].
  split; [unfold fresh_ids; apply (bool_decide_unpack _); vm_compute; exact I|].
  split; [exact H1|]. destruct (load_area 9 (concat (sy_disk y))) as [[|[|[st i o p] [|]] [|[|] [|]]]|]; try discriminate H2.
  cbn in H2. repeat (apply andb_prop in H2 as [H2 ?]). repeat f_equal; lia.
Qed.

Print Assumptions C17_index_page_round_trip.
Print Assumptions C17_index_area_round_trip.
Print Assumptions C18_index_pages_hold_exactly_the_objects.
Print Assumptions C18_update_and_delete_never_fail.
Print Assumptions C19_acknowledged_calls_are_durable.
Print Assumptions C20_create_succeeds_partial.
Print Assumptions C20_create_after_delete_refuted.
