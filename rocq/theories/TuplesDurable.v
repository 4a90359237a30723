(** What the device holds, at every point of every interleaving. *)
From stdpp Require Import base numbers list list_numbers option gmap sets fin_sets fin_maps.
From Coq Require Import ZifyBool ZifyNat ZifyN.
From Verif Require Import Util Bytes TuplesModel TuplesSpec TuplesCodec TuplesProofs TuplesSys.
Open Scope N_scope.
Ltac Zify.zify_post_hook ::= idtac.

(** Entries parsed from bytes are valid. *)
Lemma buf_read_bytes b off len r : buf_read b off len = Some r -> Forall is_byte b -> Forall is_byte r.
Proof.
  unfold buf_read. destruct (_ <=? _); [|discriminate]. intros H F. injection H as <-.
  apply Forall_take, Forall_drop, F.
Qed.
Lemma deserialise_valid raw t : Forall is_byte raw -> tuple_deserialise raw = Some t -> t_state t <> ds_end -> valid_entry t.
Proof.
  intros F. unfold tuple_deserialise. destruct (negb _); [discriminate|].
  destruct (buf_read raw tup_off_state 1) as [r0|] eqn:E0; [|discriminate].
  cbn [fmap option_fmap option_map mbind option_bind].
  destruct (state_from_u8 (be_val r0)) as [st|] eqn:Es; [|discriminate]. cbn [mbind option_bind].
  destruct (buf_read raw tup_off_id 16) as [r1|] eqn:E1; [|discriminate]. cbn [fmap option_fmap option_map mbind option_bind].
  destruct (buf_read raw tup_off_meta 6) as [r2|] eqn:E2; [|discriminate]. cbn [fmap option_fmap option_map mbind option_bind].
  destruct (buf_read raw tup_off_pow2 1) as [r3|] eqn:E3; [|discriminate]. cbn [fmap option_fmap option_map mbind option_bind].
  intros H Hne. injection H as <-. cbn in Hne.
  unfold valid_entry. cbn [t_state t_id t_off t_pow2]. split; [|split; [|split]].
  - unfold state_from_u8 in Es. destruct (N.leb_spec (be_val r0) 2); [|discriminate]. injection Es as <-. unfold ds_end in Hne. lia.
  - pose proof (le_val_lt r1 (buf_read_bytes _ _ _ _ E1 F)) as Hx. rewrite (buf_read_length _ _ _ _ E1) in Hx. exact Hx.
  - pose proof (le_val_lt r2 (buf_read_bytes _ _ _ _ E2 F)) as Hx. rewrite (buf_read_length _ _ _ _ E2) in Hx. exact Hx.
  - pose proof (be_val_lt r3 (buf_read_bytes _ _ _ _ E3 F)) as Hx. rewrite (buf_read_length _ _ _ _ E3) in Hx. exact Hx.
Qed.
Lemma head_read c st : head c ≫= state_from_u8 = Some st -> forall t, tuple_deserialise c = Some t -> t_state t = st.
Proof.
  intros Hh t. destruct c as [|x c]; [discriminate|]. cbn [head mbind option_bind] in Hh.
  unfold tuple_deserialise. destruct (negb _) eqn:En; [discriminate|].
  assert (buf_read (x :: c) tup_off_state 1 = Some [x]) as ->.
  { change (x :: c) with ([] ++ [x] ++ c). apply buf_read_app'; reflexivity. }
  cbn [fmap option_fmap option_map mbind option_bind]. assert (be_val [x] = x) as -> by (cbn; lia). rewrite Hh. cbn [mbind option_bind].
  destruct (buf_read (x :: c) tup_off_id 16) as [r1|] eqn:E1; [|discriminate]. cbn [fmap option_fmap option_map mbind option_bind].
  destruct (buf_read (x :: c) tup_off_meta 6) as [r2|] eqn:E2; [|discriminate]. cbn [fmap option_fmap option_map mbind option_bind].
  destruct (buf_read (x :: c) tup_off_pow2 1) as [r3|] eqn:E3; [|discriminate]. cbn [fmap option_fmap option_map mbind option_bind].
  intros H. injection H as <-. reflexivity.
Qed.
Lemma chunks_bytes fuel n l : Forall is_byte l -> Forall (Forall is_byte) (chunks_exact fuel n l).
Proof.
  revert l. induction fuel; intros l F; [constructor|]. rewrite chunks_S. destruct (_ <? _)%nat; [constructor|].
  constructor; [apply Forall_take, F|]. apply IHfuel, Forall_drop, F.
Qed.
Lemma parse_chunks_valid cs ts : Forall (Forall is_byte) cs -> parse_chunks cs = Some ts -> Forall valid_entry ts.
Proof.
  intros F. revert ts. induction F as [|c cs Fc _ IH]; intros ts H.
  - cbn in H. injection H as <-. constructor.
  - rewrite parse_cons in H. destruct (head c ≫= state_from_u8) as [st|] eqn:Eh; [|discriminate]. cbn [mbind option_bind] in H.
    destruct (N.eqb_spec st ds_end) as [|Hne]; [injection H as <-; constructor|].
    destruct (tuple_deserialise c) as [t|] eqn:Et; [|discriminate]. cbn [mbind option_bind] in H.
    destruct (parse_chunks cs) as [ts'|] eqn:Ep; [|discriminate]. cbn [mbind option_bind] in H. injection H as <-.
    constructor; [|apply IH; reflexivity]. eapply deserialise_valid; [exact Fc|exact Et|]. rewrite (head_read _ _ Eh _ Et). exact Hne.
Qed.
Lemma parse_bundle_valid page ts : Forall is_byte page -> parse_bundle page = Some ts -> Forall valid_entry ts.
Proof. intros F. apply parse_chunks_valid, chunks_bytes, F. Qed.

Lemma serialise_bundle_bytes max page ts page' : Forall is_byte page -> Forall valid_entry ts ->
  N.of_nat (length ts) <= max -> max * 24 <= N.of_nat (length page) ->
  serialise_bundle max page ts = Some page' -> Forall is_byte page'.
Proof.
  intros F V Hn Hm. unfold serialise_bundle.
  pose proof (serialise_from_spec ts [] page 0 eq_refl ltac:(lia)) as E. cbn [app] in E. rewrite E. cbn [mbind option_bind].
  assert (Forall is_byte (concat (enc <$> ts) ++ drop (24 * length ts) page)) as Fb.
  { apply Forall_app. split; [|apply Forall_drop, F]. clear - V. induction V as [|t ts (Hs & _ & _ & Hp) _ IH]; [constructor|].
    rewrite fmap_cons. cbn [concat]. apply Forall_app. split; [|exact IH]. unfold enc. constructor; [unfold is_byte; lia|].
    apply Forall_app. split; [apply le_bytes_byte|]. apply Forall_app. split; [apply le_bytes_byte|]. repeat constructor. exact Hp. }
  destruct (_ <? _); [|intros H; injection H as <-; exact Fb].
  unfold buf_write. destruct (_ <=? _); [|discriminate]. intros H. injection H as <-.
  apply Forall_app. split; [apply Forall_take, Fb|]. constructor; [reflexivity|]. apply Forall_drop, Fb.
Qed.

(** The tuples of a bundle in some order. *)
Definition values (m : gmap N tuple) : list tuple := (map_to_list m).*2.

Record Gh (spage : N) (init : list (list tuple)) (cs : list tcall) (y : tsys)
    (G : list bundles) (home : gmap N nat) (tb ds : list nat) : Prop := {
  g_len : length G = S (length cs);
  g_last : G !! length cs = Some (ts_bundles (sy_state y));
  g_tb : length tb = length cs;
  g_ds : length ds = length init /\ length (sy_disk y) = length init;
  g_inv : forall j bs, G !! j = Some bs -> length bs = length init /\
    forall id t, after_calls (index_of init) (take j cs) !! id = Some t <-> exists b m, bs !! b = Some m /\ m !! id = Some t;
  g_key : forall j bs b m, G !! j = Some bs -> bs !! b = Some m -> N.of_nat (size m) <= 2 ^ spage / 24 /\
    forall id t, m !! id = Some t -> t_id t = id /\ valid_entry t;
  g_home : forall j bs b m id, G !! j = Some bs -> bs !! b = Some m -> is_Some (m !! id) -> home !! id = Some b;
  g_used : forall id, is_Some (home !! id) -> id ∈ (t_id <$> concat init) ++ concat (introduced <$> cs);
  g_bnd : forall id b, home !! id = Some b -> (b < length init)%nat;
  g_touch : forall k c b id, cs !! k = Some c -> tb !! k = Some b -> id ∈ touched c -> home !! id = Some b;
  g_page : forall b page, sy_disk y !! b = Some page -> N.of_nat (length page) = 2 ^ spage /\ Forall is_byte page;
  g_disk : forall b page j, sy_disk y !! b = Some page -> ds !! b = Some j ->
    exists l bs m, parse_bundle page = Some l /\ G !! j = Some bs /\ bs !! b = Some m /\ l ≡ₚ values m /\
    (forall k, k ∈ sy_acked y -> tb !! k = Some b -> (k < j)%nat) /\
    (forall changes signals, sy_flush y = TWriting changes signals -> b ∉ changes.*1 ->
       forall k, k ∈ signals -> tb !! k = Some b -> (k < j)%nat);
  g_changes : forall changes signals, sy_flush y = TWriting changes signals -> NoDup (changes.*1) /\
    exists w bsw, G !! w = Some bsw /\ (forall b l, (b, l) ∈ changes -> exists m, bsw !! b = Some m /\ l ≡ₚ values m) /\
    (forall k, k ∈ signals -> (k < w)%nat) /\ (forall k, k ∈ sy_acked y -> (k < w)%nat);
  g_signals : forall k, k ∈ ts_signals (sy_state y) -> exists b, tb !! k = Some b /\ b ∈ ts_dirty (sy_state y);
  g_acked : forall k, k ∈ sy_acked y -> (k < length cs)%nat;
}.

Lemma values_length m : length (values m) = size m.
Proof. unfold values. rewrite fmap_length. symmetry. unfold size, map_size. reflexivity. Qed.
Lemma values_elem (m : gmap N tuple) t : t ∈ values m <-> exists id, m !! id = Some t.
Proof.
  unfold values. rewrite elem_of_list_fmap. split.
  - intros ([id t'] & -> & H). apply elem_of_map_to_list in H. eauto.
  - intros [id H]. exists (id, t). split; [reflexivity|]. apply elem_of_map_to_list, H.
Qed.

Lemma mapM_lookup {A B} (f : A -> option B) l r i x : mapM f l = Some r -> l !! i = Some x -> exists z, f x = Some z /\ r !! i = Some z.
Proof. intros H E. apply mapM_Some in H. eapply Forall2_lookup_l in H; [|exact E]. destruct H as (z & E1 & E2). eauto. Qed.

(** A map whose entries are those of a list without repeated ids has that list as its values. *)
Lemma values_perm (m : gmap N tuple) ts : NoDup (t_id <$> ts) -> (forall id t, m !! id = Some t <-> t ∈ ts /\ t_id t = id) -> ts ≡ₚ values m.
Proof.
  intros Hnd H. apply NoDup_Permutation.
  - apply NoDup_fmap_1 in Hnd. exact Hnd.
  - unfold values. assert (t_id <$> (map_to_list m).*2 = (map_to_list m).*1) as E.
    { rewrite <- list_fmap_compose. apply list_fmap_ext. intros i [id t] Ex. cbn. apply elem_of_list_lookup_2 in Ex.
      apply elem_of_map_to_list in Ex. apply H in Ex. destruct Ex as [_ Ex]. exact Ex. }
    apply (NoDup_fmap_1 t_id). rewrite E. apply NoDup_fst_map_to_list.
  - intros t. rewrite values_elem. split; [intros Ht; exists (t_id t); apply H; auto|]. intros [id Hi]. apply H in Hi. tauto.
Qed.

Lemma concat_lookup_NoDup {A B} (f : A -> B) (ll : list (list A)) i l : NoDup (f <$> concat ll) -> ll !! i = Some l -> NoDup (f <$> l).
Proof.
  revert i. induction ll as [|x ll IH]; intros i Hn E; [discriminate|]. cbn [concat] in Hn. rewrite fmap_app in Hn.
  apply NoDup_app in Hn as (H1 & _ & H2). destruct i; cbn in E; [injection E as <-; exact H1|eauto].
Qed.
Lemma elem_concat {A} (ll : list (list A)) x : x ∈ concat ll <-> exists i l, ll !! i = Some l /\ x ∈ l.
Proof.
  rewrite elem_of_list_In, in_concat. split.
  - intros (l & Hl & Hx). apply elem_of_list_In, elem_of_list_lookup in Hl as [i Hi]. exists i, l. rewrite elem_of_list_In. auto.
  - intros (i & l & Hi & Hx). exists l. rewrite <- !elem_of_list_In. split; [eapply elem_of_list_lookup_2, Hi|exact Hx].
Qed.

Lemma gh_open spage pages init y : opens spage pages init y ->
  exists home, Gh spage init [] y [ts_bundles (sy_state y)] home [] (replicate (length init) 0%nat).
Proof.
  intros (Hp & Hl & Hn & Hf & Hd & Hc & Ha). pose proof (new_loaded _ _ _ Hn) as L. pose proof (l_inv _ _ _ L) as I.
  rewrite load_area_pages in Hl by (eapply Forall_impl; [exact Hp|]; intros p [H _]; exact H).
  assert (length pages = length init) as Lp by (apply mapM_length in Hl; exact Hl).
  destruct (l_dirty _ _ _ L) as (_ & _ & Hsig).
  exists (ts_id2b (sy_state y)).
  assert (forall (j : nat) bs, [ts_bundles (sy_state y)] !! j = Some bs -> j = 0%nat /\ bs = ts_bundles (sy_state y)) as H1.
  { intros [|j] bs E; [injection E as <-; auto|discriminate]. }
  assert (forall b m id t, ts_bundles (sy_state y) !! b = Some m -> m !! id = Some t -> valid_entry t) as Hval.
  { intros b m id t E1 E2. destruct (init !! b) as [ts|] eqn:Ei.
    2:{ apply lookup_ge_None in Ei. rewrite <- (l_len _ _ _ L) in Ei. apply lookup_lt_Some in E1. lia. }
    assert (t ∈ ts) as Ht by (apply (l_page _ _ _ L _ _ _ E1 Ei) in E2; tauto).
    destruct (pages !! b) as [page|] eqn:Eg. 2:{ apply lookup_ge_None in Eg. apply lookup_lt_Some in Ei. lia. }
    destruct (mapM_lookup _ _ _ _ _ Hl Eg) as (z & Ez & Ez'). rewrite Ei in Ez'. injection Ez' as <-.
    eapply Forall_lookup_1 in Hp as [_ Fb]; [|exact Eg]. pose proof (parse_bundle_valid _ _ Fb Ez) as Fv.
    eapply Forall_forall in Fv; [exact Fv|]. exact Ht. }
  constructor.
  - reflexivity.
  - reflexivity.
  - reflexivity.
  - rewrite replicate_length, Hd. auto.
  - intros j bs E. apply H1 in E as [-> ->]. split; [apply (l_len _ _ _ L)|]. intros id t. cbn. rewrite (i_sp _ _ I). reflexivity.
  - intros j bs b m E Em. apply H1 in E as [-> ->]. split; [rewrite <- (l_max _ _ _ L); apply (i_max _ _ I _ _ Em)|].
    intros id t E. split; [apply (i_key _ _ I b); exists m; auto|]. eapply Hval; eauto.
  - intros j bs b m id E Em [t Et]. apply H1 in E as [-> ->]. apply (i_id2b _ _ I). exists t, m. auto.
  - intros id [b Hb]. apply (i_id2b _ _ I) in Hb as (t & Hb). apply elem_of_app. left.
    assert (index_of init !! id = Some t) as Hx by (apply (i_sp _ _ I); eauto). apply index_of_lookup in Hx; [|apply (l_nodup _ _ _ L)].
    destruct Hx as [Hx <-]. apply elem_of_list_fmap. eauto.
  - intros id b Hb. apply (i_id2b _ _ I) in Hb as (t & m & Em & _). rewrite <- (l_len _ _ _ L). eapply lookup_lt_Some, Em.
  - intros k c b id E. discriminate.
  - intros b page E. rewrite Hd in E. eapply Forall_lookup_1 in Hp; [|exact E]. exact Hp.
  - intros b page j E Ej. rewrite Hd in E. apply lookup_replicate in Ej as [-> Hb].
    destruct (mapM_lookup _ _ _ _ _ Hl E) as (ts & Ez & Ei).
    destruct (ts_bundles (sy_state y) !! b) as [m|] eqn:Em. 2:{ apply lookup_ge_None in Em. rewrite (l_len _ _ _ L) in Em. lia. }
    exists ts, (ts_bundles (sy_state y)), m. split; [exact Ez|]. split; [reflexivity|]. split; [exact Em|]. split.
    + apply values_perm; [eapply concat_lookup_NoDup; [apply (l_nodup _ _ _ L)|exact Ei]|]. apply (l_page _ _ _ L _ _ _ Em Ei).
    + rewrite Ha, Hf. split; [intros k Hk; inversion Hk|]. intros ? ? Hx. discriminate.
  - intros changes signals E. rewrite Hf in E. discriminate.
  - intros k Hk. rewrite Hsig in Hk. inversion Hk.
  - intros k Hk. rewrite Ha in Hk. inversion Hk.
Qed.

Definition home_upd (home : gmap N nat) (c : tcall) (b : nat) : gmap N nat :=
  match c with CInsert o => <[t_id o := b]> home | CUpdate _ new _ => <[new := b]> home | CDelete _ => home end.
Lemma home_upd_lookup home c b id : home_upd home c b !! id = if decide (id ∈ introduced c) then Some b else home !! id.
Proof.
  destruct c as [o|cur new st|i]; cbn [home_upd introduced]; destruct (decide _) as [Hi|Hi].
  - apply elem_of_list_singleton in Hi as ->. apply lookup_insert.
  - apply lookup_insert_ne. intros E. apply Hi. rewrite E. constructor.
  - apply elem_of_list_singleton in Hi as ->. apply lookup_insert.
  - apply lookup_insert_ne. intros E. apply Hi. rewrite E. constructor.
  - inversion Hi.
  - reflexivity.
Qed.

Lemma lookup_snoc_Some {A} (l : list A) x i z : (l ++ [x]) !! i = Some z <-> l !! i = Some z \/ (i = length l /\ z = x).
Proof.
  destruct (decide (i < length l)%nat) as [Hl|Hl].
  - rewrite lookup_app_l by lia. split; [auto|]. intros [H'|[-> _]]; [exact H'|lia].
  - rewrite lookup_app_r by lia. rewrite (lookup_ge_None_2 l) by lia.
    destruct (i - length l)%nat as [|w] eqn:Ex.
    + cbn. split; [intros H'; injection H' as <-; right; split; [lia|reflexivity]|]. intros [H'|[_ ->]]; [discriminate|reflexivity].
    + cbn. split; [discriminate|]. intros [H'|[-> _]]; [discriminate|lia].
Qed.

Lemma gh_call spage init cs y G home tb ds c s' b m m' :
  Gh spage init cs y G home tb ds -> Inv (sy_state y) (after_calls (index_of init) cs) -> ts_max (sy_state y) = 2 ^ spage / 24 ->
  sy_calls y = length cs ->
  NoDup ((t_id <$> concat init) ++ concat (introduced <$> (cs ++ [c]))) -> valid_call c ->
  Inv s' (after_calls (index_of init) (cs ++ [c])) ->
  call_effect (sy_state y) s' (sy_calls y) c b m m' ->
  Gh spage init (cs ++ [c]) {| sy_state := s'; sy_flush := sy_flush y; sy_disk := sy_disk y; sy_calls := S (sy_calls y); sy_acked := sy_acked y |}
    (G ++ [ts_bundles s']) (home_upd home c b) (tb ++ [b]) ds.
Proof.
  intros Gy I Hmax Hk Hnd Hv I' (Em & Eb & Emx & Esig & Edirty & Hsub & Htouch & Hval & _).
  pose proof (g_len _ _ _ _ _ _ _ _ Gy) as GL. pose proof (g_last _ _ _ _ _ _ _ _ Gy) as Glast. pose proof (g_tb _ _ _ _ _ _ _ _ Gy) as GT.
  assert (forall id, id ∈ introduced c -> id ∉ (t_id <$> concat init) ++ concat (introduced <$> cs)) as Hfresh.
  { rewrite fmap_app, concat_app, app_assoc in Hnd. apply NoDup_app in Hnd as (_ & Hd & _). intros id Hi Hin. apply (Hd id Hin).
    cbn. rewrite app_nil_r. exact Hi. }
  assert (forall id b0, home !! id = Some b0 -> home_upd home c b !! id = Some b0) as Hmono.
  { intros id b0 Hb0. rewrite home_upd_lookup. destruct (decide _) as [Hi|Hi]; [|exact Hb0]. exfalso. apply (Hfresh id Hi).
    eapply (g_used _ _ _ _ _ _ _ _ Gy). eauto. }
  assert (forall id, is_Some (m !! id) -> home !! id = Some b) as Hmb by (intros id; apply (g_home _ _ _ _ _ _ _ _ Gy _ _ _ _ _ Glast Em)).
  assert (forall j (bs : bundles), (G ++ [ts_bundles s']) !! j = Some bs -> (G !! j = Some bs /\ (j <= length cs)%nat) \/ (j = S (length cs) /\ bs = ts_bundles s')) as HG.
  { intros j bs E. apply lookup_snoc_Some in E as [E|[-> ->]]; [left|right; auto]. split; [exact E|]. apply lookup_lt_Some in E. lia. }
  assert (forall j (bs : bundles), G !! j = Some bs -> (G ++ [ts_bundles s']) !! j = Some bs) as HG'.
  { intros j bs E. apply lookup_snoc_Some. auto. }
  assert (forall k b0, (tb ++ [b]) !! k = Some b0 -> (k < length cs)%nat -> tb !! k = Some b0) as Htb.
  { intros k b0 E Hk'. apply lookup_snoc_Some in E as [E|[-> _]]; [exact E|lia]. }
  assert (forall id, id ∈ touched c -> home_upd home c b !! id = Some b) as Ht.
  { intros id Hid. destruct (Htouch id Hid) as [Hin|Hin]; [apply Hmono, Hmb, Hin|]. rewrite home_upd_lookup. destruct (decide _); [reflexivity|contradiction]. }
  assert (b < length init)%nat as Hbb.
  { destruct (g_inv _ _ _ _ _ _ _ _ Gy _ _ Glast) as [<- _]. eapply lookup_lt_Some, Em. }
  assert (forall k, k ∈ sy_acked y -> (k < length cs)%nat) as Hack by apply (g_acked _ _ _ _ _ _ _ _ Gy).
  constructor; cbn [sy_state sy_flush sy_disk sy_calls sy_acked].
  - rewrite !app_length, GL. cbn. lia.
  - rewrite app_length. cbn [length]. rewrite Nat.add_1_r. apply lookup_snoc_Some. right. auto.
  - rewrite !app_length, GT. reflexivity.
  - apply (g_ds _ _ _ _ _ _ _ _ Gy).
  - intros j bs E. apply HG in E as [[E Hj]|[-> ->]].
    + destruct (g_inv _ _ _ _ _ _ _ _ Gy _ _ E) as [Hlen Hlk]. split; [exact Hlen|]. rewrite take_app_le by lia. exact Hlk.
    + rewrite take_ge by (rewrite app_length; cbn; lia). split.
      * rewrite Eb, insert_length. apply (g_inv _ _ _ _ _ _ _ _ Gy _ _ Glast).
      * intros id t. rewrite (i_sp _ _ I'). reflexivity.
  - intros j bs b0 m0 E E0. apply HG in E as [[E Hj]|[-> ->]]; [apply (g_key _ _ _ _ _ _ _ _ Gy _ _ _ _ E E0)|]. split.
    + rewrite <- Hmax, <- Emx. apply (i_max _ _ I' _ _ E0).
    + intros id t Et. split; [apply (i_key _ _ I' b0); exists m0; auto|].
      rewrite Eb, (lookup_replace _ _ _ _ _ Em) in E0. destruct (decide (b0 = b)) as [->|Hne].
      * injection E0 as <-. eapply Hval; [exact Hv| |exact Et]. intros id' t' Et'. apply (proj2 (g_key _ _ _ _ _ _ _ _ Gy _ _ _ _ Glast Em) _ _ Et').
      * apply (proj2 (g_key _ _ _ _ _ _ _ _ Gy _ _ _ _ Glast E0) _ _ Et).
  - intros j bs b0 m0 id E E0 Hid. apply HG in E as [[E Hj]|[-> ->]]; [apply Hmono, (g_home _ _ _ _ _ _ _ _ Gy _ _ _ _ _ E E0 Hid)|].
    rewrite Eb, (lookup_replace _ _ _ _ _ Em) in E0. destruct (decide (b0 = b)) as [->|Hne].
    + injection E0 as <-. destruct (Hsub id Hid) as [Hin|Hin]; [apply Hmono, Hmb, Hin|]. rewrite home_upd_lookup. destruct (decide _); [reflexivity|contradiction].
    + apply Hmono, (g_home _ _ _ _ _ _ _ _ Gy _ _ _ _ _ Glast E0 Hid).
  - intros id [b0 Hb0]. rewrite fmap_app, concat_app, app_assoc. apply elem_of_app. rewrite home_upd_lookup in Hb0.
    destruct (decide _) as [Hi|Hi]; [right; cbn; rewrite app_nil_r; exact Hi|]. left. apply (g_used _ _ _ _ _ _ _ _ Gy). eauto.
  - intros id b0 Hb0. rewrite home_upd_lookup in Hb0. destruct (decide _) as [Hi|Hi]; [injection Hb0 as <-; exact Hbb|].
    apply (g_bnd _ _ _ _ _ _ _ _ Gy _ _ Hb0).
  - intros k c0 b0 id E E0 Hid. apply lookup_snoc_Some in E as [E|[-> ->]].
    + apply Htb in E0; [|eapply lookup_lt_Some, E]. apply Hmono, (g_touch _ _ _ _ _ _ _ _ Gy _ _ _ _ E E0 Hid).
    + apply lookup_snoc_Some in E0 as [E0|[_ ->]]; [apply lookup_lt_Some in E0; lia|]. apply Ht, Hid.
  - apply (g_page _ _ _ _ _ _ _ _ Gy).
  - intros b0 page j E Ej. destruct (g_disk _ _ _ _ _ _ _ _ Gy _ _ _ E Ej) as (l & bs & m0 & H1 & H2 & H3 & H4 & H5 & H6).
    exists l, bs, m0. split; [exact H1|]. split; [apply HG', H2|]. split; [exact H3|]. split; [exact H4|]. split.
    + intros k Hka Hkb. apply H5; [exact Hka|]. apply Htb; auto.
    + intros changes signals Hfl Hnb k Hka Hkb. apply (H6 _ _ Hfl Hnb _ Hka). apply Htb; [exact Hkb|].
      destruct (g_changes _ _ _ _ _ _ _ _ Gy _ _ Hfl) as (_ & w & bsw & Ew & _ & Hw & _). specialize (Hw _ Hka).
      apply lookup_lt_Some in Ew. lia.
  - intros changes signals Hfl. destruct (g_changes _ _ _ _ _ _ _ _ Gy _ _ Hfl) as (Hndc & w & bsw & Ew & Hr). split; [exact Hndc|].
    exists w, bsw. split; [apply HG', Ew|exact Hr].
  - intros k Hks. rewrite Esig in Hks. rewrite Edirty. apply elem_of_app in Hks as [Hks|Hks].
    + destruct (g_signals _ _ _ _ _ _ _ _ Gy _ Hks) as (b0 & E & Hd). exists b0. split; [apply lookup_snoc_Some; auto|]. apply elem_of_union. auto.
    + apply elem_of_list_singleton in Hks as ->. exists b. split; [apply lookup_snoc_Some; right; split; [lia|reflexivity]|]. apply elem_of_union. left. apply elem_of_singleton. reflexivity.
  - intros k Hka. rewrite app_length. specialize (Hack _ Hka). lia.
Qed.

Lemma perm_values_len l m : l ≡ₚ values m -> length l = size m.
Proof. intros H. rewrite (Permutation_length H). apply values_length. Qed.

Lemma gh_flush spage init cs y G home tb ds y' :
  Gh spage init cs y G home tb ds -> ts_max (sy_state y) = 2 ^ spage / 24 ->
  tstep y None y' -> exists ds', Gh spage init cs y' G home tb ds'.
Proof.
  intros Gy Hmax S. pose proof (flush_state _ _ S) as (_ & Eb & _ & _ & _ & _).
  pose proof (N.div_mod (2 ^ spage) 24 ltac:(discriminate)) as Hdm.
  pose proof (N.mod_lt (2 ^ spage) 24 ltac:(discriminate)) as Hml.
  inversion S as [|? changes Hidle Hch Hnd Hne Hl|? c1 b l c2 signals junk old page Hfl Hold Hjl Hjb Hser|? signals Hfl]; subst y'; subst; cbn [sy_state ts_bundles] in Eb.
  - exists ds. destruct Gy as [G1 G2 G3 G4 G5 G6 G7 G8 G8b G9 G10 G11 G12 G13 G14]. constructor; cbn [sy_state sy_flush sy_disk sy_calls sy_acked ts_bundles ts_signals ts_dirty]; auto.
    + intros b page j E Ej. destruct (G11 _ _ _ E Ej) as (l & bs & m & H1 & H2 & H3 & H4 & H5 & H6).
      exists l, bs, m. do 5 (split; [assumption|]). intros changes0 signals0 E0 Hnb k Hk Hkb. injection E0 as <- <-.
      destruct (G13 _ Hk) as (b0 & Hb0 & Hd). assert (b0 = b) as -> by congruence. exfalso. apply Hnb, Hch, Hd.
    + intros changes0 signals0 E0. injection E0 as <- <-. split; [exact Hnd|]. exists (length cs), (ts_bundles (sy_state y)).
      split; [exact G2|]. split; [|split; [|exact G14]].
      * intros b l Hbl. destruct (Hl _ _ Hbl) as (m & Em & Hp). exists m. auto.
      * intros k Hk. destruct (G13 _ Hk) as (b0 & Hb0 & Hd). apply lookup_lt_Some in Hb0. lia.
    + intros k Hk. inversion Hk.
  - destruct (g_changes _ _ _ _ _ _ _ _ Gy _ _ Hfl) as (Hnd & w & bsw & Ew & Hc & Hsw & Haw).
    exists (<[b := w]> ds). destruct (Hc b l ltac:(apply elem_of_app; right; constructor)) as (m & Em & Hlm).
    pose proof (g_page _ _ _ _ _ _ _ _ Gy _ _ Hold) as [Hol _].
    destruct (g_key _ _ _ _ _ _ _ _ Gy _ _ _ _ Ew Em) as [Hsz Hke].
    assert (Forall valid_entry l) as Hvl.
    { apply Forall_forall. intros t Ht. rewrite Hlm, values_elem in Ht. destruct Ht as [id Hid]. apply Hke in Hid. tauto. }
    assert (N.of_nat (length l) <= 2 ^ spage / 24) as Hll by (rewrite (perm_values_len _ _ Hlm); exact Hsz).
    assert (N.of_nat (length junk) = 2 ^ spage) as Hj by (rewrite Hjl; exact Hol).
    rewrite Hmax in Hser.
    destruct (bundle_roundtrip (2 ^ spage / 24) junk l Hvl Hll ltac:(lia) ltac:(lia)) as (page' & E1 & E2 & E3).
    rewrite E1 in Hser. injection Hser as ->.
    pose proof (serialise_bundle_bytes _ _ _ _ Hjb Hvl Hll ltac:(lia) E1) as Hpb.
    assert (b ∉ (c1 ++ c2).*1) as Hnb.
    { rewrite fmap_app in Hnd. cbn in Hnd. rewrite fmap_app. intros Hin. apply NoDup_app in Hnd as (_ & Hd & Hn2). inversion Hn2 as [|? ? Hn3 _]; subst.
      apply elem_of_app in Hin as [Hin|Hin]; [apply (Hd b Hin); constructor|contradiction]. }
    destruct Gy as [G1 G2 G3 G4 G5 G6 G7 G8 G8b G9 G10 G11 G12 G13 G14].
    constructor; cbn [sy_state sy_flush sy_disk sy_calls sy_acked]; auto.
    + rewrite !insert_length. exact G4.
    + intros b0 page0 E. destruct (decide (b0 = b)) as [->|Hne].
      * rewrite list_lookup_insert in E by (eapply lookup_lt_Some, Hold). injection E as <-. split; [rewrite E2; exact Hj|exact Hpb].
      * rewrite list_lookup_insert_ne in E by auto. eauto.
    + intros b0 page0 j E Ej. destruct (decide (b0 = b)) as [->|Hne].
      * rewrite list_lookup_insert in E by (eapply lookup_lt_Some, Hold). injection E as <-.
        rewrite list_lookup_insert in Ej by (apply lookup_lt_Some in Hold; lia). injection Ej as <-.
        exists l, bsw, m. split; [exact E3|]. split; [exact Ew|]. split; [exact Em|]. split; [exact Hlm|]. split; [auto|].
        intros ch sg E0 _ k Hk _. injection E0 as <- <-. auto.
      * rewrite list_lookup_insert_ne in E by auto. rewrite list_lookup_insert_ne in Ej by auto. destruct (G11 _ _ _ E Ej) as (l0 & bs & m0 & H1 & H2 & H3 & H4 & H5 & H6).
        exists l0, bs, m0. do 5 (split; [assumption|]). intros ch sg E0 Hn0 k Hk Hkb. injection E0 as <- <-.
        apply (H6 _ _ Hfl); [|exact Hk|exact Hkb]. rewrite fmap_app. cbn. rewrite fmap_app in Hn0. intros Hin. apply Hn0.
        apply elem_of_app in Hin as [Hin|Hin]; [apply elem_of_app; auto|]. apply elem_of_cons in Hin as [Hin|Hin]; [contradiction|]. apply elem_of_app; auto.
    + intros ch sg E0. injection E0 as <- <-. split.
      * rewrite fmap_app in *. cbn in Hnd. apply NoDup_app in Hnd as (Ha & Hd & Hn2). inversion Hn2 as [|? ? _ Hn4]; subst.
        apply NoDup_app. split; [exact Ha|]. split; [|exact Hn4]. intros x Hx Hx2. apply (Hd x Hx). constructor. exact Hx2.
      * exists w, bsw. split; [exact Ew|]. split; [|auto]. intros b0 l0 Hin. apply Hc. apply elem_of_app in Hin as [Hin|Hin]; apply elem_of_app; [auto|]. right. constructor. exact Hin.
  - exists ds. destruct (g_changes _ _ _ _ _ _ _ _ Gy _ _ Hfl) as (Hnd & w & bsw & Ew & Hc & Hsw & Haw).
    destruct Gy as [G1 G2 G3 G4 G5 G6 G7 G8 G8b G9 G10 G11 G12 G13 G14].
    constructor; cbn [sy_state sy_flush sy_disk sy_calls sy_acked]; auto.
    + intros b0 page0 j E Ej. destruct (G11 _ _ _ E Ej) as (l0 & bs & m0 & H1 & H2 & H3 & H4 & H5 & H6).
      exists l0, bs, m0. do 4 (split; [assumption|]). split; [|intros ? ? E0; discriminate].
      intros k Hk Hkb. apply elem_of_app in Hk as [Hk|Hk]; [apply H5; auto|]. apply (H6 _ _ Hfl); auto. intros Hin. inversion Hin.
    + intros ? ? E0. discriminate.
    + intros k Hk. apply elem_of_app in Hk as [Hk|Hk]; [auto|]. specialize (Hsw _ Hk). apply lookup_lt_Some in Ew. lia.
Qed.

Lemma run_gh spage pages init y0 cs y : opens spage pages init y0 -> Forall valid_call cs -> fresh_ids init cs -> runs y0 cs y ->
  exists G home tb ds, Gh spage init cs y G home tb ds.
Proof.
  intros Ho Hv Hf R. induction R as [y|y cs y1 c y2 R IH S|y cs y1 y2 R IH S].
  - destruct (gh_open _ _ _ _ Ho) as [home H]. eauto 10.
  - apply Forall_app in Hv as [Hv Hvc]. inversion Hvc as [|? ? Hvc' _]; subst.
    assert (fresh_ids init cs) as Hf'.
    { unfold fresh_ids in *. rewrite fmap_app, concat_app, app_assoc in Hf. apply NoDup_app in Hf. tauto. }
    destruct (IH Ho Hv Hf') as (G & home & tb & ds & Gy).
    destruct (run_inv _ _ _ _ _ _ Ho R) as (I & Hm & _ & _ & Hk).
    inversion S as [? ? s' Hx| | |]; subst.
    apply (call_inv _ _ _ _ _ I) in Hx as (I' & b & m & m' & Heff). rewrite <- after_calls_snoc in I'.
    pose proof (gh_call _ _ _ _ _ _ _ _ _ _ _ _ _ Gy I Hm Hk Hf Hvc' I' Heff). eauto 10.
  - destruct (IH Ho Hv Hf) as (G & home & tb & ds & Gy).
    destruct (run_inv _ _ _ _ _ _ Ho R) as (I & Hm & _ & _ & Hk).
    destruct (gh_flush _ _ _ _ _ _ _ _ _ Gy Hm S) as [ds' H]. eauto 10.
Qed.

(** ** Reopening *)
Lemma NoDup_concat_index {A B} (f : A -> B) (h : B -> option nat) ll : forall off,
  (forall i l, ll !! i = Some l -> NoDup (f <$> l) /\ forall x, x ∈ l -> h (f x) = Some (off + i)%nat) ->
  NoDup (f <$> concat ll).
Proof.
  induction ll as [|l ll IH]; intros off H; [constructor|]. cbn [concat]. rewrite fmap_app. apply NoDup_app. split; [|split].
  - apply (H 0%nat l eq_refl).
  - intros z Hz Hz2. apply elem_of_list_fmap in Hz as (x & -> & Hx). apply elem_of_list_fmap in Hz2 as (x' & E & Hx').
    apply elem_concat in Hx' as (i & l' & Ei & Hx'). pose proof (proj2 (H 0%nat l eq_refl) _ Hx) as H1.
    pose proof (proj2 (H (S i) l' Ei) _ Hx') as H2. rewrite E in H1. rewrite H1 in H2. injection H2 as H2. lia.
  - apply (IH (S off)). intros i l' Ei. destruct (H (S i) l' Ei) as [H1 H2]. split; [exact H1|]. intros x Hx. rewrite (H2 x Hx). f_equal. lia.
Qed.

Lemma fold_load_ok bid l : forall id2b m, NoDup (t_id <$> l) ->
  (forall t, t ∈ l -> id2b !! t_id t = None /\ m !! t_id t = None) ->
  is_Some (fold_left (load_step bid) l (Some (id2b, m))).
Proof.
  induction l as [|t l IH]; intros id2b m Hn H; [eexists; reflexivity|].
  change (fold_left (load_step bid) (t :: l) (Some (id2b, m))) with (fold_left (load_step bid) l (load_step bid (Some (id2b, m)) t)).
  unfold load_step at 2. cbn [mbind option_bind]. destruct (H t ltac:(constructor)) as [-> ->].
  cbn in Hn. inversion Hn as [|? ? Hn1 Hn2]; subst. apply IH; [exact Hn2|].
  intros t' Ht'. destruct (H t' ltac:(constructor; exact Ht')) as [H1 H2].
  assert (t_id t <> t_id t') by (intros E; apply Hn1; rewrite E; apply elem_of_list_fmap; eauto).
  rewrite !lookup_insert_ne by auto. auto.
Qed.
Lemma load_ok init : forall bid max s, NoDup (t_id <$> concat init) ->
  (forall t, t ∈ concat init -> ts_id2b s !! t_id t = None) ->
  Forall (fun l => N.of_nat (length l) <= max) init -> N.of_nat bid + N.of_nat (length init) <= 2 ^ 32 ->
  is_Some (tuples_load bid max init s).
Proof.
  induction init as [|l init IH]; intros bid max s Hn H Hl Hb; [eexists; reflexivity|].
  cbn [tuples_load]. inversion Hl as [|? ? Hl1 Hl2]; subst. cbn [concat length] in *.
  destruct (N.ltb_spec max (N.of_nat (length l))); [lia|]. destruct (N.leb_spec (2 ^ 32) (N.of_nat bid)); [lia|]. cbn [orb].
  change (fold_left _ l (Some (ts_id2b s, ∅))) with (fold_left (load_step bid) l (Some (ts_id2b s, ∅))).
  rewrite fmap_app in Hn. apply NoDup_app in Hn as (Hn1 & Hd & Hn2).
  destruct (fold_load_ok bid l (ts_id2b s) ∅ Hn1) as [[id2b m] E].
  { intros t Ht. rewrite lookup_empty. split; [apply H, elem_of_app; auto|reflexivity]. }
  rewrite E. cbn [mbind option_bind]. apply fold_load in E as (_ & _ & Hx & _ & _).
  apply IH; tcbn; [exact Hn2| |exact Hl2|lia].
  intros t Ht. destruct (id2b !! t_id t) as [b|] eqn:E; [|reflexivity]. exfalso. apply Hx in E as [E|[_ E]].
  - rewrite (H t ltac:(apply elem_of_app; auto)) in E. discriminate.
  - apply (Hd _ E). apply elem_of_list_fmap. eauto.
Qed.
Lemma load_bound init : forall bid max s s', tuples_load bid max init s = Some s' -> init = [] \/ N.of_nat bid + N.of_nat (length init) <= 2 ^ 32.
Proof.
  induction init as [|l init IH]; intros bid max s s' H; [auto|]. right. cbn [tuples_load] in H.
  destruct (N.ltb_spec max (N.of_nat (length l))); [discriminate|]. destruct (N.leb_spec (2 ^ 32) (N.of_nat bid)); [discriminate|]. cbn [orb] in H.
  destruct (fold_left _ l (Some (ts_id2b s, ∅))) as [[id2b m]|]; [|discriminate]. cbn [mbind option_bind] in H.
  apply IH in H as [->|H]; cbn [length]; lia.
Qed.

Lemma reopen spage pages init y0 cs y : opens spage pages init y0 -> Forall valid_call cs -> fresh_ids init cs -> runs y0 cs y ->
  exists init' y' (J : N -> nat), opens spage (sy_disk y) init' y' /\
    (forall id, (J id <= length cs)%nat /\ index_of init' !! id = after_calls (index_of init) (take (J id) cs) !! id) /\
    (forall k c id, cs !! k = Some c -> k ∈ sy_acked y -> id ∈ touched c -> (k < J id)%nat) /\
    (forall k cur new st, cs !! k = Some (CUpdate cur new st) -> J cur = J new).
Proof.
  intros Ho Hv Hf R. destruct (run_gh _ _ _ _ _ _ Ho Hv Hf R) as (G & home & tb & ds & Gy).
  destruct (g_ds _ _ _ _ _ _ _ _ Gy) as [Lds Ldisk].
  assert (forall b page, sy_disk y !! b = Some page -> exists j l bs m, ds !! b = Some j /\ parse_bundle page = Some l /\ G !! j = Some bs /\
      bs !! b = Some m /\ l ≡ₚ values m) as Hd.
  { intros b page E. destruct (ds !! b) as [j|] eqn:Ej. 2:{ apply lookup_ge_None in Ej. apply lookup_lt_Some in E. lia. }
    destruct (g_disk _ _ _ _ _ _ _ _ Gy _ _ _ E Ej) as (l & bs & m & H1 & H2 & H3 & H4 & _). eauto 10. }
  assert (Forall (fun p => N.of_nat (length p) = 2 ^ spage /\ Forall is_byte p) (sy_disk y)) as Hp.
  { apply Forall_lookup_2. intros b page E. apply (g_page _ _ _ _ _ _ _ _ Gy _ _ E). }
  destruct (mapM_is_Some_2 parse_bundle (sy_disk y)) as [init' Hm].
  { apply Forall_lookup_2. intros b page E. destruct (Hd _ _ E) as (j & l & bs & m & _ & Hpp & _). exists l. exact Hpp. }
  assert (length init' = length init) as Li by (apply mapM_length in Hm; lia).
  assert (forall b l, init' !! b = Some l -> exists j bs m, ds !! b = Some j /\ G !! j = Some bs /\ bs !! b = Some m /\ l ≡ₚ values m) as Hi.
  { intros b l E. destruct (sy_disk y !! b) as [page|] eqn:Ep. 2:{ apply lookup_ge_None in Ep. apply lookup_lt_Some in E. lia. }
    destruct (Hd _ _ Ep) as (j & l' & bs & m & H1 & H2 & H3 & H4 & H5). destruct (mapM_lookup _ _ _ _ _ Hm Ep) as (z & Ez & Ez').
    assert (l' = l) as -> by congruence. eauto 10. }
  assert (NoDup (t_id <$> concat init')) as Hnd.
  { apply (NoDup_concat_index t_id (fun id => home !! id) init' 0). intros b l E. destruct (Hi _ _ E) as (j & bs & m & Hj & Hbs & Hb & Hp').
    destruct (g_key _ _ _ _ _ _ _ _ Gy _ _ _ _ Hbs Hb) as [_ Hk]. split.
    - rewrite Hp'. assert (t_id <$> values m = (map_to_list m).*1) as ->; [|apply NoDup_fst_map_to_list].
      unfold values. rewrite <- list_fmap_compose. apply list_fmap_ext. intros i [id t] Ex. apply elem_of_list_lookup_2, elem_of_map_to_list in Ex.
      apply Hk in Ex as [Ex _]. exact Ex.
    - intros t Ht. rewrite Hp', values_elem in Ht. destruct Ht as [id Hid]. destruct (Hk _ _ Hid) as [-> _].
      rewrite (g_home _ _ _ _ _ _ _ _ Gy _ _ _ _ _ Hbs Hb (mk_is_Some _ _ Hid)). reflexivity. }
  assert (forall id t b, home !! id = Some b -> index_of init' !! id = Some t <-> exists l, init' !! b = Some l /\ t ∈ l /\ t_id t = id) as Hlk.
  { intros id t b Hb. rewrite index_of_lookup by exact Hnd. rewrite elem_concat. split.
    - intros [(i & l & Ei & Ht) Hid]. destruct (Hi _ _ Ei) as (j & bs & m & Hj & Hbs & Hb' & Hp'). rewrite Hp', values_elem in Ht.
      destruct Ht as [id' Hid']. destruct (proj2 (g_key _ _ _ _ _ _ _ _ Gy _ _ _ _ Hbs Hb') _ _ Hid') as [Ek _].
      pose proof (g_home _ _ _ _ _ _ _ _ Gy _ _ _ _ _ Hbs Hb' (mk_is_Some _ _ Hid')) as Hh. assert (b = i) as -> by congruence.
      exists l. split; [exact Ei|]. split; [|exact Hid]. rewrite Hp', values_elem. eauto.
    - intros (l & El & Ht & Hid). split; [eauto|exact Hid]. }
  destruct Ho as (Ho1 & Ho2 & Ho3 & Ho4 & Ho5 & Ho6 & Ho7).
  assert (is_Some (tuples_new spage init')) as [s' Hs'].
  { unfold tuples_new in *. change tup_len with 24 in *. destruct (2 ^ 16 <=? 2 ^ spage / 24); [discriminate|]. apply load_ok.
    - exact Hnd.
    - intros t _. apply lookup_empty.
    - apply Forall_lookup_2. intros b l E. destruct (Hi _ _ E) as (j & bs & m & Hj & Hbs & Hb' & Hp'). rewrite (perm_values_len _ _ Hp').
      apply (g_key _ _ _ _ _ _ _ _ Gy _ _ _ _ Hbs Hb').
    - apply load_bound in Ho3 as [->|Ho3]; rewrite Li; cbn [length]; lia. }
  exists init', {| sy_state := s'; sy_flush := TIdle; sy_disk := sy_disk y; sy_calls := 0%nat; sy_acked := [] |},
    (fun id => match home !! id with Some b => default 0%nat (ds !! b) | None => length cs end).
  split; [|split; [|split]].
  - unfold opens. cbn. split; [exact Hp|]. split; [|auto 10].
    rewrite load_area_pages; [exact Hm|]. eapply Forall_impl; [exact Hp|]. intros p [H _]. exact H.
  - intros id. cbv beta. destruct (home !! id) as [b|] eqn:Eh.
    + pose proof (g_bnd _ _ _ _ _ _ _ _ Gy _ _ Eh) as Hb. destruct (init' !! b) as [l|] eqn:El. 2:{ apply lookup_ge_None in El. lia. }
      destruct (Hi _ _ El) as (j & bs & m & Hj & Hbs & Hb' & Hp'). rewrite Hj. change (default 0%nat (Some j)) with j. split.
      { apply lookup_lt_Some in Hbs. rewrite (g_len _ _ _ _ _ _ _ _ Gy) in Hbs. clear - Hbs. lia. }
      apply option_eq. intros t. rewrite (Hlk _ _ _ Eh). rewrite (proj2 (g_inv _ _ _ _ _ _ _ _ Gy _ _ Hbs)). split.
      * intros (l' & El' & Ht & Hid). rewrite El in El'. injection El' as <-. rewrite Hp', values_elem in Ht. destruct Ht as [id' Hid'].
        destruct (proj2 (g_key _ _ _ _ _ _ _ _ Gy _ _ _ _ Hbs Hb') _ _ Hid') as [Ek _]. assert (id' = id) as -> by congruence. eauto.
      * intros (b1 & m1 & Hb1 & Hm1). pose proof (g_home _ _ _ _ _ _ _ _ Gy _ _ _ _ _ Hbs Hb1 (mk_is_Some _ _ Hm1)) as Hh.
        assert (b1 = b) as -> by congruence. assert (m1 = m) as -> by congruence. exists l. split; [exact El|].
        split; [rewrite Hp', values_elem; eauto|]. apply (proj2 (g_key _ _ _ _ _ _ _ _ Gy _ _ _ _ Hbs Hb') _ _ Hm1).
    + split; [lia|]. apply option_eq. intros t. split.
      * intros E. exfalso. apply index_of_lookup in E as [E Hid]; [|exact Hnd]. apply elem_concat in E as (i & l & Ei & Ht).
        destruct (Hi _ _ Ei) as (j & bs & m & Hj & Hbs & Hb' & Hp'). rewrite Hp', values_elem in Ht. destruct Ht as [id' Hid'].
        destruct (proj2 (g_key _ _ _ _ _ _ _ _ Gy _ _ _ _ Hbs Hb') _ _ Hid') as [Ek _]. assert (id' = id) as -> by congruence.
        rewrite (g_home _ _ _ _ _ _ _ _ Gy _ _ _ _ _ Hbs Hb' (mk_is_Some _ _ Hid')) in Eh. discriminate.
      * intros E. exfalso. apply (proj2 (g_inv _ _ _ _ _ _ _ _ Gy _ _ (g_last _ _ _ _ _ _ _ _ Gy))) in E as (b & m & Hb & Hm').
        rewrite (g_home _ _ _ _ _ _ _ _ Gy _ _ _ _ _ (g_last _ _ _ _ _ _ _ _ Gy) Hb (mk_is_Some _ _ Hm')) in Eh. discriminate.
  - intros k c id E Hk Ht. destruct (tb !! k) as [b|] eqn:Eb.
    2:{ apply lookup_ge_None in Eb. apply lookup_lt_Some in E. rewrite (g_tb _ _ _ _ _ _ _ _ Gy) in Eb. lia. }
    pose proof (g_touch _ _ _ _ _ _ _ _ Gy _ _ _ _ E Eb Ht) as Hh. cbv beta. rewrite Hh. pose proof (g_bnd _ _ _ _ _ _ _ _ Gy _ _ Hh) as Hb.
    destruct (sy_disk y !! b) as [page|] eqn:Ep. 2:{ apply lookup_ge_None in Ep. lia. }
    destruct (Hd _ _ Ep) as (j & l & bs & m & Hj & _). rewrite Hj. change (default 0%nat (Some j)) with j.
    destruct (g_disk _ _ _ _ _ _ _ _ Gy _ _ _ Ep Hj) as (_ & _ & _ & _ & _ & _ & _ & Ha & _). apply Ha; assumption.
  - intros k cur new st E. destruct (tb !! k) as [b|] eqn:Eb.
    2:{ apply lookup_ge_None in Eb. apply lookup_lt_Some in E. rewrite (g_tb _ _ _ _ _ _ _ _ Gy) in Eb. lia. }
    cbv beta. rewrite (g_touch _ _ _ _ _ _ _ _ Gy k _ b cur E Eb ltac:(constructor)).
    rewrite (g_touch _ _ _ _ _ _ _ _ Gy k _ b new E Eb ltac:(right; constructor)). reflexivity.
Qed.
