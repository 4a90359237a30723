(** C59: uploading a directory with "blobc upload-dir". *)
From Coq Require Import ZifyBool ZifyNat ZifyN.
From stdpp Require Import base numbers option gmap sets functions list.
From Verif Require Import Util Bytes PageIOModel PageIOSpec TokenModel TokenProofs HttpModel BatchProofs DirectModel DirectSpec DirectBase DirectSeqSpec DirectDrive PropertiesToken ServerModel ServerSpec ServerProofs ServerHist PropertiesServer UploadDirModel.
Open Scope N_scope.
Ltac Zify.zify_post_hook ::= idtac.

Lemma be_bytes_eq n v w : v < 256 ^ N.of_nat n -> w < 256 ^ N.of_nat n -> be_bytes n v = be_bytes n w -> v = w.
Proof. intros H1 H2 E. rewrite <- (be_val_bytes n v H1), <- (be_val_bytes n w H2), E. reflexivity. Qed.

(** A body that is a first part of one entry without data. *)
Lemma header_frames key size es tail rest : N.of_nat (length key) < 2 ^ 16 -> Forall valid_entry es ->
  batch_entry key size [] = (concat (map entry_bytes es) ++ tail) ++ rest -> es = [] \/ es = [(key, [])].
Proof.
  intros Hk Hv E. destruct es as [|[k d] es]; [left; reflexivity|right].
  apply Forall_cons_1 in Hv as [[Hv1 Hv2] _]. cbn [map concat] in E. unfold entry_bytes at 1, batch_entry in E. cbn [fst snd] in *.
  rewrite <- !app_assoc in E.
  apply app_inj_1 in E as [E1 E]; [|rewrite !be_bytes_length; reflexivity].
  apply be_bytes_eq in E1; [|exact Hk|exact Hv1].
  apply app_inj_1 in E as [E2 E]; [|clear -E1; lia]. subst k.
  apply app_inj_1 in E as [_ E]; [|rewrite !be_bytes_length; reflexivity].
  destruct d as [|b d]; [|discriminate E]. destruct es as [|e es]; [reflexivity|].
  exfalso. pose proof (entry_bytes_length e) as Hl. cbn [map concat app] in E. destruct (entry_bytes e); [cbn [length] in Hl; clear -Hl; lia|discriminate E].
Qed.
Lemma nothing_frames es tail rest : [] = (concat (map entry_bytes es) ++ tail) ++ rest -> es = [].
Proof.
  intros E. destruct es as [|e es]; [reflexivity|].
  exfalso. pose proof (entry_bytes_length e) as Hl. cbn [map concat] in E. destruct (entry_bytes e); [cbn [length] in Hl; clear -Hl; lia|discriminate E].
Qed.

(** What the requests can store: nothing but an empty object for the directory itself. *)
Lemma absolute_frames fs root prefix rq size body es tail : fs root = Some NDir -> head root = Some 47 ->
  upload_dir_rq fs root prefix rq -> rq_method rq = HPost size body ->
  Forall valid_entry es -> concat body = concat (map entry_bytes es) ++ tail -> es = [] \/ es = [(prefix ++ root, [])].
Proof.
  intros Hd Ha (walk & size' & body' & rest & (sz & wrest & -> & _) & Em & Eb) Em' Hv E.
  rewrite Em in Em'. injection Em' as -> ->. rewrite E in Eb.
  assert (Hj : path_join root root = root) by (destruct root as [|b root]; [discriminate Ha|]; injection Ha as ->; reflexivity).
  unfold upload_entries in Eb. cbn [omap list_omap] in Eb. unfold process_dir_ent at 1 in Eb. cbn [mbind option_bind] in Eb. rewrite Hj, Hd in Eb.
  cbn [mbind option_bind upload_bytes] in Eb. destruct (N.leb_spec (2 ^ 16) (N.of_nat (length (prefix ++ root)))) as [Hl|Hl].
  - left. eapply nothing_frames, Eb.
  - eapply header_frames; [exact Hl|exact Hv|exact Eb].
Qed.
Lemma relative_frames fs root prefix rq size body es tail : root <> [] -> head root <> Some 47 ->
  (forall below, fs (path_join root (path_join root below)) = None) -> fs (path_join root root) = None ->
  upload_dir_rq fs root prefix rq -> rq_method rq = HPost size body ->
  concat body = concat (map entry_bytes es) ++ tail -> es = [].
Proof.
  intros H0 Hr Hb Hb0 (walk & size' & body' & rest & (sz & wrest & -> & Hw) & Em & Eb) Em' E.
  rewrite Em in Em'. injection Em' as -> ->. rewrite E in Eb.
  assert (upload_entries fs root prefix (Some (root, sz) :: wrest) = []) as En.
  { unfold upload_entries. cbn [omap list_omap]. unfold process_dir_ent at 1. cbn [mbind option_bind]. rewrite Hb0. cbn [mbind option_bind].
    clear -Hb Hw. induction wrest as [|[[p sp]|] wrest IH]; [reflexivity| |].
    - destruct (Hw p sp ltac:(left)) as (below & -> & _). cbn [omap list_omap]. unfold process_dir_ent at 1. cbn [mbind option_bind]. rewrite Hb. cbn [mbind option_bind].
      apply IH. intros path s' Hin. eapply Hw. right. exact Hin.
    - cbn [omap list_omap]. apply IH. intros path s' Hin. eapply Hw. right. exact Hin. }
  rewrite En in Eb. eapply nothing_frames, Eb.
Qed.

(** Nothing is stored under a key: no answer about it has a body or a length. *)
Definition nothing_under (s : server) (key : list N) (rq : request) (r : response) : Prop :=
  (needs rq = Some (ReadObject key) -> permitted s rq (ReadObject key) -> r = Resp 404 \/ r = Resp 416) /\
  (needs rq = Some (InspectObject key) -> permitted s rq (InspectObject key) -> r = Resp 404).
Lemma last_nothing s Q rq r Q' key : serves s Q rq r Q' -> q_com Q !! key = None -> nothing_under s key rq r.
Proof.
  intros H Ho. split.
  - intros Hn Hp. unfold needs in Hn. inversion H; subst; try (unfold needs in *; congruence).
    + exfalso. unfold needs in *. match goal with A : _ \/ _ |- _ => destruct A as [(? & ? & ? & E)|(? & E)]; rewrite E in Hn end; destruct (decide _); discriminate Hn.
    + exfalso. unfold needs in *. match goal with A : rq_method rq = _ |- _ => rewrite A in Hn end. destruct (decide _); discriminate Hn.
    + match goal with A : needs rq = Some (ReadObject ?k) |- _ => unfold needs in A; rewrite Hn in A; injection A as <- end.
      rewrite Ho. cbn [fmap option_fmap option_map]. unfold endpoint_read. repeat case_match; simplify_eq; auto.
  - intros Hn Hp. unfold needs in Hn. inversion H; subst; try (unfold needs in *; congruence).
    + exfalso. unfold needs in *. match goal with A : _ \/ _ |- _ => destruct A as [(? & ? & ? & E)|(? & E)]; rewrite E in Hn end; destruct (decide _); discriminate Hn.
    + exfalso. unfold needs in *. match goal with A : rq_method rq = _ |- _ => rewrite A in Hn end. destruct (decide _); discriminate Hn.
    + match goal with A : needs rq = Some (InspectObject ?k) |- _ => unfold needs in A; rewrite Hn in A; injection A as <- end.
      rewrite Ho. reflexivity.
Qed.

Section Server.
  Variable s : server.
  Hypothesis Hmac : is_mac (sv_mac s).
  Lemma batch_untouched before key rq r size body : rq_method rq = HPost size body ->
    (forall es tail, Forall valid_entry es -> concat body = concat (map entry_bytes es) ++ tail -> key ∉ map fst es) -> untouched before key rq r.
  Proof using.
    intros Em H. split; [intros Hn; unfold needs in Hn; rewrite Em in Hn; destruct (decide _); discriminate Hn|].
    split; [intros tok receipts E; congruence|]. intros size' body' es tail _ Em'. rewrite Em in Em'. injection Em' as <- <-. apply H.
  Qed.
  Lemma stays_empty h Q key : Forall (fun x => request_ok s (fst x)) h -> leaves_alone [] key h -> serves_all s q_empty h Q -> q_com Q !! key = None.
  Proof using Hmac.
    intros Hok HL H. rewrite (com_all s Hmac [] q_empty h Q key Hok (known_empty s) H HL). apply lookup_empty.
  Qed.
End Server.
Lemma leaves_alone_mid pre key rq r post : leaves_alone [] key pre -> untouched pre key rq r -> leaves_alone (pre ++ [(rq, r)]) key post ->
  leaves_alone [] key (pre ++ [(rq, r)] ++ post).
Proof.
  intros H1 H2 H3 h1 rq' r' h2 E. cbn [app] in E |- *. apply app_eq_inv in E as [(k & -> & E)|(k & -> & E)].
  - destruct k as [|x k].
    + cbn [app] in E. injection E as -> -> _. rewrite app_nil_r in H2. exact H2.
    + injection E as <- _. exact (H1 h1 rq' r' k eq_refl).
  - destruct k as [|x k].
    + cbn [app] in E. injection E as <- <- _. rewrite app_nil_r. exact H2.
    + injection E as <- E. specialize (H3 k rq' r' h2 E). rewrite <- app_assoc in H3. exact H3.
Qed.

(** * C59 *)
(** The source is a directory with an absolute path.  Whatever files it has, the
    upload stores none of them: the walk begins with the directory itself, which cannot
    be read, so the request fails after its header.  It changes nothing that is
    stored under any other key than that of the directory, and under a key for
    which there was no object there is none afterwards. *)
Theorem C59_absolute_directory_stores_no_file : forall s c pages fs root prefix rq r0 pre post lastrq r key,
  let h := pre ++ [(rq, r0)] ++ post in
  is_mac (sv_mac s) -> cfg_ok c -> Forall (fun x => request_ok s (fst x)) (h ++ [(lastrq, r)]) -> server_run s c pages (h ++ [(lastrq, r)]) ->
  fs root = Some NDir -> head root = Some 47 -> upload_dir_rq fs root prefix rq -> key <> prefix ++ root ->
  untouched pre key rq r0 /\
  (leaves_alone [] key pre -> leaves_alone (pre ++ [(rq, r0)]) key post -> nothing_under s key lastrq r).
Proof.
  intros s c pages fs root prefix rq r0 pre post lastrq r key h Hm Hc Hok Hr Hd Ha Hu Hk.
  assert (Hun : untouched pre key rq r0).
  { pose proof Hu as (walk & size & body & rest & _ & Em & _). eapply batch_untouched; [exact Em|]. intros es tail Hv E.
    destruct (absolute_frames fs root prefix rq size body es tail Hd Ha Hu Em Hv E) as [->| ->]; [apply not_elem_of_nil|].
    cbn [map fst]. intros X. apply elem_of_list_singleton in X. contradiction. }
  split; [exact Hun|]. intros HL1 HL2.
  destruct (server_refines s c pages _ Hm Hc Hok Hr) as [Q HQ]. apply serves_all_app in HQ as (Q1 & H1 & H2).
  apply serves_all_cons in H2 as (Q2 & H2 & _). eapply last_nothing; [exact H2|]. apply Forall_app in Hok as [Hok _].
  eapply stays_empty; [exact Hm|exact Hok| |exact H1]. apply leaves_alone_mid; assumption.
Qed.
Print Assumptions C59_absolute_directory_stores_no_file.

(** The source is a directory with a relative path, such as "photos".  The paths of the
    walk begin with it, and are joined to it once more: if there is no
    "photos/photos", every entry is skipped and nothing at all is stored. *)
Theorem C59_relative_directory_stores_no_file : forall s c pages fs root prefix rq r0 pre post lastrq r key,
  let h := pre ++ [(rq, r0)] ++ post in
  is_mac (sv_mac s) -> cfg_ok c -> Forall (fun x => request_ok s (fst x)) (h ++ [(lastrq, r)]) -> server_run s c pages (h ++ [(lastrq, r)]) ->
  root <> [] -> head root <> Some 47 ->
  fs (path_join root root) = None -> (forall below, fs (path_join root (path_join root below)) = None) ->
  upload_dir_rq fs root prefix rq ->
  untouched pre key rq r0 /\
  (leaves_alone [] key pre -> leaves_alone (pre ++ [(rq, r0)]) key post -> nothing_under s key lastrq r).
Proof.
  intros s c pages fs root prefix rq r0 pre post lastrq r key h Hm Hc Hok Hr H0 Ha Hb0 Hb Hu.
  assert (Hun : untouched pre key rq r0).
  { pose proof Hu as (walk & size & body & rest & _ & Em & _). eapply batch_untouched; [exact Em|]. intros es tail Hv E.
    rewrite (relative_frames fs root prefix rq size body es tail H0 Ha Hb Hb0 Hu Em E). apply not_elem_of_nil. }
  split; [exact Hun|]. intros HL1 HL2.
  destruct (server_refines s c pages _ Hm Hc Hok Hr) as [Q HQ]. apply serves_all_app in HQ as (Q1 & H1 & H2).
  apply serves_all_cons in H2 as (Q2 & H2 & _). eapply last_nothing; [exact H2|]. apply Forall_app in Hok as [Hok _].
  eapply stays_empty; [exact Hm|exact Hok| |exact H1]. apply leaves_alone_mid; assumption.
Qed.
Print Assumptions C59_relative_directory_stores_no_file.

(** It does work when the "directory" is a file with an absolute path: the whole body
    reaches the server, and if it is answered, the bytes of the file are stored under
    the prefix and its path. *)
Theorem C59_single_file_partial : forall s c pages fs root prefix data rq size body n pre post lastrq r,
  let before := pre ++ [(rq, RespCount 200 n)] in
  is_mac (sv_mac s) -> cfg_ok c -> Forall (fun x => request_ok s (fst x)) (before ++ post ++ [(lastrq, r)]) -> server_run s c pages (before ++ post ++ [(lastrq, r)]) ->
  fs root = Some (NFile data) -> head root = Some 47 -> valid_entry (prefix ++ root, data) ->
  needs rq = Some BatchCreateObjects -> permitted s rq BatchCreateObjects -> rq_method rq = HPost size body ->
  concat body = upload_bytes (upload_entries fs root prefix [Some (root, N.of_nat (length data))]) ->
  n = 1 /\ (leaves_alone before (prefix ++ root) post -> answers_with s (prefix ++ root) data lastrq r).
Proof.
  intros s c pages fs root prefix data rq size body n pre post lastrq r before Hm Hc Hok Hr Hd Ha Hv Hn Hp Em Eb.
  destruct (C56_batch_data_is_served s c pages pre rq size body (RespCount 200 n) post lastrq r Hm Hc Hok Hr Hn Hp Em) as (es & tail & E1 & E2 & E3 & E4).
  destruct E3 as [E3|[E3 E5]]; [discriminate E3|]. injection E3 as ->.
  assert (Hj : path_join root root = root) by (destruct root as [|b root]; [discriminate Ha|]; injection Ha as ->; reflexivity).
  unfold upload_entries in Eb. cbn [omap list_omap] in Eb. unfold process_dir_ent in Eb. cbn [mbind option_bind] in Eb. rewrite Hj, Hd in Eb.
  cbn [mbind option_bind upload_bytes] in Eb. destruct Hv as [Hv1 Hv2]. cbn [fst snd] in Hv1, Hv2.
  destruct (N.leb_spec (2 ^ 16) (N.of_nat (length (prefix ++ root)))) as [Hl|_]; [exfalso; clear -Hl Hv1; lia|].
  rewrite app_nil_r in Eb. rewrite E2 in Eb.
  assert (es = [(prefix ++ root, data)]) as ->.
  { destruct es as [|[k d] es].
    - exfalso. cbn [map concat app] in Eb. apply (E5 (prefix ++ root, data) []); [split; assumption|]. rewrite app_nil_r. exact Eb.
    - apply Forall_cons_1 in E1 as [[V1 V2] _]. cbn [map concat] in Eb. unfold entry_bytes at 1, batch_entry in Eb. cbn [fst snd] in *. rewrite <- !app_assoc in Eb.
      apply app_inj_1 in Eb as [A1 Eb]; [|rewrite !be_bytes_length; reflexivity]. apply be_bytes_eq in A1; [|exact V1|exact Hv1].
      rewrite (app_assoc prefix root) in Eb. apply app_inj_1 in Eb as [A2 Eb]; [|clear -A1; lia]. subst k.
      apply app_inj_1 in Eb as [A3 Eb]; [|rewrite !be_bytes_length; reflexivity]. apply be_bytes_eq in A3; [|exact V2|exact Hv2].
      rewrite <- (app_nil_r data) in Eb. apply app_inj_1 in Eb as [A4 Eb]; [|clear -A3; lia]. subst d. f_equal.
      destruct es as [|e es]; [reflexivity|]. exfalso. pose proof (entry_bytes_length e) as HL. cbn [map concat] in Eb.
      destruct (entry_bytes e); [cbn [length] in HL; clear -HL; lia|discriminate Eb]. }
  split; [reflexivity|]. intros HL. eapply (E4 [] _ _ []); [reflexivity|apply not_elem_of_nil|exact HL].
Qed.
Print Assumptions C59_single_file_partial.

(** ** Examples *)
(** The directory "/d" with the file "/d/a". *)
Definition ex_fs : filesystem := fun p =>
  if bool_decide (p = [47; 100]) then Some NDir else if bool_decide (p = [47; 100; 47; 97]) then Some (NFile [7]) else None.
Definition ex_walk : list (option (list N * N)) := [Some ([47; 100], 2); Some ([47; 100; 47; 97], 1)].
Definition ex_dir_rq : request := ex_rq [47] BatchCreateObjects (HPost 0 [[0; 2; 47; 100]; [0; 0; 0; 0; 2]]).
Definition ex_get_file : request := ex_rq [47; 47; 100; 47; 97] (ReadObject [47; 100; 47; 97]) (HGet None).
Definition ex_dir_reqs : list (request * list (list vis)) :=
  [(ex_dir_rq, [[VRet (RCreated 1)]]); (ex_get_file, [[VRet (RFailed ObjectNotFound)]])].
Definition ex_dir_run : list ev := do_create 0 [47; 100] 2 1 2 ++ [ECall (ORead [47; 100; 47; 97] None 0 None 8192)] ++ steps 1 [2].
Definition ex_dir_history : history := ([] ++ [(ex_dir_rq, RespCount 200 0)] ++ []) ++ [(ex_get_file, Resp 404)].
Lemma ex_dir_server : server_run ex_srv (ex_cfg 10 16384) (PropertiesTuples.ex_pages 1) ex_dir_history.
Proof.
  destruct (exec_all ex_srv ex_dir_reqs) as [[css h]|] eqn:E; [|vm_compute in E; discriminate E].
  apply (ex_server ex_srv ex_dir_run ex_dir_reqs css); [reflexivity| | |]; vm_compute in E; injection E as <- <-; vm_compute; reflexivity.
Qed.
Theorem C59_example :
  Forall (fun x => request_ok ex_srv (fst x)) ex_dir_history /\
  server_run ex_srv (ex_cfg 10 16384) (PropertiesTuples.ex_pages 1) ex_dir_history /\
  ex_fs [47; 100] = Some NDir /\ ex_fs [47; 100; 47; 97] = Some (NFile [7]) /\ upload_dir_rq ex_fs [47; 100] [] ex_dir_rq /\
  needs ex_get_file = Some (ReadObject ([] ++ [47; 100; 47; 97])) /\ permitted ex_srv ex_get_file (ReadObject ([] ++ [47; 100; 47; 97])) /\
  leaves_alone [] [47; 100; 47; 97] [] /\ leaves_alone [(ex_dir_rq, RespCount 200 0)] [47; 100; 47; 97] [].
Proof.
  assert (HN : forall before key, leaves_alone before key []) by (intros before key h1 rq r h2 E; destruct h1; discriminate E).
  split. { constructor; [|constructor; [exact I|constructor]]. split; [reflexivity|]. vm_compute. repeat constructor. }
  split; [exact ex_dir_server|]. split; [reflexivity|]. split; [reflexivity|]. split.
  { exists ex_walk, 0, [[0; 2; 47; 100]; [0; 0; 0; 0; 2]], []. split; [|split; [reflexivity|vm_compute; reflexivity]].
    exists 2, [Some ([47; 100; 47; 97], 1)]. split; [reflexivity|]. intros path size Hin. apply elem_of_list_singleton in Hin. injection Hin as -> ->.
    exists [97]. split; [reflexivity|]. split; [discriminate|discriminate]. }
  split; [vm_compute; reflexivity|]. split; [right; exists 100; split; [reflexivity|]; split; reflexivity|]. split; apply HN.
Qed.
Print Assumptions C59_example.
(** So it is false that the files of the directory can be read after the upload. *)
Theorem C59_every_file_is_stored_refuted :
  ~ (forall s c pages fs root prefix rq n pre lastrq r below data range,
       is_mac (sv_mac s) -> cfg_ok c -> Forall (fun x => request_ok s (fst x)) (pre ++ [(rq, RespCount 200 n)] ++ [(lastrq, r)]) ->
       server_run s c pages (pre ++ [(rq, RespCount 200 n)] ++ [(lastrq, r)]) ->
       fs root = Some NDir -> fs (path_join root below) = Some (NFile data) -> upload_dir_rq fs root prefix rq ->
       needs rq = Some BatchCreateObjects -> permitted s rq BatchCreateObjects ->
       needs lastrq = Some (ReadObject (prefix ++ path_join root below)) -> permitted s lastrq (ReadObject (prefix ++ path_join root below)) ->
       rq_method lastrq = HGet range -> exists oid, r = get_answer oid data range).
Proof.
  intros H. destruct C59_example as (E1 & E2 & E3 & E4 & E5 & E6 & E7 & _).
  destruct (H ex_srv (ex_cfg 10 16384) (PropertiesTuples.ex_pages 1) ex_fs [47; 100] [] ex_dir_rq 0 [] ex_get_file (Resp 404) [97] [7] None) as (oid & E).
  - exact toy_is_mac.
  - constructor; cbn; lia.
  - exact E1.
  - exact E2.
  - exact E3.
  - exact E4.
  - exact E5.
  - vm_compute. reflexivity.
  - right. exists 100. split; [reflexivity|]. split; reflexivity.
  - exact E6.
  - exact E7.
  - reflexivity.
  - vm_compute in E. discriminate E.
Qed.
Print Assumptions C59_every_file_is_stored_refuted.
