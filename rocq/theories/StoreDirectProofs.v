(** The blobd-direct adapter answers right: proofs. *)
From Coq Require Import ZifyBool ZifyNat ZifyN.
From stdpp Require Import base numbers option gmap functions sorting list.
From Verif Require Import Util Bytes BuddyModel PageIOModel PageIOSpec TuplesModel DirectModel DirectSpec DirectSeqSpec DirectBase PropertiesDirect.
From Verif Require Import StoreModel StoreSpec StoreProofs StoreDirect StoreDirectSpec.
From Verif Require StoreS3 BenchProofs StoreLiteProofs.
Open Scope N_scope.
Ltac Zify.zify_post_hook ::= idtac.

(** ** Histories of calls one after another *)
Lemma dsteps_app c y0 ls1 y1 ls2 y2 : dsteps c y0 ls1 y1 -> dsteps c y1 ls2 y2 -> dsteps c y0 (ls1 ++ ls2) y2.
Proof. intros H1 H2. induction H2 as [y|y ls y2 l y3 H2 IH Hs]; [now rewrite app_nil_r|]. rewrite app_assoc. econstructor; eauto. Qed.
Lemma visible_app ls1 ls2 : visible (ls1 ++ ls2) = visible ls1 ++ visible ls2.
Proof. apply List.filter_app. Qed.
Lemma call_visible i op ls : LCall i op ∈ ls -> LCall i op ∈ visible ls.
Proof. intros H. apply elem_of_list_In, List.filter_In. split; [now apply elem_of_list_In|reflexivity]. Qed.
Definition block (i : nat) (op : dop) (vs : list vis) : list label := LCall i op :: map (LVis i) vs.
Lemma no_call_in_vis i op j vs : LCall i op ∈ map (LVis j) vs -> False.
Proof. intros H. apply elem_of_list_In, in_map_iff in H as (v & E & _). discriminate. Qed.
Lemma block_split L i op vs ls1 j op' ls2 : L ++ block i op vs = ls1 ++ LCall j op' :: ls2 ->
  (exists l, L = ls1 ++ LCall j op' :: l) \/ (ls1 = L /\ LCall j op' :: ls2 = block i op vs).
Proof.
  intros E. apply app_eq_inv in E as [(k & E1 & E2)|(k & E1 & E2)].
  - destruct k as [|x k]; [right; rewrite app_nil_r in E1; auto|]. left. injection E2 as -> _. eauto.
  - destruct k as [|x k]; [right; rewrite app_nil_r in E1; auto|]. exfalso. unfold block in E2. injection E2 as _ E2. apply (no_call_in_vis j op' i vs). rewrite E2. apply elem_of_app. right. constructor.
Qed.
Lemma oaa_block L i op vs : one_after_another L -> all_finished L -> one_after_another (L ++ block i op vs).
Proof.
  intros Ho Ha ls1 j op' ls2 E. apply block_split in E as [[l E]|[-> _]]; [eapply Ho, E|]. intros k op2 Hk. eapply Ha, Hk.
Qed.
Lemma fin_block L i op vs : all_finished L -> (exists v, v ∈ vs /\ is_final v = true) -> all_finished (L ++ block i op vs).
Proof.
  intros Ha (v & Hv & Hf) j op' Hj. apply elem_of_app in Hj as [Hj|Hj].
  - destruct (Ha _ _ Hj) as (v' & H1 & H2). exists v'. split; [apply elem_of_app; auto|exact H2].
  - unfold block in Hj. apply elem_of_cons in Hj as [E|Hj]; [|exfalso; eapply no_call_in_vis, Hj]. injection E as -> ->.
    exists v. split; [|exact Hf]. apply elem_of_app. right. apply elem_of_cons. right. apply elem_of_list_In, in_map, elem_of_list_In, Hv.
Qed.
Lemma map_LVis_inj i vs1 : forall vs2, map (LVis i) vs1 = map (LVis i) vs2 -> vs1 = vs2.
Proof. induction vs1 as [|v vs1 IH]; intros [|v2 vs2] E; try discriminate; [reflexivity|]. cbn [map] in E. injection E as -> E. now rewrite (IH _ E). Qed.
Lemma seq_last lpage n L i op vs Q' : seq_run lpage n (L ++ block i op vs) Q' -> exists n1 Q, seq_run lpage n1 L Q /\ DirectSeqSpec.answers lpage Q op vs Q'.
Proof.
  intros H. remember (L ++ block i op vs) as X eqn:E. destruct H as [|n ls Q op' vs' Q' H1 H2]; [exfalso; destruct L; discriminate|].
  change (LCall n op' :: map (LVis n) vs') with (block n op' vs') in E. destruct (block_split _ _ _ _ _ _ _ _ E) as [[l E1]|[-> E1]].
  - exfalso. subst ls. rewrite <- app_assoc in E. apply app_inv_head in E. cbn [app] in E. unfold block in E. injection E as E. apply (no_call_in_vis n op' i vs). rewrite <- E. apply elem_of_app. right. constructor.
  - unfold block in E1. injection E1 as -> -> E1. apply map_LVis_inj in E1 as ->. eauto.
Qed.

(** ** What the keys have *)
Definition holds (chunk : N) (Q : qstate) (key : list N) (st : kstate) : Prop :=
  match st with
  | KAbsent => q_com Q !! key = None
  | KUpload tok size parts => q_com Q !! key = None /\ exists u, q_up Q !! tok = Some u /\ qu_key u = key /\ qu_size u = size /\
      (forall off, qu_parts u off = parts !! off) /\ forall off d, parts !! off = Some d -> blen d = N.min chunk (size - off)
  | KStored data => exists co, q_com Q !! key = Some co /\ co_size co = blen data /\ forall i, i < blen data -> Some (co_bytes co i) = data !! N.to_nat i
  end.
Definition rel (chunk : N) (Q : qstate) (F : list N -> kstate) : Prop :=
  (forall tok, is_Some (q_up Q !! tok) -> tok ∈ q_ids Q) /\ forall key, holds chunk Q key (F key).
Lemma rel_upd chunk Q Q' F key st : rel chunk Q F -> (forall tok, is_Some (q_up Q' !! tok) -> tok ∈ q_ids Q') -> holds chunk Q' key st ->
  (forall k, k <> key -> q_com Q' !! k = q_com Q !! k) ->
  (forall tok u, q_up Q !! tok = Some u -> qu_key u <> key -> q_up Q' !! tok = Some u) -> rel chunk Q' (<[key := st]> F).
Proof.
  intros [Hr1 Hr2] Hi Hk Hc Hu. split; [exact Hi|]. intros k. destruct (decide (k = key)) as [->|Hne]; [now rewrite fn_insert_eq|]. rewrite fn_insert_ne by congruence.
  specialize (Hr2 k). destruct (F k) as [|tok size parts|data]; cbn [holds] in *; rewrite Hc by exact Hne; [exact Hr2| |exact Hr2].
  destruct Hr2 as (H1 & u & H2 & H3 & H4). split; [exact H1|]. exists u. split; [apply Hu; [exact H2|congruence]|]. auto.
Qed.
Lemma rel_same chunk Q F key st : rel chunk Q F -> F key = st -> rel chunk Q (<[key := st]> F).
Proof. intros Hr E. eapply rel_upd; [exact Hr|apply Hr|rewrite <- E; apply Hr|auto|auto]. Qed.
Lemma tile_lt chunk size off : 0 < chunk -> off ∈ tiles chunk size -> off < size /\ off mod chunk = 0.
Proof.
  intros Hc H. apply (StoreS3.tiles_in (BenchProofs.cz chunk) Hc (N.le_0_l _) size) in H as (k & Hk & ->).
  apply (StoreS3.npt_lt (BenchProofs.cz chunk) Hc (N.le_0_l _)) in Hk. cbn in *. split; [lia|]. apply N.mod_mul. lia.
Qed.
Lemma range_right f data start fin : start <= fin <= blen data -> (forall i, i < blen data -> Some (f i) = data !! N.to_nat i) -> byte_range f start fin = bytes_from data start (fin - start).
Proof.
  intros H1 H2. unfold byte_range, bytes_from, blen in *. apply list_eq. intros i. rewrite list_lookup_fmap. destruct (decide (i < N.to_nat (fin - start))%nat) as [Hi|Hi].
  - rewrite lookup_seq_lt by exact Hi. cbn [fmap option_fmap option_map]. rewrite lookup_take by exact Hi. rewrite lookup_drop. rewrite H2 by lia. f_equal. lia.
  - rewrite lookup_seq_ge by lia. cbn [fmap option_fmap option_map]. symmetry. apply lookup_take_ge. lia.
Qed.
Lemma stream_data_ok chunks : stream_data (map VChunk chunks ++ [VEnd RDone]) = Some (concat chunks).
Proof. induction chunks as [|d chunks IH]; [reflexivity|]. cbn [map app]. cbn [stream_data]. rewrite IH. reflexivity. Qed.

Lemma core lpage Q F op d vs Q' (chunk := 2 ^ lpage) : rel chunk Q F -> allowed chunk (F (op_key op)) op -> direct_call op d -> DirectSeqSpec.answers lpage Q d vs Q' ->
  (exists ans, direct_answer vs = Some ans /\ right (F (op_key op)) op ans /\ rel chunk Q' (<[op_key op := next chunk (F (op_key op)) op ans]> F)) \/
  (direct_answer vs = None /\ exists key size, op = SoCreate key size).
Proof.
  assert (Hc : 0 < chunk) by (apply N.neq_0_lt_0, N.pow_nonzero; lia).
  intros Hr Hal Hd Ha. pose proof Hr as [Hr1 Hr2]. specialize (Hr2 (op_key op)). destruct op as [key size|key tok off data|key tok|key|key start fin|key]; cbn [op_key direct_call] in *.
  - subst d. inversion Ha; subst; [|right; split; [reflexivity|eauto]]. left. exists (AnToken tok). split; [reflexivity|]. split; [destruct (F key); exists tok; reflexivity|].
    destruct (F key) as [| |] eqn:EF; try contradiction. cbn [holds next] in *. eapply rel_upd; [exact Hr| | | |]; cbn [q_new q_up q_com q_ids].
    + intros t Ht. destruct (decide (t = tok)) as [->|]; [set_solver|]. rewrite lookup_insert_ne in Ht by congruence. apply Hr1 in Ht. set_solver.
    + cbn [holds q_new q_com q_up]. split; [exact Hr2|]. eexists. rewrite lookup_insert. split; [reflexivity|]. cbn [qu_key qu_size qu_parts]. split; [reflexivity|]. split; [reflexivity|].
      split; [intros off; now rewrite lookup_empty|]. intros off x Hx. rewrite lookup_empty in Hx. discriminate.
    + reflexivity.
    + intros t u Hu _. rewrite lookup_insert_ne; [exact Hu|]. intros <-. assert (tok ∈ q_ids Q) by (apply Hr1; eauto). contradiction.
  - subst d. destruct (F key) as [|tok' size parts|] eqn:EF; try contradiction. cbn [allowed] in Hal. destruct Hal as (<- & Ht & Hnone & Hl). cbn [holds] in Hr2. destruct Hr2 as (Hcom & u & Hu & Hk & Hsz & Hp & Hpl).
    destruct (tile_lt chunk size off Hc Ht) as [Hlt Hmod].
    assert (Hsb : stream_bytes [Data data] = data) by (cbn; apply app_nil_r).
    assert (Hv : valid_part lpage (qu_size u) off (blen data)) by (split; [exact Hmod|rewrite Hsz; unfold chunk in *; lia]).
    assert (Hdata : data <> []) by (intros ->; unfold blen in Hl; cbn [length] in Hl; lia).
    inversion Ha; subst; try congruence.
    + exfalso. assert (u0 = u) as -> by congruence. destruct Hv as [Hv1 Hv2]. match goal with H : part_error _ _ _ _ ?e |- _ => destruct e; cbn [part_error] in H; try contradiction; try congruence; lia end.
    + left. exists AnUnit. assert (u0 = u) as -> by congruence. split; [reflexivity|]. split; [reflexivity|]. cbn [next]. eapply rel_upd; [exact Hr| | | |]; cbn [q_part q_up q_com q_ids].
      * intros t Htk. apply Hr1. destruct (decide (t = tok)) as [->|]; [eauto|]. rewrite lookup_insert_ne in Htk by congruence. exact Htk.
      * cbn [holds q_part q_up q_com]. split; [exact Hcom|]. eexists. rewrite lookup_insert. split; [reflexivity|]. cbn [qu_key qu_size qu_parts]. split; [reflexivity|]. split; [reflexivity|]. rewrite Hsb. split.
        -- intros o. destruct (decide (o = off)) as [->|Hne]; [rewrite lookup_insert; apply fn_lookup_insert|rewrite lookup_insert_ne by congruence; rewrite fn_lookup_insert_ne by congruence; apply Hp].
        -- intros o x Hx. destruct (decide (o = off)) as [->|Hne]; [rewrite lookup_insert in Hx; injection Hx as <-; exact Hl|rewrite lookup_insert_ne in Hx by congruence; eapply Hpl, Hx].
      * reflexivity.
      * intros t u1 Hu1 Hk1. rewrite lookup_insert_ne; [exact Hu1|]. intros <-. congruence.
    + exfalso. match goal with H : Fail ∈ _ |- _ => apply elem_of_list_singleton in H; discriminate end.
    + exfalso. rewrite Hsb in *. unfold blen in *. contradiction.
    + exfalso. match goal with H : Data [] ∈ _ |- _ => apply elem_of_list_singleton in H; congruence end.
  - subst d. destruct (F key) as [|tok' size parts|] eqn:EF; try contradiction. cbn [allowed] in Hal. destruct Hal as (<- & Hall). cbn [holds] in Hr2. destruct Hr2 as (Hcom & u & Hu & Hk & Hsz & Hp & Hpl).
    inversion Ha; subst; try congruence. left. assert (u0 = u) as -> by congruence. exists AnUnit. split; [reflexivity|]. split; [reflexivity|]. cbn [next].
    destruct (StoreLiteProofs.upload_bytes chunk (qu_size u) parts (fun i => Some (bytes i)) Hc) as [HU1 HU2].
    { intros off Ho. destruct (Hall off Ho) as [x Hx]. exists x. split; [exact Hx|]. split; [eapply Hpl, Hx|]. intros i Hi. unfold blen in Hi. destruct (lookup_lt_is_Some_2 x (N.to_nat i)) as [b Hb]; [lia|]. rewrite Hb. f_equal.
      match goal with H : has_written _ _ |- _ => rewrite <- (H off x (N.to_nat i) b ltac:(rewrite Hp; exact Hx) Hb) end. f_equal. lia. }
    eapply rel_upd; [exact Hr| | | |]; cbn [q_publish q_up q_com q_ids].
    + intros t Htk. destruct (decide (t = tok)) as [->|]; [rewrite lookup_delete in Htk; destruct Htk; discriminate|]. rewrite lookup_delete_ne in Htk by congruence. apply Hr1 in Htk. set_solver.
    + cbn [holds q_publish q_com]. eexists. rewrite lookup_insert. split; [reflexivity|]. cbn [co_size co_bytes]. split; [symmetry; exact HU1|]. intros i Hi. apply HU2. rewrite <- HU1. exact Hi.
    + intros k Hne. now rewrite lookup_insert_ne by congruence.
    + intros t u1 Hu1 Hk1. rewrite lookup_delete_ne; [exact Hu1|]. intros <-. congruence.
  - subst d. destruct (F key) as [| |data] eqn:EF; try contradiction. cbn [holds] in Hr2. destruct Hr2 as (co & Hco & Hsz & Hb). left.
    inversion Ha; subst; [exfalso; match goal with H : forall co, ~ _ |- _ => apply (H co) end; split; [exact Hco|discriminate]|]. match goal with H : q_find _ _ _ _ |- _ => destruct H as [H _]; rewrite Hco in H; injection H as <- end.
    exists (AnSize (co_size co)). split; [reflexivity|]. split; [cbn [right]; congruence|]. cbn [next]. now apply rel_same.
  - destruct Hd as (buffer & Hbuf & ->). destruct (F key) as [| |data] eqn:EF; try contradiction. cbn [holds] in Hr2. destruct Hr2 as (co & Hco & Hsz & Hb). left. cbn [allowed] in Hal.
    inversion Ha; subst; [exfalso; match goal with H : forall co, ~ _ |- _ => apply (H co) end; split; [exact Hco|discriminate]| |];
      (match goal with H : q_find _ _ _ _ |- _ => destruct H as [H _]; rewrite Hco in H; injection H as <- end); rewrite Hsz in *; [exfalso; lia|].
    exists (AnData (concat chunks)). split; [cbn [direct_answer]; rewrite stream_data_ok; reflexivity|]. split; [cbn [right]; f_equal; match goal with H : concat chunks = _ |- _ => rewrite H end; now apply range_right|]. cbn [next]. now apply rel_same.
  - subst d. destruct (F key) as [| |data] eqn:EF; try contradiction. cbn [holds] in Hr2. destruct Hr2 as (co & Hco & Hsz & Hb). left.
    inversion Ha; subst; [exfalso; match goal with H : forall co, ~ _ |- _ => apply (H co) end; split; [exact Hco|discriminate]|].
    exists AnUnit. split; [reflexivity|]. split; [reflexivity|]. cbn [next]. eapply rel_upd; [exact Hr| | | |]; cbn [q_remove q_up q_com q_ids].
    + exact Hr1.
    + cbn [holds q_remove q_com]. apply lookup_delete.
    + intros k Hne. now rewrite lookup_delete_ne by congruence.
    + auto.
Qed.

(** ** Runs *)
Definition linked (c : dcfg) (y0 y : dsys) (F : list N -> kstate) : Prop :=
  exists ls, dsteps c y0 ls y /\ valid_calls (dc_lpage c) ls /\ one_after_another (visible ls) /\ all_finished (visible ls) /\
    forall n Q, seq_run (dc_lpage c) n (visible ls) Q -> rel (direct_chunk c) Q F.
Section D.
Context (c : dcfg) (pages : list (list N)) (y0 : dsys) (Hc : cfg_ok c) (Hf : fresh_partition c pages y0).
Lemma direct_step y F op out : linked c y0 y F -> allowed (direct_chunk c) (F (op_key op)) op -> direct_ok (direct_chunk c) (F (op_key op)) op -> partition_store c y op out ->
  (exists ans y', out = Some (ans, y') /\ right (F (op_key op)) op ans /\ linked c y0 y' (<[op_key op := next (direct_chunk c) (F (op_key op)) op ans]> F)) \/
  (out = None /\ exists key size, op = SoCreate key size).
Proof using Hc Hf.
  intros (ls & Hs & Hv & Ho & Ha & Hrel) Hal Hok (d & ls2 & y' & vs & Hd & Hs2 & Evis & Hfin & ->).
  set (i := length (y_procs y)) in *. change (LCall i d :: map (LVis i) vs) with (block i d vs) in Evis.
  pose proof (dsteps_app _ _ _ _ _ _ Hs Hs2) as Hs3. assert (Evis3 : visible (ls ++ ls2) = visible ls ++ block i d vs) by (rewrite visible_app, Evis; reflexivity).
  assert (Hv3 : valid_calls (dc_lpage c) (ls ++ ls2)).
  { intros j op' Hj. apply elem_of_app in Hj as [Hj|Hj]; [eapply Hv, Hj|]. apply call_visible in Hj. rewrite Evis in Hj. unfold block in Hj. apply elem_of_cons in Hj as [E|Hj]; [|exfalso; eapply no_call_in_vis, Hj].
    injection E as -> ->. destruct op; cbn [direct_call direct_ok] in *; try (subst d; cbn [valid_op]; exact I).
    - subst d. cbn [valid_op op_key] in *. destruct (F key) as [|t size parts|]; try contradiction. destruct Hal as (_ & Ht & _). assert (Hpos : 0 < direct_chunk c) by (apply N.neq_0_lt_0, N.pow_nonzero; lia).
      apply (tile_lt _ _ _ Hpos) in Ht as [Ht _]. unfold direct_chunk in *. clear -Ht Hok. lia.
    - destruct Hd as (b & Hb & ->). exact Hb. }
  assert (Ho3 : one_after_another (visible (ls ++ ls2))) by (rewrite Evis3; now apply oaa_block).
  assert (Ha3 : all_finished (visible (ls ++ ls2))) by (rewrite Evis3; now apply fin_block).
  destruct (C21_calls_behave_like_a_map c pages y0 _ y' Hc Hf Hs3 Hv3 Ho3 Ha3) as (n & Q' & Hrun).
  assert (Hstep : forall n Q', seq_run (dc_lpage c) n (visible (ls ++ ls2)) Q' ->
    (exists ans, direct_answer vs = Some ans /\ right (F (op_key op)) op ans /\ rel (direct_chunk c) Q' (<[op_key op := next (direct_chunk c) (F (op_key op)) op ans]> F)) \/
    (direct_answer vs = None /\ exists key size, op = SoCreate key size)).
  { intros n2 Q2 H2. rewrite Evis3 in H2. apply seq_last in H2 as (n1 & Q & H1 & H3). eapply core; [eapply Hrel, H1|exact Hal|exact Hd|exact H3]. }
  destruct (Hstep _ _ Hrun) as [(ans & E & Hr & _)|[E Hcr]]; rewrite E; [left|right; split; [reflexivity|exact Hcr]].
  exists ans, y'. split; [reflexivity|]. split; [exact Hr|]. exists (ls ++ ls2). split; [exact Hs3|]. split; [exact Hv3|]. split; [exact Ho3|]. split; [exact Ha3|].
  intros n2 Q2 H2. destruct (Hstep _ _ H2) as [(ans2 & E2 & _ & Hr2)|[E2 _]]; rewrite E in E2; [|discriminate]. injection E2 as <-. exact Hr2.
Qed.
Lemma direct_linked h y F : runs (partition_store c) y0 h y -> follows (direct_chunk c) (direct_ok (direct_chunk c)) h F -> linked c y0 y F.
Proof using Hc Hf.
  intros Hr. revert F. induction Hr as [|h y op ans y' Hr IH Ha]; intros F Hfo.
  - inversion Hfo as [|h' F' op' ans' ? ? ? E]; subst; [|exfalso; destruct h'; discriminate]. exists []. split; [constructor|]. split; [intros i op H; inversion H|]. split; [intros ls1 i op ls2 E; exfalso; destruct ls1; discriminate|].
    split; [intros i op H; inversion H|]. intros n Q Hq. remember (visible []) as X eqn:E. destruct Hq as [|n ls Q op vs Q' _ _]; [|exfalso; destruct ls; discriminate].
    split; [intros tok H; cbn [q_empty q_up] in H; rewrite lookup_empty in H; destruct H; discriminate|]. intros key. apply lookup_empty.
  - inversion Hfo as [E|h' F' op' ans' Hfo' Hal Hok E]; subst; [exfalso; destruct h; discriminate|]. apply app_inj_tail in E as [-> E]. injection E as -> ->.
    destruct (direct_step y F' op _ (IH _ Hfo') Hal Hok Ha) as [(a & y1 & E & _ & Hl)|[E _]]; [|discriminate]. injection E as <- <-. exact Hl.
Qed.
End D.

Lemma partition_right c pages y0 : cfg_ok c -> fresh_partition c pages y0 -> right_while_room (partition_store c) y0 (direct_chunk c) (direct_ok (direct_chunk c)).
Proof.
  intros Hc Hf h y F op Hr Hfo Hal Hok out Ho. destruct (direct_step c pages y0 Hc Hf y F op out) as [(a & y' & E & H & _)|H]; [eapply direct_linked; eassumption|exact Hal|exact Hok|exact Ho|left; eauto|right; exact H].
Qed.

(** ** Several partitions *)
(** What a key has in its partition, and in the whole store. *)
Definition lift (count index : N) (st : kstate) : kstate :=
  match st with KUpload tok size parts => KUpload (join_token count index tok) size parts | _ => st end.
Section Sh.
Context {St : Type} (hash : list N -> N) (A : nat -> adapter St) (ss0 : list St) (chunk : N) (ok : kstate -> sop -> Prop).
Notation count := (N.of_nat (length ss0)).
(** What is asked does not depend on tokens. *)
Definition blind : Prop := forall st op, ok (lift count (hash (op_key op) mod count) st) op -> ok st (shard_op count hash op).2.
Context (Hn : ss0 <> []) (Hok : blind) (HA : forall p s0, ss0 !! p = Some s0 -> right_while_room (A p) s0 chunk ok).
Definition split_run (ss : list St) (F : list N -> kstate) : Prop :=
  length ss = length ss0 /\ forall p s0, ss0 !! p = Some s0 -> exists s h Fp, ss !! p = Some s /\ runs (A p) s0 h s /\ follows chunk ok h Fp /\
    forall key, N.to_nat (hash key mod count) = p -> F key = lift count (N.of_nat p) (Fp key).
Lemma count_pos : 0 < count.
Proof using Hn. clear -Hn. destruct ss0; [congruence|cbn [length]; lia]. Qed.
Lemma join_mod i t : i < count -> join_token count i t mod count = i /\ join_token count i t / count = t.
Proof using Hn Hok HA.
  intros Hi. pose proof count_pos. unfold join_token. split.
  - rewrite N.add_comm, N.mod_add by lia. now apply N.mod_small.
  - rewrite N.add_comm, N.div_add by lia. rewrite N.div_small by exact Hi. reflexivity.
Qed.
(** A call in turn goes to the partition of its key, in its turn there. *)
Lemma shard_turn F Fp op : let i := hash (op_key op) mod count in F (op_key op) = lift count i (Fp (op_key op)) -> allowed chunk (F (op_key op)) op -> ok (F (op_key op)) op ->
  (shard_op count hash op).1 = i /\ op_key (shard_op count hash op).2 = op_key op /\ allowed chunk (Fp (op_key op)) (shard_op count hash op).2 /\ ok (Fp (op_key op)) (shard_op count hash op).2.
Proof using Hn Hok HA.
  intros i EF Hal Hk. assert (Hi : i < count) by (apply N.mod_lt; pose proof count_pos; lia). rewrite EF in *. assert (Hk2 := Hok _ _ Hk).
  destruct op; cbn [shard_op fst snd op_key] in *; (destruct (Fp key) as [|t size' parts|d]; cbn [lift] in *; try contradiction); try (split; [reflexivity|]; split; [reflexivity|]; split; [exact Hal|exact Hk2]).
  - cbn [allowed] in Hal. destruct Hal as (-> & Hal). destruct (join_mod i t Hi) as [-> E2]. rewrite E2 in *. split; [reflexivity|]. split; [reflexivity|]. split; [cbn [allowed]; auto|exact Hk2].
  - cbn [allowed] in Hal. destruct Hal as (-> & Hal). destruct (join_mod i t Hi) as [-> E2]. rewrite E2 in *. split; [reflexivity|]. split; [reflexivity|]. split; [cbn [allowed]; auto|exact Hk2].
Qed.
Lemma shard_right F Fp op i a : F (op_key op) = lift count i (Fp (op_key op)) -> right (Fp (op_key op)) (shard_op count hash op).2 a -> right (F (op_key op)) op (shard_answer count i a).
Proof using.
  intros -> Hr. destruct op; cbn [shard_op snd op_key] in *; destruct (Fp key); cbn [lift right] in *; try (subst a; reflexivity); try (destruct Hr as [? ->]; eexists; reflexivity).
Qed.
Lemma shard_next st op i a :
  next chunk (lift count i st) op (shard_answer count i a) = lift count i (next chunk st (shard_op count hash op).2 a).
Proof using.
  destruct op; cbn [shard_op snd next]; destruct st, a; reflexivity.
Qed.
Lemma shard_step ss F op out : split_run ss F -> allowed chunk (F (op_key op)) op -> ok (F (op_key op)) op -> sharded hash A ss op out ->
  (exists ans ss', out = Some (ans, ss') /\ right (F (op_key op)) op ans /\ split_run ss' (<[op_key op := next chunk (F (op_key op)) op ans]> F)) \/
  (out = None /\ exists key size, op = SoCreate key size).
Proof using Hn Hok HA.
  intros [Hlen Hp] Hal Hk Ho. unfold sharded in Ho. rewrite Hlen in Ho. pose proof count_pos as Hpos.
  set (i := hash (op_key op) mod count). assert (Hi : i < count) by (apply N.mod_lt; lia). destruct (lookup_lt_is_Some_2 ss0 (N.to_nat i) ltac:(lia)) as [s0 Hs0].
  destruct (Hp _ _ Hs0) as (s & h & Fp & Hs & Hr & Hfo & HF). pose proof (HF (op_key op) eq_refl) as EF. rewrite N2Nat.id in EF.
  destruct (shard_turn F Fp op EF Hal Hk) as (T1 & T2 & T3 & T4). fold i in T1. destruct (shard_op count hash op) as [p op'] eqn:Esh. cbn [fst snd] in *. subst p.
  destruct Ho as (s' & out' & Hs' & Ha & ->). assert (s' = s) as -> by congruence.
  rewrite <- T2 in T3, T4. destruct (HA _ _ Hs0 h s Fp op' Hr Hfo T3 T4 out' Ha) as [(a & s1 & -> & Hright)|[-> (key & size & ->)]].
  - left. cbn [fmap option_fmap option_map]. eexists _, _. split; [reflexivity|]. rewrite T2 in Hright.
    split; [apply (shard_right F Fp op i a EF); rewrite Esh; exact Hright|]. split; [rewrite insert_length; exact Hlen|]. intros p s0' Hp0. destruct (decide (p = N.to_nat i)) as [->|Hne].
    + assert (s0' = s0) as -> by congruence. exists s1, (h ++ [(op', a)]), (<[op_key op' := next chunk (Fp (op_key op')) op' a]> Fp).
      split; [apply list_lookup_insert; eapply lookup_lt_Some, Hs|]. split; [econstructor; eassumption|]. split; [constructor; assumption|]. intros key Hkey. rewrite T2. rewrite N2Nat.id in *.
      destruct (decide (key = op_key op)) as [->|Hnk]; [|rewrite !fn_insert_ne by congruence; apply HF, Hkey]. rewrite !fn_insert_eq, EF.
      rewrite shard_next, Esh. reflexivity.
    + destruct (Hp _ _ Hp0) as (s2 & h2 & F2 & G1 & G2 & G3 & G4). exists s2, h2, F2. split; [rewrite list_lookup_insert_ne by congruence; exact G1|]. split; [exact G2|]. split; [exact G3|].
      intros key Hkey. rewrite fn_insert_ne; [apply G4, Hkey|]. intros <-. apply Hne. symmetry. exact Hkey.
  - right. split; [reflexivity|]. destruct op; cbn [shard_op] in Esh; try discriminate Esh. eauto.
Qed.
Lemma shard_split h ss F : runs (sharded hash A) ss0 h ss -> follows chunk ok h F -> split_run ss F.
Proof using Hn Hok HA.
  intros Hr. revert F. induction Hr as [|h ss op ans ss' Hr IH Ha]; intros F Hfo.
  - inversion Hfo as [|h' F' op' ans' ? ? ? E]; subst; [|exfalso; destruct h'; discriminate]. split; [reflexivity|]. intros p s0 Hs0. exists s0, [], (fun _ => KAbsent). split; [exact Hs0|]. split; [constructor|]. split; [constructor|]. reflexivity.
  - inversion Hfo as [E|h' F' op' ans' Hfo' Hal Hk E]; subst; [exfalso; destruct h; discriminate|]. apply app_inj_tail in E as [-> E]. injection E as -> ->.
    destruct (shard_step ss F' op _ (IH _ Hfo') Hal Hk Ha) as [(a & y1 & E & _ & Hl)|[E _]]; [|discriminate]. injection E as <- <-. exact Hl.
Qed.
Lemma shard_contract : right_while_room (sharded hash A) ss0 chunk ok.
Proof using Hn Hok HA.
  intros h ss F op Hr Hfo Hal Hk out Ho. destruct (shard_step ss F op out) as [(a & y' & E & H & _)|H]; [eapply shard_split; eassumption|exact Hal|exact Hk|exact Ho|left; eauto|right; exact H].
Qed.
End Sh.
