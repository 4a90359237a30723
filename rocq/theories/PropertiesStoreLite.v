(** C66: the store of the benchmark that is backed by libblobd-lite keeps the contract
    of C64 while there is room, and the benchmark on it. *)
From Coq Require Import ZifyBool ZifyNat ZifyN.
From stdpp Require Import base numbers option gmap functions sorting list.
From Verif Require Import Util Bytes BuddyModel PageIOModel JournalModel LiteModel LiteSpec PropertiesLite.
From Verif Require Import StoreModel StoreSpec StoreProofs BenchModel BenchSpec BenchProofs PropertiesBench StoreLite StoreLiteSpec StoreLiteProofs.
Open Scope N_scope.
Ltac Zify.zify_post_hook ::= idtac.

(** After every history of calls made in their turn, on a store that was formatted and
    opened, whatever the hash function, the journal's moments and the ids: each such
    call comes to an end, and its answer is right - what was written is what is read -
    or it is a creation that is refused. *)
Theorem C66_lite_keeps_the_contract : forall c d a, conf_ok c -> allocator_new (li_base c) (li_heap c) (li_spage c) (li_lpage c) (2 ^ 64) DirLeft = Ok a ->
  keeps_contract_while_room (lite_store c) (li_init c d a) (lite_chunk c) lite_ok.
Proof. intros c d a Hc Ha. apply (lite_contract c Hc d a Ha). Qed.
(** A creation is refused only if the record of the object is larger than a large page
    may hold, or when the pages run out. *)
Theorem C66_refused_for_lack_of_room : forall c d a, conf_ok c -> allocator_new (li_base c) (li_heap c) (li_spage c) (li_lpage c) (2 ^ 64) DirLeft = Ok a ->
  forall h s F key size, runs (lite_store c) (li_init c d a) h s -> follows (lite_chunk c) lite_ok h F ->
    allowed (lite_chunk c) (F key) (SoCreate key size) -> lite_ok (F key) (SoCreate key size) -> lite_store c s (SoCreate key size) None ->
    2 ^ li_lpage c < 39 + blen key + 6 * (size / 2 ^ li_lpage c + 24) \/
    exists id ms s1, lstep c s (LCreate key size [] id ms) = Some (s1, [OFull key size]).
Proof. intros c d a Hc Ha h s F key size Hr Hf. apply (lite_refused c Hc (length h)). apply (lite_contract c Hc d a Ha); assumption. Qed.
(** The contract lets a client read no bytes at all of an object it has stored.  A lite
    store never answers that (RocksDB, kv and files do), so it does not keep the whole
    contract. *)
Theorem C66_empty_range_is_not_read_refuted : forall c d a, conf_ok c -> allocator_new (li_base c) (li_heap c) (li_spage c) (li_lpage c) (2 ^ 64) DirLeft = Ok a ->
  forall h s F key data x, runs (lite_store c) (li_init c d a) h s -> follows (lite_chunk c) lite_ok h F -> F key = KStored data -> x <= blen data ->
    allowed (lite_chunk c) (F key) (SoRead key x (Some x)) /\ forall out, lite_store c s (SoRead key x (Some x)) out -> out = None.
Proof.
  intros c d a Hc Ha h s F key data x Hr Hf HF Hx. split; [rewrite HF; cbn; lia|]. eapply (lite_empty_range c Hc (length h)); [|exact HF]. apply (lite_contract c Hc d a Ha); assumption.
Qed.

(** ** The benchmark *)
(** On any store that keeps the contract while there is room: if the benchmark fails,
    it is in creating the objects; if it gets past that, it runs through. *)
Theorem C66_benchmark_while_room : forall St (A : adapter St) s0 (ok : kstate -> sop -> Prop) g, bench_ok g -> keeps_contract_while_room A s0 (bc_chunk g) ok -> takes g ok -> N.of_nat (run_length g) < 2 ^ 128 ->
  forall n b, breach g A s0 n b ->
    (bfails g A b -> b_phase b = PCreate /\ exists i rest key, b_todo b !! i = Some (SoCreate key (bc_size g) :: rest) /\ A (b_store b) (SoCreate key (bc_size g)) None) /\
    (n <= run_length g)%nat /\ ((n < run_length g)%nat -> bfails g A b \/ exists b', bstep g A b b') /\
    (n = run_length g -> b_phase b = PDone /\ Forall (fun l => l = []) (b_todo b) /\
       forall i, (i < bc_count g)%nat -> exists tok rnd, picked g rnd /\ filter (fun op => op_key op = bkey i) (b_hist b).*1 = life g i tok rnd).
Proof.
  intros St A s0 ok g Hg HA0 Ht Hrun n b Hb.
  assert (HA : answers_if A s0 (bc_chunk g) ok right_but_length).
  { intros h s F op ans s' Hr Hf Hal Hok Ha. destruct (HA0 h s F op Hr Hf Hal Hok) as [_ Hout]. destruct (Hout _ Ha) as [(a2 & s2 & E & Hgd)|[E _]]; [|discriminate]. injection E as <- <-. eapply right_loose; eassumption. }
  pose proof (binv_reach g Hg A s0 ok HA Ht n b Hb) as Hi. pose proof (step_count g A s0 n b Hb) as Hc. rewrite (total_length g (bo_all _ Hg)) in Hc.
  split; [|split; [lia|]].
  - intros Hf. destruct (binv_safe g Hg A s0 ok HA Ht b Hi Hf) as (i & op & rest & El & Hn & (F & T1 & T2 & T3 & T4) & Hcr). destruct (proj2 (HA0 _ _ F op T1 T2 T3 T4) _ Hn) as [(? & ? & E & _)|(_ & key & size & ->)]; [discriminate|].
    specialize (Hcr key size eq_refl). split; [exact Hcr|]. exists i, rest, key. destruct Hi as [_ _ (F' & _ & _ & Hi)]. destruct (Hi i _ El) as (tok & rnd & _ & _ & _ & Hp). rewrite Hcr in Hp. cbn [prog] in Hp. destruct Hp as [[E _]|[E _]]; [|discriminate].
    injection E as -> -> ->. auto.
  - assert (Hh : (length (b_hist b) <= n)%nat).
    { clear -Hb. induction Hb as [|n b b' _ IH Hs]; [reflexivity|]. destruct Hs; cbn [b_hist] in *; rewrite ?app_length; cbn [length]; lia. }
    assert (Hlive : b_phase b = PDone /\ Forall (fun l => l = []) (b_todo b) \/ bfails g A b \/ exists b', bstep g A b b').
    { destruct (binv_live g Hg A s0 ok HA Ht b Hi) as [?|[?|(i & op & rest & El & (F & T1 & T2 & T3 & T4) & Hgo)]]; [auto|auto|]. right.
      destruct (HA0 _ _ F op T1 T2 T3 T4) as [Hex Hout]. destruct Hex as [out Ho]; [lia|]. destruct (Hout _ Ho) as [(ans & s' & -> & _)|[-> _]]; [right; eapply Hgo, Ho|]. left. exists i, op, rest. auto. }
    assert (Hend : b_phase b = PDone /\ Forall (fun l => l = []) (b_todo b) -> n = run_length g).
    { intros [Hd Hall]. rewrite Hd in Hc. cbn [after sum_list_with] in Hc. rewrite (sum_const length 0 _) in Hc by (eapply Forall_impl; [exact Hall|now intros l ->]). lia. }
    split; [intros Hlt; destruct Hlive as [Hd|Hl]; [specialize (Hend Hd); lia|exact Hl]|]. intros ->.
    assert (Hz : (sum_list_with length (b_todo b) = 0 /\ sum_list_with (weight g) (after g (b_phase b)) = 0)%nat) by lia. destruct Hz as [Hz1 Hz2].
    assert (Hd : b_phase b = PDone). { destruct (b_phase b); try reflexivity; exfalso; cbn [after app sum_list_with] in Hz2; unfold weight in Hz2; destruct (bc_skip_deletion g); cbn [sum_list_with] in Hz2; lia. }
    assert (Hall : Forall (fun l => l = []) (b_todo b)).
    { clear -Hz1. induction (b_todo b) as [|l todo IH]; [constructor|]. cbn [sum_list_with] in Hz1. constructor; [destruct l; [reflexivity|cbn [length] in Hz1; lia]|apply IH; lia]. }
    split; [exact Hd|]. split; [exact Hall|]. intros i Hlt. destruct Hi as [_ Hlen (F & Hr & Hf & Hi)].
    destruct (lookup_lt_is_Some_2 (b_todo b) i ltac:(lia)) as [l Hl]. assert (l = []) as -> by (rewrite Forall_forall in Hall; apply Hall; eapply elem_of_list_lookup_2, Hl).
    destruct (Hi i [] Hl) as (tok & rnd & Hp & _ & Hfil & _). rewrite Hd in *. rewrite app_nil_r, (script_life g Hg) in Hfil. eauto.
Qed.
(** ... and so on a lite store, with objects that have a byte. *)
Theorem C66_benchmark_on_lite : forall c d a g, conf_ok c -> allocator_new (li_base c) (li_heap c) (li_spage c) (li_lpage c) (2 ^ 64) DirLeft = Ok a ->
  bench_ok g -> bc_chunk g = lite_chunk c -> 0 < bc_size g < 2 ^ 40 ->
  keeps_contract_while_room (lite_store c) (li_init c d a) (bc_chunk g) lite_ok /\ takes g lite_ok.
Proof.
  intros c d a g Hc Ha Hg -> Hs. split; [now apply C66_lite_keeps_the_contract|]. constructor; cbn [lite_ok]; auto.
  - intros i. unfold bkey. rewrite be_bytes_length. split; [reflexivity|apply Hs].
  - intros i start e Hask. cbn [default from_option id]. destruct Hask as [[_ ->]|[Hst ->]]; [lia|]. apply tiles_lt in Hst; [|apply (bo_read _ Hg)]. pose proof (bo_read _ Hg). lia.
Qed.

(** ** An example, with a store of one bucket *)
Fixpoint lite_exec (c : liconf) (s : lstate) (cs : list (sop * list levent)) : option (lstate * list (sop * sans) * bool) :=
  match cs with
  | [] => Some (s, [], true)
  | (op, es) :: cs =>
      '(s1, obs) ← lrun c s es;
      match obs with
      | [o] => a ← lite_answer o; '(s2, h, b) ← lite_exec c s1 cs; Some (s2, (op, a) :: h, forallb is_done (ls_calls s1) && b)
      | _ => None
      end
  end.
Lemma runs_cons {St} (A : adapter St) h s' : forall s0 s1 op ans, A s0 op (Some (ans, s1)) -> runs A s1 h s' -> runs A s0 ((op, ans) :: h) s'.
Proof.
  intros s0 s1 op ans H0 Hr. induction Hr as [|h s op' ans' s' Hr IH Ha]; [apply (ru_snoc A s0 [] s0 op ans s1); [constructor|exact H0]|].
  rewrite app_comm_cons. econstructor; eassumption.
Qed.
Definition starts (op : sop) (es : list levent) : Prop := match es with e :: es => lite_event op e /\ Forall background es | [] => False end.
Lemma lite_exec_runs c cs : forall s s' h, idle s -> lite_exec c s cs = Some (s', h, true) -> Forall (fun x => starts x.1 x.2) cs -> runs (lite_store c) s h s'.
Proof.
  induction cs as [|[op es] cs IH]; intros s s' h Hid E Hst; cbn [lite_exec] in E; [injection E as <- <-; constructor|].
  apply Forall_cons in Hst as [Hs0 Hst]. cbn [fst snd] in Hs0. destruct (lrun c s es) as [[s1 obs]|] eqn:E1; [|discriminate]. cbn [mbind option_bind] in E.
  destruct obs as [|o [|]]; try discriminate. destruct (lite_answer o) as [a|] eqn:Ea; [|discriminate]. cbn [mbind option_bind] in E. destruct (lite_exec c s1 cs) as [[[s2 h2] b]|] eqn:E2; [|discriminate]. cbn [mbind option_bind] in E.
  apply (inj Some) in E. apply pair_equal_spec in E as [E Eb]. apply pair_equal_spec in E as [<- <-]. apply andb_true_iff in Eb as [Eb1 Eb2]. subst b.
  pose proof (idle_of s1 Eb1) as Hid1. apply (runs_cons _ _ _ s s1); [|now apply IH].
  destruct es as [|e es]; [contradiction|]. destruct Hs0 as [He Hb]. split; [exact Hid|]. exists e, es, s1, [o]. split; [exact He|]. split; [exact Hb|]. split; [exact E1|]. left. exists o, a. auto.
Qed.
Definition ex_calls : list (sop * list levent) :=
  [(SoCreate kA 5, create kA 5 7 0); (SoCreate kB 4097, create kB 4097 9 1); (SoWrite kA 7 0 [1; 2; 3; 4; 5], [LWrite kA 7 0 5 [Data [1; 2; 3; 4; 5]] 10 20]);
   (SoWrite kB 9 4096 [6], [LWrite kB 9 4096 1 [Data [6]] 10 20]); (SoWrite kB 9 0 (replicate 4096 8), [LWrite kB 9 0 4096 [Data (replicate 4096 8)] 10 20]);
   (SoCommit kA 7, commit kA 7 2 1); (SoCommit kB 9, commit kB 9 3 1); (SoInspect kB, [LInspect kB None 10]); (SoRead kA 1 (Some 3), [LRead kA None 1 (Some 3) 10 20]); (SoRead kB 4095 None, [LRead kB None 4095 None 10 20]);
   (SoDelete kA, [LDelete kA None 10 0; LFinish 4])].
Definition ex_hist : list (sop * sans) :=
  [(SoCreate kA 5, AnToken 7); (SoCreate kB 4097, AnToken 9); (SoWrite kA 7 0 [1; 2; 3; 4; 5], AnUnit); (SoWrite kB 9 4096 [6], AnUnit); (SoWrite kB 9 0 (replicate 4096 8), AnUnit);
   (SoCommit kA 7, AnUnit); (SoCommit kB 9, AnUnit); (SoInspect kB, AnSize 4097); (SoRead kA 1 (Some 3), AnData [2; 3]); (SoRead kB 4095 None, AnData [8; 6]); (SoDelete kA, AnUnit)].
Definition lite_demo (c : liconf) (cs : list (sop * list levent)) : option (list (sop * sans) * bool) :=
  match allocator_new (li_base c) (li_heap c) (li_spage c) (li_lpage c) (2 ^ 64) DirLeft with
  | Ok a => '(_, h, b) ← lite_exec c (li_init c d0 a) cs; Some (h, b)
  | _ => None
  end.
Lemma lite_demo_run c cs h : lite_demo c cs = Some (h, true) -> Forall (fun x => starts x.1 x.2) cs ->
  exists a s, allocator_new (li_base c) (li_heap c) (li_spage c) (li_lpage c) (2 ^ 64) DirLeft = Ok a /\ runs (lite_store c) (li_init c d0 a) h s.
Proof.
  unfold lite_demo. destruct (allocator_new _ _ _ _ _ _) as [a| |]; try discriminate. destruct (lite_exec c (li_init c d0 a) cs) as [[[s h'] b]|] eqn:Ex; [|discriminate]. cbn [mbind option_bind].
  intros E. apply (inj Some) in E. apply pair_equal_spec in E as [-> ->]. intros Hs. exists a, s. split; [reflexivity|]. eapply lite_exec_runs; [|exact Ex|exact Hs]. intros i cl Hi; inversion Hi.
Qed.
Lemma ex_lite_eq : lite_demo c0 ex_calls = Some (ex_hist, true).
Proof. vm_compute. reflexivity. Qed.
Ltac ex_starts := repeat (apply List.Forall_cons; [cbn [fst snd starts app create commit flush replicate]; split; [cbn [lite_event]; repeat eexists; reflexivity|repeat (apply List.Forall_cons; [exact I|]); apply List.Forall_nil]|]); apply List.Forall_nil.
Lemma ex_starts_ok : Forall (fun x => starts x.1 x.2) ex_calls.
Proof. unfold ex_calls. ex_starts. Qed.
(** The states of the keys along a history, and whether each call of it is in turn. *)
Definition allowedb (chunk : N) (st : kstate) (op : sop) : bool :=
  match op, st with
  | SoCreate key size, KAbsent => forallb (fun b => b <? 256) key && (size <? 2 ^ 64)
  | SoWrite _ tok off data, KUpload tok' size parts =>
      (tok =? tok') && bool_decide (off ∈ tiles chunk size) && bool_decide (parts !! off = None) && (blen data =? N.min chunk (size - off))
  | SoCommit _ tok, KUpload tok' size parts => (tok =? tok') && forallb (fun off => bool_decide (is_Some (parts !! off))) (tiles chunk size)
  | SoInspect _, KStored _ | SoDelete _, KStored _ => true
  | SoRead _ start fin, KStored data => (start <=? default (blen data) fin) && (default (blen data) fin <=? blen data)
  | _, _ => false
  end.
Lemma allowedb_ok chunk st op : allowedb chunk st op = true -> allowed chunk st op.
Proof.
  destruct op, st; cbn [allowedb allowed]; try discriminate; try (intros _; exact I); rewrite ?andb_true_iff.
  - intros [H1 H2]. split; [|now apply N.ltb_lt]. rewrite forallb_forall in H1. apply Forall_forall. intros x Hx. apply N.ltb_lt, H1, elem_of_list_In, Hx.
  - intros [[[H1 H2] H3] H4]. apply N.eqb_eq in H1, H4. apply bool_decide_eq_true in H2, H3. auto.
  - intros [H1 H2]. apply N.eqb_eq in H1. split; [exact H1|]. rewrite forallb_forall in H2. intros off Ho. eapply bool_decide_eq_true, H2, elem_of_list_In, Ho.
  - intros [H1 H2]. apply N.leb_le in H1, H2. auto.
Qed.
Definition lite_okb (st : kstate) (op : sop) : bool :=
  match op, st with
  | SoCreate key size, _ => (N.of_nat (length key) <? 2 ^ 16) && (size <? 2 ^ 40)
  | SoRead _ start fin, KStored d => start <? default (blen d) fin
  | _, _ => true
  end.
Lemma lite_okb_ok st op : lite_okb st op = true -> lite_ok st op.
Proof.
  destruct op, st; cbn [lite_okb lite_ok]; try (intros _; exact I); rewrite ?andb_true_iff, ?N.ltb_lt; auto.
Qed.
Fixpoint states (chunk : N) (F : list N -> kstate) (h : list (sop * sans)) : (list N -> kstate) * bool :=
  match h with
  | [] => (F, true)
  | (op, ans) :: h =>
      let '(F', b) := states chunk (<[op_key op := next chunk (F (op_key op)) op ans]> F) h in
      (F', allowedb chunk (F (op_key op)) op && lite_okb (F (op_key op)) op && b)
  end.
Lemma states_follows chunk h2 : forall h1 F F', follows chunk lite_ok h1 F -> states chunk F h2 = (F', true) -> follows chunk lite_ok (h1 ++ h2) F'.
Proof.
  induction h2 as [|[op ans] h2 IH]; intros h1 F F' Hf E; cbn [states] in E; [injection E as <-; now rewrite app_nil_r|].
  destruct (states chunk _ h2) as [F1 b] eqn:E2. apply pair_equal_spec in E as [<- E]. apply andb_true_iff in E as [E ->]. apply andb_true_iff in E as [E0 E1].
  replace (h1 ++ (op, ans) :: h2) with ((h1 ++ [(op, ans)]) ++ h2) by (rewrite <- app_assoc; reflexivity). eapply IH; [|exact E2]. constructor; [exact Hf|now apply allowedb_ok|now apply lite_okb_ok].
Qed.
Lemma states_ends chunk h : (states chunk (fun _ => KAbsent) h).2 = true -> follows chunk lite_ok h (fun key => (states chunk (fun _ => KAbsent) h).1 key).
Proof. intros E. apply (states_follows chunk h [] (fun _ => KAbsent)); [constructor|]. destruct (states chunk _ h) as [F b]. cbn [fst snd] in *. now subst b. Qed.
Definition ex_state (key : list N) : kstate := (states (lite_chunk c0) (fun _ => KAbsent) ex_hist).1 key.
Lemma ex_turn : (states (lite_chunk c0) (fun _ => KAbsent) ex_hist).2 = true /\ ex_state kA = KAbsent /\ ex_state kB = KStored (replicate 4096 8 ++ [6]).
Proof. split; [vm_compute; reflexivity|]. split; vm_compute; reflexivity. Qed.
Theorem C66_example : exists a s F, allocator_new (li_base c0) (li_heap c0) (li_spage c0) (li_lpage c0) (2 ^ 64) DirLeft = Ok a /\ conf_ok c0 /\
  runs (lite_store c0) (li_init c0 d0 a) ex_hist s /\ follows (lite_chunk c0) lite_ok ex_hist F /\ F kA = KAbsent /\ F kB = KStored (replicate 4096 8 ++ [6]) /\
  allowed (lite_chunk c0) (F kA) (SoCreate kA 1) /\ lite_ok (F kA) (SoCreate kA 1).
Proof.
  destruct (lite_demo_run _ _ _ ex_lite_eq ex_starts_ok) as (a & s & Ha & Hr).
  destruct ex_turn as (T1 & T2 & T3). exists a, s, ex_state. split; [exact Ha|]. split; [apply c0_conf|]. split; [exact Hr|].
  split; [apply (states_ends _ _ T1)|].
  split; [exact T2|]. split; [exact T3|]. rewrite T2. split; [apply allowedb_ok; vm_compute; reflexivity|apply lite_okb_ok; vm_compute; reflexivity].
Qed.
Print Assumptions C66_lite_keeps_the_contract.
Print Assumptions C66_refused_for_lack_of_room.
Print Assumptions C66_empty_range_is_not_read_refuted.
Print Assumptions C66_benchmark_while_room.
Print Assumptions C66_benchmark_on_lite.
Print Assumptions C66_example.
