(** C69: the history in which a lite deletion panics instead of returning. *)
From Coq Require Import ZifyBool ZifyNat ZifyN.
From stdpp Require Import base numbers list_numbers option gmap sets list.
From Verif Require Import Util BuddyModel PageIOModel JournalModel JournalSpec JournalProofs PropertiesJournal LiteModel LiteSpec LiteVerSpec LiteLiveSpec LiteLive PropertiesLite PropertiesLite2 PropertiesLiteVer.
From Verif Require Import PropertiesLiteLive.
Open Scope N_scope.
Ltac Zify.zify_post_hook ::= idtac.

(** A call that does not return: A, deleted, comes back (C14) and is deleted again; the
    second deletion panics, because A's pages have been released already.  All other
    calls have returned and the journal is empty: nothing can happen any more but this
    panic. *)
Definition es_again : list levent := es_back ++ [LDelete kA None 9 0].
Definition again_facts (c : liconf) (es : list levent) : option (list lobs * list nat * bool * option (list lobs)) :=
  match allocator_new (li_base c) (li_heap c) (li_spage c) (li_lpage c) (2 ^ 64) DirLeft with
  | Ok a => '(s, o, _) ← drun c (li_init c d0 a) es;
            Some (o, stage <$> ls_calls s,
                  match js_flusher (ls_j s), js_queue (ls_j s), pj_signals (js_pending (ls_j s)) with FIdle, [], [] => true | _, _, _ => false end,
                  snd <$> lstep c s (LFinish 4))
  | _ => None
  end.
Lemma again_ok : again_facts c0 es_again = Some (obs_back ++ [ODelete kA None true], [4; 4; 4; 4; 3]%nat, true, Some [OPanic]).
Proof. vm_compute. reflexivity. Qed.
Lemma panic_stays c s i s' obs : lstep c s (LFinish i) = Some (s', obs) -> obs = [OPanic] -> s' = s.
Proof.
  cbn [lstep]. destruct (ls_calls s !! i) as [[]|]; try discriminate. unfold do_finish, stay.
  destruct (match sig with Some n => _ | None => true end); [|discriminate]. destruct (release_all _ _); intros [= <- <-]; congruence.
Qed.
Lemma nothing_steps c j e : nothing_left j -> (forall t seen, e <> JCommit t seen) -> jstep c j e = None.
Proof. intros (H1 & H2 & H3) Hc. destruct e; cbn [jstep]; rewrite ?H1, ?H2, ?H3; try reflexivity. exfalso. eapply Hc. reflexivity. Qed.
Theorem C69_a_deletion_panics_refuted :
  exists a s, allocator_new (li_base c0) (li_heap c0) (li_spage c0) (li_lpage c0) (2 ^ 64) DirLeft = Ok a /\
    conf_ok c0 /\ Forall (event_ok c0) es_again /\
    lrun c0 (li_init c0 d0 a) es_again = Some (s, obs_back ++ [ODelete kA None true]) /\
    lstep c0 s (LFinish 4) = Some (s, [OPanic]) /\
    (forall e s' obs, going_on e -> lstep c0 s e = Some (s', obs) -> e = LFinish 4 /\ s' = s /\ obs = [OPanic]) /\
    ~ comes_to c0 idle s.
Proof.
  pose proof again_ok as H. unfold again_facts in H. destruct (allocator_new _ _ _ _ _ _) as [a| |] eqn:Ha; try discriminate.
  destruct (drun c0 (li_init c0 d0 a) es_again) as [[[s o] b]|] eqn:Es; [|discriminate]. cbn [mbind option_bind] in H. injection H as Ho Hst Hj Hf.
  apply drun_run in Es as [Hr _]. subst o. exists a, s. split; [reflexivity|]. split; [exact c0_conf|]. split; [events_ok|]. split; [exact Hr|].
  assert (Hn : nothing_left (ls_j s)).
  { unfold nothing_left. destruct (js_flusher (ls_j s)), (js_queue (ls_j s)), (pj_signals (js_pending (ls_j s))); try discriminate. auto. }
  assert (Hf' : snd <$> lstep c0 s (LFinish 4) = Some [OPanic]) by exact Hf. clear Hf.
  destruct (lstep c0 s (LFinish 4)) as [[s4 o4]|] eqn:E4; cbn [fmap option_fmap option_map snd] in Hf'; [|discriminate Hf']. injection Hf' as ->.
  pose proof (panic_stays _ _ _ _ _ E4 eq_refl) as ->. split; [reflexivity|].
  assert (Hs : forall i cl, ls_calls s !! i = Some cl -> (stage cl = 3 /\ i = 4)%nat \/ stage cl = 4%nat).
  { intros i cl Hi. assert (Hm : (stage <$> ls_calls s) !! i = Some (stage cl)) by (rewrite list_lookup_fmap, Hi; reflexivity). rewrite Hst in Hm.
    do 5 (destruct i as [|i]; [cbn in Hm; injection Hm as Hm; lia|]). discriminate. }
  assert (Hall : forall e s' obs, going_on e -> lstep c0 s e = Some (s', obs) -> e = LFinish 4 /\ s' = s /\ obs = [OPanic]).
  { intros e s' obs He E. destruct e as [| i | i seen | | | i | | | | je]; cbn [going_on] in He; try contradiction.
    - cbn [lstep] in E. destruct (ls_calls s !! i) as [cl|] eqn:Hi; [|discriminate]. apply Hs in Hi. destruct cl; try discriminate. cbn in Hi. lia.
    - cbn [lstep] in E. destruct (ls_calls s !! i) as [cl|] eqn:Hi; [|discriminate]. apply Hs in Hi. destruct cl; try discriminate. cbn in Hi. lia.
    - assert (i = 4%nat) as ->. { cbn [lstep] in E. destruct (ls_calls s !! i) as [cl|] eqn:Hi; [|discriminate]. apply Hs in Hi. destruct cl; try discriminate. cbn in Hi. lia. }
      rewrite E4 in E. injection E as <- <-. auto.
    - exfalso. cbn [lstep] in E. assert (Hje : (forall t seen, je <> JCommit t seen) \/ exists t seen, je = JCommit t seen) by (destruct je; (left; congruence) || (right; eauto)).
      destruct Hje as [Hje|(t & seen & ->)]; [|discriminate]. rewrite (nothing_steps _ _ _ Hn Hje) in E. destruct je; discriminate. }
  split; [exact Hall|].
  assert (Hnd : ~ idle s).
  { intros Hi. cbn [lstep] in E4. destruct (ls_calls s !! 4%nat) as [cl|] eqn:H4; [|discriminate]. apply Hi in H4. subst cl. discriminate. }
  intros Hc. remember s as s1 eqn:Heq in Hc. revert Heq. induction Hc as [s1 Hp|s1 _ _ IH]; intros ->; [contradiction|].
  eapply (IH (LFinish 4) s [OPanic]); [exact I|exact E4|reflexivity].
Qed.
Print Assumptions C69_a_deletion_panics_refuted.
