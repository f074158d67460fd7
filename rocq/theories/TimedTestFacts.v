(** Proofs about the action Test (C91). *)
From Coq Require Import ssreflect.
From Verif Require Import SubstFacts SpecTimedTest ExecFacts VisitFacts HandleFacts StepFacts EventFacts MicroSteps OwnFacts ProcFacts LifeFacts TimerSteps TimerFacts TimerLaws EscalateFacts StopFacts.

Lemma no_timeout_iff o : no_timeout o = true <-> without_timeout o.
Proof.
  split.
  - destruct o as [[[| |q]|[|x l]|x y]|]; simpl; try done; [|constructor|constructor]. intros H%Qeq_bool_iff. by constructor.
  - intros []; [done| |done]. by apply Qeq_bool_iff.
Qed.
Lemma entry_fwd a s s' t : tmove s s' -> timers s !! a = Some t -> timer_gen a s' = timer_gen a s ->
  exists t', timers s' !! a = Some t' /\ t_body t' = t_body t.
Proof.
  intros H Et. rewrite /timer_gen. destruct H; tm; try (by intros _; exists t).
  - subst s'. intros _. rewrite timer_cancel_timers. case_bool_decide; [subst a0|by exists t]. rewrite Et. by eexists.
  - destruct (decide (a0 = a)) as [->|Hne]; [rewrite lookup_insert Et /= /timer_gen Et; lia|rewrite lookup_insert_ne //; by exists t].
  - destruct (decide (a0 = a)) as [->|Hne]; [rewrite lookup_insert Et /= /timer_gen Et; lia|rewrite lookup_insert_ne //; by exists t].
Qed.

Section testrun.
Context (w : world).
Notation R := (rtc (micro w)).
Lemma exec_proc_nil a c oe s s' l : exec_proc w a c oe s = (s', Ok l) -> l = [].
Proof.
  rewrite /exec_proc. intros [(s1 & [] & E1 & E2)|[(y & _ & ?)|[_ ?]]]%bindS_inv; [|done..].
  revert E2. intros [(s2 & [] & E2 & E3)|[(y & _ & ?)|[_ ?]]]%bindS_inv; [|done..].
  destruct (procs s2 !! a) as [p|]; [|done]. destruct (x_executed p); [done|]. destruct (is_shutdown _); [by intros; simplify_eq|].
  revert E3. intros [(s3 & [] & E4 & E5)|[(y & _ & ?)|[_ ?]]]%bindS_inv; [|done..]. by injection E5.
Qed.
Lemma test_plain fuel a c oe o s : without_timeout o -> exec_action w fuel a (ATest c oe o) s = exec_action w fuel a (AExec c oe) s.
Proof.
  intros H%no_timeout_iff. cbn [exec_action]. rewrite /exec_test /bindS.
  destruct (exec_proc w a c oe s) as [s1 [l|e|]]; [|done..]. destruct o; [|done]. by rewrite H.
Qed.
Lemma test_timed fuel a c oe p s s' r : ~ without_timeout (Some p) -> exec_action w fuel a (ATest c oe (Some p)) s = (s', r) ->
  (exists s1 t h, exec_action w fuel a (AExec c oe) s = (s1, Ok []) /\ r = Ok [test_timer a p t] /\ ends_timer a t h /\
    hist s' = hist s1 ++ [OReg h] /\ handlers (cx s') = h :: handlers (cx s1) /\ tasks s' = tasks s1 /\ procs s' = procs s1) \/
  (exec_action w fuel a (AExec c oe) s = (s', r) /\ forall l, r <> Ok l).
Proof.
  intros Hn. cbn [exec_action]. rewrite /exec_test {1}/bindS.
  destruct (exec_proc w a c oe s) as [s1 [l|e|]] eqn:E; [|by intros [= <- <-]; right..].
  apply exec_proc_nil in E as ->. destruct (no_timeout (Some p)) eqn:Hp; [by apply no_timeout_iff in Hp|].
  rewrite {1}/bindS /fresh /= {1}/bindS /=. intros [= <- <-]. left.
  exists s1, (Gen (next s1)), (MkH (Gen (S (next s1))) (MAct CExit (TgtAct a)) false (HTestExit (Gen (next s1)))). split; [done|]. split; [done|].
  split; [by eexists|]. done.
Qed.

Lemma gen_rtc a s s' : own s -> R s s' -> (timer_gen a s <= timer_gen a s')%nat.
Proof.
  intros Ho H. induction H as [|s s1 s2 H1 _ IH]; [done|]. specialize (IH ltac:(by eapply own_micro)).
  pose proof (T_micro w _ _ Ho H1) as HT.
  assert (timer_gen a s <= timer_gen a s1)%nat; [|lia].
  eapply (T_inv (fun x => (timer_gen a s <= timer_gen a x)%nat)); [|exact HT|lia].
  intros x y _ _ Hm Hx. pose proof (gen_mono a _ _ Hm). lia.
Qed.
Lemma body_micro a s s' t : own s -> micro w s s' -> timers s !! a = Some t -> timer_gen a s' = timer_gen a s ->
  exists t', timers s' !! a = Some t' /\ t_body t' = t_body t.
Proof.
  intros Ho H Et Hg. pose proof (T_micro w _ _ Ho H) as HT.
  assert ((timer_gen a s <= timer_gen a s')%nat /\ (timer_gen a s' = timer_gen a s -> exists t', timers s' !! a = Some t' /\ t_body t' = t_body t)) as [_ HH]; [|by apply HH].
  eapply (T_inv (fun x => (timer_gen a s <= timer_gen a x)%nat /\ (timer_gen a x = timer_gen a s -> exists t', timers x !! a = Some t' /\ t_body t' = t_body t))); [|exact HT|split; [lia|by exists t]].
  intros x y _ _ Hm [H1 H2]. pose proof (gen_mono a _ _ Hm) as Hm'. split; [lia|]. intros Hy.
  destruct H2 as (t1 & E1 & B1); [lia|]. destruct (entry_fwd a x y t1 Hm E1) as (t2 & E2 & B2); [lia|]. exists t2. split; [done|congruence].
Qed.
Lemma body_rtc a s s' t : own s -> R s s' -> timers s !! a = Some t -> timer_gen a s' = timer_gen a s ->
  exists t', timers s' !! a = Some t' /\ t_body t' = t_body t.
Proof.
  intros Ho H. revert t. induction H as [|s s1 s2 H1 H2 IH]; intros t Et Hg; [by exists t|].
  assert (own s1) as Ho1 by (by eapply own_micro). pose proof (gen_rtc a s1 s2 Ho1 H2) as L2.
  pose proof (gen_rtc a s s1 Ho (rtc_once _ _ H1)) as L1.
  destruct (body_micro a s s1 t Ho H1 Et) as (t1 & E1 & B1); [lia|].
  destruct (IH Ho1 t1 E1) as (t2 & E2 & B2); [lia|]. exists t2. split; [done|congruence].
Qed.

(** The entity that stops the process. *)
Lemma stop_entity fuel a s s' fs : okst s -> completion a s <> None -> visit_all w fuel (anon (ITestStop a)) s = (s', Ok fs) ->
  shut_requested a s' \/ (~ has_started a s /\ has_deferred a s').
Proof.
  intros HO Hc. destruct fuel as [|fuel]; [done|]. cbn [visit_all].
  intros [(s1 & subs & E1 & E2)|[(y & _ & ?)|[_ ?]]]%bindS_inv; [|done..].
  apply visit_one_anon in E1 as (s2 & E1 & ->).
  revert E2. intros [(s3 & gs & E2 & E3)|[(y & _ & ?)|[_ ?]]]%bindS_inv; [|done..]. injection E3 as <- _.
  apply list_R in E2. set (s0 := obs1 _ (obs1 _ s)) in E1.
  assert (R s s0) as R0. { etrans; [by apply (Robs w (OVisit (anon (ITestStop a))))|by apply Robs]. }
  cbn [exec_action] in E1.
  assert (okst s0) as O4 by exact (okst_rtc w s s0 HO R0).
  pose proof (R_shut w a true s0) as R2. pose proof (asked_kept a true s0 O4 (comp_rtc w a s s0 HO R0 Hc)) as HK.
  rewrite E1 /= in R2 HK. assert (okst s2) as O2 by (by eapply okst_rtc).
  assert (R s2 s3) as R3. { etrans; [by apply (Robs w (OExecDone (Gen 0)))|]. etrans; [apply R_complete_action|done]. }
  destruct HK as [HK|(HK & _ & _ & h0 & Hd & El)]; [left; exact (requested_rtc w a s2 s3 O2 R3 HK)|right]. split.
  - intros Hs. apply HK. exact (started_rtc w a s s0 HO R0 Hs).
  - destruct (log_rtc w s2 s3 O2 R3) as [l Hl]. exists h0, true. split; [done|]. rewrite Hl El. apply in_or_app. right. by left.
Qed.
Lemma fire_entity fuel a t s s' fs : okst s -> completion a s <> None -> (get_local "event" (cx s)).2 = Ok (LEv (EvTimer t)) ->
  timer_does t (stops_test a) s -> visit_all w fuel (anon ITimerHandle) s = (s', Ok fs) ->
  shut_requested a s' \/ (~ has_started a s /\ has_deferred a s').
Proof.
  intros HO Hc He (x & Ex & Hx). destruct fuel as [|fuel]; [done|]. cbn [visit_all].
  intros [(s1 & subs & E1 & E2)|[(y & _ & ?)|[_ ?]]]%bindS_inv; [|done..].
  apply visit_one_anon in E1 as (s2 & E1 & ->).
  set (s0 := obs1 _ (obs1 _ s)) in E1.
  assert (R s s0) as R0. { etrans; [by apply (Robs w (OVisit (anon ITimerHandle)))|by apply Robs]. }
  assert ((get_local "event" (cx s0)).2 = Ok (LEv (EvTimer t))) as He0 by exact He.
  destruct (timer_yields t x s0 He0 Ex) as (s4 & E4 & _). pose proof (R_exec_action w fuel (Gen 0) ITimerHandle s0 _ _ E1) as R2.
  cbn [exec_action] in E1. rewrite E4 in E1. injection E1 as <- <-. rewrite Hx in E2. set (s5 := complete_action _ _ _ _) in E2.
  assert (R s s5) as R5. { etrans; [exact R0|]. etrans; [exact R2|]. etrans; [by apply (Robs w (OExecDone (Gen 0)))|]. apply R_complete_action. }
  revert E2. intros [(s3 & gs & E2 & E3)|[(y & _ & ?)|[_ ?]]]%bindS_inv; [|done..]. injection E3 as <- _.
  revert E2. intros [(s6 & hs & E2 & E3)|[(y & _ & ?)|[_ ?]]]%bindS_inv; [|done..]. injection E3 as <- _.
  destruct (stop_entity fuel a s5 s6 hs (okst_rtc w s s5 HO R5) (comp_rtc w a s s5 HO R5 Hc) E2) as [HH|[HH1 HH]]; [by left|right].
  split; [|done]. intros Hs. apply HH1. exact (started_rtc w a s s5 HO R5 Hs).
Qed.
Lemma fires a t s s' : reachable w s -> timers_run s -> timer_does t (stops_test a) s -> completion a s <> None ->
  processes w s (EvTimer t) (Ok tt) s' -> times_executed t s' = times_executed t s ->
  shut_requested a s' \/ (~ has_started a s /\ request_waits a s').
Proof.
  intros Hr [n Hin] (x & Ex & Hx) Hc Hp Hg. pose proof (okst_reachable w s Hr) as HO. pose proof (T_reachable w s Hr) as [Ho _].
  destruct (receives w _ _ _ _ Hr Hp Hin) as (fuel & s1 & s2 & H1 & H2 & H3); [done|].
  assert (okst s1) as O1 by (by eapply okst_rtc).
  destruct (handled w fuel (timers_handler n) _ s1 s2 eq_refl H2) as (s4 & s5 & s6 & ents & R4 & He & _ & E1 & E2 & _ & R6).
  injection E1 as <- <-. assert (okst s4) as O4 by (by eapply okst_rtc).
  assert (R s s4) as Rs4 by (by etrans).
  cbn [visit_ents] in E2. revert E2. intros [(s7 & fs & E2 & E3)|[(y & _ & ?)|[_ ?]]]%bindS_inv; [|done..].
  pose proof (R_visit_all w _ _ _ _ _ E2) as R7. assert (okst s7) as O7 by (by eapply okst_rtc).
  assert (R s7 s') as R8. { injection E3 as <-. etrans; [|exact H3]. etrans; [|exact R6]. apply (Ru w). utf. }
  assert (timer_does t (stops_test a) s4) as Ht.
  { pose proof (rtc_own w _ _ Ho Rs4) as Ho4. pose proof (gen_rtc t s s4 Ho Rs4) as L1.
    pose proof (gen_rtc t s4 s' Ho4 (rtc_transitive _ _ _ R7 R8)) as L2.
    change (times_executed t s') with (timer_gen t s') in Hg. change (times_executed t s) with (timer_gen t s) in Hg.
    destruct (body_rtc t s s4 x Ho Rs4 Ex) as (x' & E' & B'); [lia|]. exists x'. split; [done|congruence]. }
  destruct (fire_entity fuel a t s4 s7 fs O4 (comp_rtc w a s s4 HO Rs4 Hc) He Ht E2) as [HH|[HH1 HH]].
  - left. exact (requested_rtc w a s7 s' O7 R8 HH).
  - right. split. { intros Hs. apply HH1. exact (started_rtc w a s s4 HO Rs4 Hs). }
    destruct HH as (h & sg & Hd & Hi). exists h, sg. split; [done|]. destruct (log_rtc w s7 s' O7 R8) as [l El].
    rewrite /hist -in_rev El. apply in_or_app. by right.
Qed.
Lemma fires_escalates a t s s' : reachable w s -> timers_run s -> timer_does t (stops_test a) s -> completion a s <> None -> has_started a s ->
  processes w s (EvTimer t) (Ok tt) s' -> times_executed t s' = times_executed t s ->
  escalations a (hist s') = 1%nat \/ completion a s' = Some true.
Proof.
  intros Hr Hn Ht Hc Hs Hp Hg. destruct (fires a t s s' Hr Hn Ht Hc Hp Hg) as [HH|[HH _]]; [|done].
  apply requested_escalates with w; [|done]. destruct Hp as (fuel & Hst & _). by eapply reachable_step.
Qed.
Lemma stop_exact fuel i a c s : stoppable a c s ->
  exists s' t1 t2, exec_action w fuel i (ITestStop a) s = (s', Ok (stop_actions a c t1 t2 true)) /\ t1 <> t2 /\
    hist s' = hist s ++ [OAsked a; OEscalate a t1 t2 (now s)].
Proof.
  intros H. destruct (asked_exact a c true s H) as (s' & t1 & t2 & E & Hne & El). exists s', t1, t2. split; [done|]. split; [done|].
  rewrite /hist El /=. by rewrite -app_assoc.
Qed.

(** When the process exits. *)
Lemma exit_handler fuel i a t e s s' :
  handle_one w fuel (MkH i (MAct CExit (TgtAct a)) false (HTestExit t)) e s = (s', Ok tt) -> timer_canceled t s' = true.
Proof.
  rewrite handle_one_eq.
  intros [(s1 & [] & E1 & E2)|[(y & _ & ?)|[_ ?]]]%bindS_inv; [|done..]. clear E1. revert E2.
  intros [(s2 & [] & E1 & E2)|[(y & _ & ?)|[_ ?]]]%bindS_inv; [|done..]. clear E1. revert E2.
  intros [(s3 & ents & E1 & E2)|[(y & _ & ?)|[_ ?]]]%bindS_inv; [|done..].
  assert (ents = [] /\ timer_canceled t s3 = true) as [-> Hc].
  { clear -E1. revert E1. rewrite /handle. intros [(s1 & [] & E1 & E2)|[(y & _ & ?)|[_ ?]]]%bindS_inv; [|done..].
    revert E2. intros [(s4 & [] & _ & E2)|[(y & _ & ?)|[_ ?]]]%bindS_inv; [|done..]. injection E2 as <- <-. split; [done|].
    rewrite timer_cancel_flag. by rewrite bool_decide_true. }
  clear E1. revert E2. intros [(s4 & [] & E1 & E2)|[(y & _ & ?)|[_ ?]]]%bindS_inv; [|done..]. injection E1 as <-.
  revert E2. rewrite /on_ctx /pop_locals. destruct (locals_stack (cx s3)); [done|]. by intros [= <-].
Qed.
Lemma exit_cancels a t h d rc s s' : reachable w s -> ends_timer a t h -> still_registered h s -> processes w s (EvExited a d rc) (Ok tt) s' ->
  cancelled t s' = true /\ times_fired t s' = times_fired t s.
Proof.
  intros Hr [i ->] Hreg Hp. split; [|by eapply processes_quiet].
  destruct (receives w _ _ _ _ Hr Hp (still_in w _ _ Hr Hreg)) as (fuel & s1 & s2 & H1 & H2 & H3); [by rewrite /matches /=; apply bool_decide_true|].
  pose proof (T_reachable w s Hr) as [Ho _]. change (cancelled t s') with (timer_canceled t s'). eapply flag_rtc; [|exact H3|].
  - eapply rtc_own; [|eapply R_handle_one; exact H2]. by eapply rtc_own.
  - by eapply exit_handler.
Qed.
Lemma exit_prevents a t h d rc s s' ls s2 : reachable w s -> ends_timer a t h -> still_registered h s -> processes w s (EvExited a d rc) (Ok tt) s' ->
  steps w s' ls s2 -> (times_executed t s2 <= 1)%nat -> times_fired t s2 = times_fired t s.
Proof.
  intros Hr Hh Hreg Hp Hs Hx. destruct (exit_cancels _ _ _ _ _ _ _ Hr Hh Hreg Hp) as [Hc <-].
  assert (reachable w s') as Hr'. { destruct Hp as (fuel & Hst & _). by eapply reachable_step. }
  by destruct (cancelled_once w t _ _ _ Hr' Hc Hs Hx).
Qed.
End testrun.
