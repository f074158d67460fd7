(** Lemmas about timers and shutdown (C35, C36). *)
From Coq Require Import ssreflect.
From Verif Require Import SubstFacts SpecTimer ExWorld ExecFacts VisitFacts HandleFacts EventFacts StepFacts MicroSteps OwnFacts ProcFacts NameFacts LifeFacts TimerSteps StayFacts TimerFacts.

Section laws.
Context (w : world).

(** ** The run of one handler *)
Lemma receives_list fuel hs e s s' h : handle_list w fuel hs e s = (s', Ok tt) -> In h hs -> matches w h e = true ->
  exists s1 s2, rtc (micro w) s s1 /\ handle_one w fuel h e s1 = (s2, Ok tt) /\ rtc (micro w) s2 s'.
Proof.
  revert s. induction hs as [|x hs IH]; intros s; [done|]. cbn [handle_list].
  intros [(s1 & [] & E1 & E2)|[(y & _ & ?)|[_ ?]]]%bindS_inv; [|done..]. intros [->|Hin] Hm.
  - rewrite Hm in E1. exists s, s1. split_and!; [done|done|]. clear -E2. revert s1 E2. induction hs as [|y hs IH]; intros s1; cbn [handle_list].
    + by intros [= <-].
    + intros [(s2 & [] & E1 & E2)|[(z & _ & ?)|[_ ?]]]%bindS_inv; [|done..]. etrans; [|by eapply IH].
      destruct (matches w y e); [by eapply R_handle_one|]. by injection E1 as ->.
  - destruct (IH s1 E2 Hin Hm) as (s2 & s3 & H1 & H2 & H3). exists s2, s3. split_and!; [|done..].
    etrans; [|exact H1]. destruct (matches w x e); [by eapply R_handle_one|]. by injection E1 as ->.
Qed.
Lemma receives s e s' h : reachable w s -> processes w s e (Ok tt) s' -> In h (handlers (cx s)) -> matches w h e = true ->
  exists fuel s1 s2, rtc (micro w) s s1 /\ handle_one w fuel h e s1 = (s2, Ok tt) /\ rtc (micro w) s2 s'.
Proof.
  intros Hr%reachable_wfu Hp Hi Hm. destruct (processes_inv _ _ _ _ _ Hr Hp) as (fuel & q & s2 & Hq & E & _ & ->).
  destruct (receives_list fuel _ e _ _ h E Hi Hm) as (s1 & s3 & H1 & H2 & H3). exists fuel, s1, s3. split_and!; [|done|].
  - etrans; [|exact H1]. rewrite /deq. etrans; [by apply (Rcx w s (cx s <| queue := q |>))|by apply Robs].
  - etrans; [exact H3|]. apply (Ru w). utf.
Qed.
Lemma processes_quiet s e r s' : reachable w s -> processes w s e r s' -> forall a, times_fired a s' = times_fired a s.
Proof.
  intros Hr%reachable_wfu Hp a. destruct (processes_inv _ _ _ _ _ Hr Hp) as (fuel & q & s2 & Hq & E & _ & ->).
  pose proof (H_handle_list w fuel _ e _ _ _ E (deq_wf _ _ _ Hr)) as HF. destruct (hf_log _ _ _ HF) as (l & El & Hl & _).
  rewrite /times_fired. assert (forall x, length (List.filter (is_fire a) (log x)) = length (List.filter (is_fire a) (hist x))) as HL.
  { intros x. rewrite /hist. induction (log x) as [|o m IH]; [done|]. simpl. rewrite List.filter_app app_length -IH. simpl. destruct (is_fire a o); simpl; lia. }
  change (log (s2 <| evt := ETDone r |>)) with (log s2). rewrite HL El List.filter_app app_length.
  rewrite (_ : List.filter (is_fire a) l = []) /=.
  { clear -Hl. induction Hl as [|o l H _ IH]; [done|]. simpl. destruct (is_fire a o) eqn:Eo; [|done]. by destruct o. }
  rewrite Nat.add_0_r -HL /deq /=. done.
Qed.
Lemma flag_micro a s s' : own s -> micro w s s' -> timer_canceled a s = true -> timer_canceled a s' = true.
Proof.
  intros Ho H. pose proof (T_micro w _ _ Ho H) as HT. eapply (T_inv (fun s => timer_canceled a s = true)); [|exact HT].
  intros. by eapply flag_mono.
Qed.
Lemma rtc_own s s' : own s -> rtc (micro w) s s' -> own s'.
Proof. intros Ho H. induction H; [done|]. apply IHrtc. by eapply own_micro. Qed.
Lemma flag_rtc a s s' : own s -> rtc (micro w) s s' -> timer_canceled a s = true -> timer_canceled a s' = true.
Proof. intros Ho H. induction H as [|s s1 s2 H1 _ IH]; [done|]. intros Hc. apply IH; [by eapply own_micro|by eapply flag_micro]. Qed.
Lemma cancel_entity fuel a s s' fs : visit_all w fuel (anon (ITimerCancel a)) s = (s', Ok fs) -> timer_canceled a s' = true.
Proof.
  destruct fuel as [|fuel]; [done|]. cbn [visit_all].
  assert (forall x, timer_canceled a (complete_action w (anon (ITimerCancel a)) (Gen 0) x) = timer_canceled a x) as HC.
  { intros x. rewrite /complete_action. destruct (would_handle_event _ _ _); done. }
  rewrite /visit_one /=. rewrite {1}/bindS. rewrite {1}/bindS /=.
  intros [(s1 & l & E1 & E2)|[(y & _ & ?)|[_ ?]]]%bindS_inv; [|done..]. injection E1 as <- <-. injection E2 as <- _.
  rewrite HC. change (timer_canceled a (timer_cancel a (obs1 (OExecuted (Gen 0)) (obs1 (OVisit (anon (ITimerCancel a))) s))) = true).
  rewrite timer_cancel_flag. by rewrite bool_decide_true.
Qed.
Lemma cancel_handler fuel a n e s s' :
  handle_one w fuel (MkH (Gen n) MShutdown false (HEntity (anon (ITimerCancel a)))) e s = (s', Ok tt) -> timer_canceled a s' = true.
Proof.
  rewrite handle_one_eq.
  intros [(s1 & [] & E1 & E2)|[(y & _ & ?)|[_ ?]]]%bindS_inv; [|done..]. clear E1. revert E2.
  intros [(s2 & [] & E1 & E2)|[(y & _ & ?)|[_ ?]]]%bindS_inv; [|done..]. clear E1. revert E2.
  intros [(s3 & ents & E1 & E2)|[(y & _ & ?)|[_ ?]]]%bindS_inv; [|done..].
  assert (ents = [anon (ITimerCancel a)]) as ->.
  { clear -E1. revert E1. rewrite /handle. intros [(s1 & [] & E1 & E2)|[(y & _ & ?)|[_ ?]]]%bindS_inv; [|done..].
    revert E2. intros [(s4 & [] & _ & E2)|[(y & _ & ?)|[_ ?]]]%bindS_inv; [|done..]. by injection E2. }
  clear E1. revert E2. intros [(s4 & [] & E1 & E2)|[(y & _ & ?)|[_ ?]]]%bindS_inv; [|done..].
  assert (timer_canceled a s4 = true) as Hc.
  { clear -E1. cbn [visit_ents] in E1. revert E1. intros [(s1 & fs & E1 & E2)|[(y & _ & ?)|[_ ?]]]%bindS_inv; [|done..].
    apply cancel_entity in E1. injection E2 as <-. done. }
  clear -E2 Hc. revert E2. rewrite /on_ctx /pop_locals. destruct (locals_stack (cx s4)); [done|]. by intros [= <-].
Qed.
(** C36: once the handler is registered, processing Shutdown cancels the timer. *)
Lemma shutdown_cancels a h r g s s' : reachable w s -> cancels_on_shutdown a h -> In (OReg h) (hist s) -> ~ In (OUnreg (h_id h)) (hist s) ->
  processes w s (EvShutdown r g) (Ok tt) s' -> cancelled a s' = true /\ times_fired a s' = times_fired a s.
Proof.
  intros Hr [n ->] Hreg Hun Hp. split; [|by eapply processes_quiet].
  rewrite /hist -in_rev in Hreg. rewrite /hist -in_rev in Hun.
  destruct (noted_reachable w s _ Hr Hreg) as [Hin|?]; [|done].
  destruct (receives _ _ _ _ Hr Hp Hin) as (fuel & s1 & s2 & H1 & H2 & H3); [done|].
  pose proof (T_reachable w s Hr) as [Ho _]. change (cancelled a s') with (timer_canceled a s'). eapply flag_rtc; [|exact H3|].
  - eapply rtc_own; [|eapply R_handle_one; exact H2]. by eapply rtc_own.
  - by eapply cancel_handler.
Qed.
Lemma shutdown_prevents a h r g s s' ls s2 : reachable w s -> cancels_on_shutdown a h -> In (OReg h) (hist s) -> ~ In (OUnreg (h_id h)) (hist s) ->
  processes w s (EvShutdown r g) (Ok tt) s' -> steps w s' ls s2 -> (times_executed a s2 <= 1)%nat ->
  times_fired a s2 = times_fired a s.
Proof.
  intros Hr Hh H1 H2 Hp Hs Hx. destruct (shutdown_cancels _ _ _ _ _ _ Hr Hh H1 H2 Hp) as [Hc <-].
  assert (reachable w s') as Hr'. { destruct Hp as (fuel & Hst & _). by eapply reachable_step. }
  by destruct (cancelled_once w a _ _ _ Hr' Hc Hs Hx).
Qed.
(** C35, C36: executing a timer. *)
Lemma exec_cancelled a p b c s : cancelled a s = true -> loop_set (cx s) = true ->
  exists s', exec_timer w a p b c s = (s', Ok []) /\ future_done a s' = true /\ times_executed a s' = S (times_executed a s) /\
    tasks s' = tasks s /\ log s' = log s /\ cx s' = cx s.
Proof.
  intros Hc Hl. rewrite exec_timer_eq Hl. change (cancelled a s) with (timer_canceled a s) in Hc. rewrite Hc.
  eexists. split; [done|]. split_and!; try done.
  - rewrite /future_done /stop_timer /=. rewrite lookup_insert /= /f_is_done /f_get /=. by rewrite lookup_insert.
  - rewrite /times_executed /stop_timer /=. by rewrite lookup_insert.
Qed.
Lemma combined_vars c c' d : get_combined_locals c = (c', d) -> lc c' = lc c /\ env c' = env c /\ handlers c' = handlers c.
Proof. rewrite /get_combined_locals. destruct (cache c); by intros [= <- _]. Qed.
Lemma start_timer_shape a p b s : exists c n d, start_timer a p b s =
  (s <| timers := <[a := mkTobj b p d (Some (next s)) (Some (S (next s))) false (S (timer_gen a s))]> (timers s) |>
     <| futs := <[S (next s) := FPending]> (<[next s := FPending]> (futs s)) |>
     <| tasks := tasks s ++ [TTimerInit a] |> <| log := OTimer a :: log s |> <| next := n |> <| cx := c |>) /\
  (forall h, In h (handlers c) -> In h (handlers (cx s)) \/ h_match h = MTimer) /\ lc c = lc (cx s) /\ env c = env (cx s).
Proof.
  rewrite /start_timer /new_future /=. destruct (timer_installed (cx s)) eqn:Ei; simpl.
  - destruct (get_combined_locals (cx s)) as [c' d] eqn:Ed. destruct (combined_vars _ _ _ Ed) as (E1 & E2 & E3).
    exists c', (S (S (next s))), d. rewrite /upd_timer /obs1. rewrite -(timer_set_locals _ _ _ _ (timer_locals a s)).
    split; [by destruct s|]. rewrite E3. split_and!; [by left|done..].
  - destruct (get_combined_locals _) as [c' d] eqn:Ed. destruct (combined_vars _ _ _ Ed) as (E1 & E2 & E3). clear Ed.
    exists c', (S (S (S (next s)))), d. rewrite /upd_timer /obs1. rewrite -(timer_set_locals _ _ _ _ (timer_locals a s)).
    split; [by destruct s|]. rewrite E3. split_and!; [|done..]. intros h [<-|?]; [by right|by left].
Qed.
Lemma start_timer_facts a p b s s' : start_timer a p b s = s' ->
  tasks s' = tasks s ++ [TTimerInit a] /\ log s' = OTimer a :: log s /\ times_executed a s' = S (times_executed a s) /\
  future_done a s' = false /\ cancelled a s' = false /\
  (exists t, timers s' !! a = Some t /\ t_body t = b /\ t_period t = p) /\
  (forall h, In h (handlers (cx s')) -> In h (handlers (cx s)) \/ h_match h = MTimer) /\
  lc (cx s') = lc (cx s) /\ env (cx s') = env (cx s).
Proof.
  destruct (start_timer_shape a p b s) as (c & n & d & -> & H1 & H2 & H3). intros <-.
  rewrite /future_done /times_executed /cancelled /f_is_done /f_get. cbn [timers tasks log futs cx set]. simpl. rewrite lookup_insert.
  split_and!; try done.
  - simpl. rewrite lookup_insert_ne; [lia|]. by rewrite lookup_insert.
  - by eexists.
Qed.
Lemma timer_rest_facts a c s0 s' l : timer_rest w a c s0 = (s', Ok l) ->
  l = [] /\ tasks s' = tasks s0 /\ timers s' = timers s0 /\ futs s' = futs s0 /\
  exists c2 v, perform_bval w c (cx s0) = (c2, Ok v) /\
    if v : bool then exists h, cancels_on_shutdown a h /\ In h (handlers (cx s')) /\ log s' = OReg h :: log s0
    else log s' = log s0 /\ handlers (cx s') = handlers (cx s0).
Proof.
  rewrite /timer_rest. intros [(s1 & v & E1 & E2)|[(y & _ & ?)|[_ ?]]]%bindS_inv; [|done..].
  unfold on_ctx in E1. destruct (perform_bval w c (cx s0)) as [c2 r] eqn:Ep. injection E1 as <- ->.
  assert (handlers c2 = handlers (cx s0)) as Eh. { apply sframe_handlers. by eapply perform_bval_frame. }
  revert E2. intros [(s2 & [] & E2 & E3)|[(y & _ & ?)|[_ ?]]]%bindS_inv; [|done..]. injection E3 as <- <-.
  destruct v.
  - revert E2. intros [(s3 & n & E2 & E3)|[(y & _ & ?)|[_ ?]]]%bindS_inv; [|done..]. injection E2 as <- <-. injection E3 as <-.
    split_and!; try done. exists c2, true. split; [done|]. eexists. split; [by eexists|]. split; [by left|done].
  - injection E2 as <-. split_and!; try done. exists c2, false. by split_and!.
Qed.
Lemma exec_rest a p b c s s0 s' l : start_timer a p b s = s0 -> timer_rest w a c s0 = (s', Ok l) ->
  l = [] /\ tasks s' = tasks s ++ [TTimerInit a] /\ times_executed a s' = S (times_executed a s) /\
  future_done a s' = false /\ cancelled a s' = false /\
  (exists t, timers s' !! a = Some t /\ t_body t = b /\ t_period t = p) /\
  exists c1 c2 v, perform_bval w c c1 = (c2, Ok v) /\ lc c1 = lc (cx s) /\ env c1 = env (cx s) /\
    if v : bool then exists h, cancels_on_shutdown a h /\ In h (handlers (cx s')) /\ log s' = OReg h :: OTimer a :: log s
    else log s' = OTimer a :: log s /\ forall h, In h (handlers (cx s')) -> In h (handlers (cx s)) \/ h_match h = MTimer.
Proof.
  intros (F1 & F2 & F3 & F4 & F5 & F6 & F7 & F8 & F9)%start_timer_facts.
  intros (-> & G1 & G2 & G3 & c2 & v & G4 & G5)%timer_rest_facts.
  split; [done|]. split; [by rewrite G1|]. split; [by rewrite /times_executed G2|].
  split; [by rewrite /future_done G2 /f_is_done /f_get G3|]. split; [by rewrite /cancelled G2|]. split; [by rewrite G2|].
  exists (cx s0), c2, v. split_and!; [done..|]. destruct v.
  - destruct G5 as (h & H1 & H2 & H3). exists h. split_and!; [done..|]. by rewrite H3 F2.
  - destruct G5 as [H1 H2]. rewrite H1 H2. done.
Qed.
Lemma exec_started a p b c s s' l : cancelled a s = false -> exec_timer w a p b c s = (s', Ok l) ->
  l = [] /\ tasks s' = tasks s ++ [TTimerInit a] /\ times_executed a s' = S (times_executed a s) /\
  future_done a s' = false /\ cancelled a s' = false /\
  (exists t, timers s' !! a = Some t /\ t_body t = b /\ t_period t = p) /\
  exists c1 c2 v, perform_bval w c c1 = (c2, Ok v) /\ lc c1 = lc (cx s) /\ env c1 = env (cx s) /\
    if v : bool then exists h, cancels_on_shutdown a h /\ In h (handlers (cx s')) /\ log s' = OReg h :: OTimer a :: log s
    else log s' = OTimer a :: log s /\ forall h, In h (handlers (cx s')) -> In h (handlers (cx s)) \/ h_match h = MTimer.
Proof.
  intros Hc H. rewrite exec_timer_eq in H. destruct (loop_set (cx s)); [|discriminate H].
  assert (timer_canceled a s = false) as Hc' by exact Hc. rewrite Hc' in H. clear Hc Hc'.
  exact (exec_rest a p b c s _ s' l eq_refl H).
Qed.
(** For examples: a state reached by [l1], then by [l2]. *)
Lemma exec_then l1 l2 (P Q : st -> Prop) :
  match exec w l1 s0 with Some s => P s /\ match exec w l2 s with Some s2 => Q s2 | None => False end | None => False end ->
  exists s1 s2, reachable w s1 /\ steps w s1 l2 s2 /\ P s1 /\ Q s2.
Proof.
  destruct (exec w l1 s0) as [s1|] eqn:E1; [|by intros []]. intros [HP HQ].
  destruct (exec w l2 s1) as [s2|] eqn:E2; [|by destruct HQ]. exists s1, s2.
  split; [exact (exec_reachable w l1 _ _ s1 E1)|]. split; [exact (exec_steps w l2 s1 s2 E2)|]. by split.
Qed.
(** The handler all timers share yields the actions of the timer of the event. *)
Lemma timer_yields a t s : (get_local "event" (cx s)).2 = Ok (LEv (EvTimer a)) -> timers s !! a = Some t ->
  exists s', exec_timer_handle s = (s', Ok (t_body t)) /\ timers s' = timers s.
Proof.
  intros E Et. rewrite /exec_timer_handle /event_of_locals. rewrite /bindS /on_ctx /=.
  destruct (get_local "event" (cx s)) as [c r]. simpl in E. subst r. simpl. rewrite Et. by eexists.
Qed.
End laws.
