(** The properties of the action Test of launch_testing (C91). *)
From Coq Require Import ssreflect.
From Verif Require Import SubstFacts SpecTimedTest ExWorld TimedTestFacts EventFacts.

(** ** C91 *)
(** Without a timeout a Test is a process like any other. *)
Theorem C91_no_timeout : forall (w : world) fuel a c oe o (s : st), without_timeout o ->
  exec_action w fuel a (ATest c oe o) s = exec_action w fuel a (AExec c oe) s.
Proof. exact test_plain. Qed.
Print Assumptions C91_no_timeout.
(** With a timeout the process is started in the same way; if that succeeds a timer is to be
    executed that stops the process after the timeout, and a handler is registered that cancels the
    timer when the process exits. *)
Theorem C91_timed : forall (w : world) fuel a c oe p (s s' : st) r, ~ without_timeout (Some p) ->
  exec_action w fuel a (ATest c oe (Some p)) s = (s', r) ->
  (exists s1 t h, exec_action w fuel a (AExec c oe) s = (s1, Ok []) /\ r = Ok [test_timer a p t] /\ ends_timer a t h /\
    hist s' = hist s1 ++ [OReg h] /\ handlers (cx s') = h :: handlers (cx s1) /\ tasks s' = tasks s1 /\ procs s' = procs s1) \/
  (exec_action w fuel a (AExec c oe) s = (s', r) /\ forall l, r <> Ok l).
Proof. exact test_timed. Qed.
Print Assumptions C91_timed.
(** When the timer fires a process that has started is stopped: the escalation begins, unless the
    action is over; the request for one that has not started waits for the start. *)
Theorem C91_stops : forall (w : world) a t (s s' : st), reachable w s -> timers_run s -> timer_does t (stops_test a) s ->
  completion a s <> None -> processes w s (EvTimer t) (Ok tt) s' -> times_executed t s' = times_executed t s ->
  shut_requested a s' \/ (~ has_started a s /\ request_waits a s').
Proof. exact fires. Qed.
Print Assumptions C91_stops.
Theorem C91_escalates : forall (w : world) a t (s s' : st), reachable w s -> timers_run s -> timer_does t (stops_test a) s ->
  completion a s <> None -> has_started a s -> processes w s (EvTimer t) (Ok tt) s' -> times_executed t s' = times_executed t s ->
  escalations a (hist s') = 1%nat \/ completion a s' = Some true.
Proof. exact fires_escalates. Qed.
Print Assumptions C91_escalates.
(** The escalation of a timeout is: SIGINT at once, SIGTERM and SIGKILL by timers with the timeouts
    of the process (the kill_timeout of the Test has no part in it). *)
Theorem C91_signals : forall (w : world) fuel i a c (s : st), stoppable a c s ->
  exists (s' : st) t1 t2, exec_action w fuel i (ITestStop a) s = (s', Ok (stop_actions a c t1 t2 true)) /\ t1 <> t2 /\
    hist s' = hist s ++ [OAsked a; OEscalate a t1 t2 (now s)].
Proof. exact stop_exact. Qed.
Print Assumptions C91_signals.
(** A process that exits in time is not stopped any more: the timer is cancelled and never fires. *)
Theorem C91_in_time : forall (w : world) a t h d rc (s s' : st) ls (s2 : st), reachable w s -> ends_timer a t h -> still_registered h s ->
  processes w s (EvExited a d rc) (Ok tt) s' -> steps w s' ls s2 -> (times_executed t s2 <= 1)%nat ->
  cancelled t s' = true /\ times_fired t s2 = times_fired t s.
Proof.
  intros w a t h d rc s s' ls s2 Hr Hh Hg Hp Hs Hx. destruct (exit_cancels w _ _ _ _ _ _ _ Hr Hh Hg Hp) as [Hc _].
  split; [exact Hc|]. by eapply exit_prevents.
Qed.
Print Assumptions C91_in_time.

(** A test with a timeout of three seconds. *)
Definition ex_test (respawn : bool) (t : option fval) : entity := EAct (User 1) None (ATest (ex_cfg respawn None 1) HNone t).
Definition ex_begin (respawn : bool) (t : option fval) : list label :=
  [LEmit (EvInclude [ex_test respawn t]); LRun true; LMain; LEvent 8] ++ ex_up ++ ex_event.
Definition ex_three : option fval := Some (FV (FFin 3)).
Example C91_example :
  ex_history w0 (ex_begin false ex_three ++ [LTask 1; LTick 3; LTask 1] ++ ex_event ++ ex_event) = Some ["spawn"; "started"; "sigint"] /\
  ex_history w0 (ex_begin false ex_three ++ [LTask 1; LTick 3; LTask 1] ++ ex_event ++ ex_event ++ [LTask 1; LTask 2; LTick 5; LTask 1] ++ ex_event ++ ex_event)
    = Some ["spawn"; "started"; "sigint"; "sigterm"] /\
  match exec w0 (ex_begin false ex_three ++ [LTask 1; LTick 2]) s0 with
  | Some s => match step w0 (LTask 1) s with None => True | Some _ => False end
  | None => False
  end /\
  match exec w0 (ex_begin false ex_three ++ [LTask 1] ++ ex_down ++ ex_event) s0 with
  | Some s => match exec w0 [LTick 5; LTask 0] s with Some s => (length (tasks s), List.filter (fun o => match o with OFire _ _ => true | _ => false end) (hist s)) = (0%nat, []) | None => False end
  | None => False
  end /\
  match exec w0 (ex_begin false None) s0, exec w0 (ex_begin false (Some (FV (FFin 0)))) s0 with
  | Some s, Some s' => (length (tasks s), length (tasks s')) = (1%nat, 1%nat)
  | _, _ => False
  end.
Proof. vm_compute. by repeat split. Qed.
(** The premises of C91_escalates hold in that run. *)
Example C91_premises :
  match exec w0 (ex_begin false ex_three ++ [LTask 1; LTick 3; LTask 1; LWake; LMain]) s0 with
  | Some s => existsb (fun h => match h with MkH _ MTimer false (HEntity (EAct _ None ITimerHandle)) => true | _ => false end) (handlers (cx s)) = true /\
      match queue (cx s) with
      | EvTimer t :: _ => option_map t_body (timers s !! t) = Some (stops_test (User 1))
      | _ => False
      end /\ completion (User 1) s = Some false
  | None => False
  end.
Proof. vm_compute. by repeat split. Qed.
(** It is not true that every process of a Test is stopped when it takes too long: if it is respawned,
    the exit of the first process has cancelled the only timer, and the second may run for ever. *)
Definition ex_again : list label := ex_begin true ex_three ++ [LTask 1] ++ ex_down ++ ex_event ++ [LTask 0; LTask 0; LSpawnOk 0 8; LTask 0].
Definition ex_state (s : st) : Prop := running (User 1) s = true /\ spawned (User 1) (hist s) = 2%nat /\ exists t, timer_does t (stops_test (User 1)) s /\ cancelled t s = true /\ times_executed t s = 1%nat /\ times_fired t s = 0%nat.
Theorem C91_respawn_refuted : exists (w : world) a t (s : st), reachable w s /\ running a s = true /\ spawned a (hist s) = 2%nat /\ timer_does t (stops_test a) s /\ forall ls (s2 : st), steps w s ls s2 -> (times_executed t s2 <= 1)%nat -> times_fired t s2 = 0%nat.
Proof.
  assert (match exec w0 ex_again s0 with Some s => ex_state s | None => False end) as H.
  { vm_compute. split; [reflexivity|]. split; [reflexivity|]. exists (Gen 11). split; [eexists; split; reflexivity|]. by repeat split. }
  destruct (exec w0 ex_again s0) as [s|] eqn:E; [|destruct H]. destruct H as (H1 & H2 & t & H3 & H4 & H5 & H6).
  assert (reachable w0 s) as Hr by (eapply exec_reachable; exact E). clear E.
  exists w0, (User 1), t, s. split; [exact Hr|]. split; [exact H1|]. split; [exact H2|]. split; [exact H3|].
  intros ls s2 Hs Hx. destruct (TimerFacts.cancelled_once w0 t s ls s2 Hr H4 Hs Hx) as [Hf _]. by rewrite Hf.
Qed.
Print Assumptions C91_respawn_refuted.
