(** The properties of timers (C35, C36). *)
From Coq Require Import ssreflect.
From Verif Require Import SubstFacts SpecTimer ExWorld InstallFacts TimerFacts TimerLaws.

(** ** C35 *)
(** At most one firing per execution. *)
Theorem C35_at_most_once : forall (w : world) a (s : st), reachable w s ->
  (times_fired a s <= times_executed a s)%nat.
Proof. exact fired_once. Qed.
Print Assumptions C35_at_most_once.

(** Not before the period of a wait for it elapsed; the wait started at [t0].  The exception is
    a timer that was cancelled and executed again while the wait of an earlier execution was on:
    see C35_refuted. *)
Theorem C35_not_before : forall (w : world) a t l1 l2 (s : st), reachable w s ->
  hist s = l1 ++ OFire a t :: l2 ->
  (exists p t0, In (OArmed a p t0) l1 /\ elapsed p t0 t) \/ ((2 <= times_executed a s)%nat /\ cancelled a s = true).
Proof. exact fired_late. Qed.
Print Assumptions C35_not_before.

(** Not at all after it was cancelled, unless it is executed again. *)
Theorem C35_cancelled : forall (w : world) a (s0 : st) ls0 (s1 : st) ls1 (s2 : st), reachable w s0 ->
  cancelled a s0 = false -> steps w s0 ls0 s1 -> cancelled a s1 = true -> steps w s1 ls1 s2 ->
  times_executed a s2 = times_executed a s0 -> times_fired a s2 = times_fired a s1.
Proof. exact cancelled_stays. Qed.
Print Assumptions C35_cancelled.
(** For a timer that is executed once, it does not matter when it was cancelled: it stays
    cancelled and does not fire any more. *)
Theorem C35_cancelled_once : forall (w : world) a (s : st) ls (s' : st), reachable w s -> cancelled a s = true ->
  steps w s ls s' -> (times_executed a s' <= 1)%nat ->
  times_fired a s' = times_fired a s /\ cancelled a s' = true.
Proof. exact cancelled_once. Qed.
Print Assumptions C35_cancelled_once.

(** A timer that is cancelled before it is executed completes at once and waits for nothing. *)
Theorem C35_completes_at_once : forall (w : world) a p b c (s : st), cancelled a s = true -> loop_set (cx s) = true ->
  exists s', exec_timer w a p b c s = (s', Ok []) /\ future_done a s' = true /\
    times_executed a s' = S (times_executed a s) /\ tasks s' = tasks s /\ log s' = log s /\ cx s' = cx s.
Proof. exact exec_cancelled. Qed.
Print Assumptions C35_completes_at_once.

(** An execution of a timer that was not cancelled starts a task; nothing is yielded yet. *)
Theorem C35_starts : forall (w : world) a p b c (s s' : st) l, cancelled a s = false ->
  exec_timer w a p b c s = (s', Ok l) ->
  l = [] /\ tasks s' = tasks s ++ [TTimerInit a] /\ times_executed a s' = S (times_executed a s) /\
  future_done a s' = false /\ cancelled a s' = false /\
  (exists t, timers s' !! a = Some t /\ t_body t = b /\ t_period t = p) /\
  exists c1 c2 v, perform_bval w c c1 = (c2, Ok v) /\ lc c1 = lc (cx s) /\ env c1 = env (cx s) /\
    if v : bool then exists h, cancels_on_shutdown a h /\ In h (handlers (cx s')) /\ log s' = OReg h :: OTimer a :: log s
    else log s' = OTimer a :: log s /\ forall h, In h (handlers (cx s')) -> In h (handlers (cx s)) \/ h_match h = MTimer.
Proof. exact exec_started. Qed.
Print Assumptions C35_starts.

(** While it is not cancelled and the time has not come, the task waits ... *)
Theorem C35_waits : forall (w : world) i a f q (s : st), reachable w s -> tasks s !! i = Some (TTimerWait a f q) ->
  cancelled a s = false -> (forall d, q = Some d -> (now s < d)%Q) -> step w (LTask i) s = None.
Proof. exact timer_waits. Qed.
Print Assumptions C35_waits.
(** ... then, one way or the other, its step is possible, it sets the future, and it fires
    exactly if the timer was not cancelled. *)
Theorem C35_ends : forall (w : world) i a f q (s : st), reachable w s -> in_loop s = true ->
  tasks s !! i = Some (TTimerWait a f q) -> (times_executed a s <= 1)%nat ->
  cancelled a s = true \/ (exists d, q = Some d /\ (d <= now s)%Q) ->
  exists s', step w (LTask i) s = Some s' /\ future_done a s' = true /\
    times_fired a s' = (if cancelled a s then times_fired a s else S (times_fired a s)) /\
    queue (cx s') = queue (cx s) ++ (if cancelled a s then [] else [EvTimer a]).
Proof. exact timer_ends. Qed.
Print Assumptions C35_ends.
(** The handler of the event of a timer yields the actions of that timer. *)
Theorem C35_yields : forall a t (s : st), (get_local "event" (cx s)).2 = Ok (LEv (EvTimer a)) -> timers s !! a = Some t ->
  exists s', exec_timer_handle s = (s', Ok (t_body t)) /\ timers s' = timers s.
Proof. exact timer_yields. Qed.
Print Assumptions C35_yields.
(** That handler is there from the first execution of a timer on, unless somebody unregistered it. *)
Theorem C35_handled : forall (w : world) (s : st) a, reachable w s -> In (OTimer a) (hist s) ->
  exists n, In (timers_handler n) (handlers (cx s)) \/ In (OUnreg (Gen n)) (hist s).
Proof. exact timer_handled. Qed.
Print Assumptions C35_handled.

(** A timer of two seconds that logs when it fires. *)
Definition ex_timer (cos : bool) : entity := EAct (User 1) None (ATimer (FV (FFin 2)) [EAct (User 2) None (ALog [SText "done"])] (BV cos)).
Definition ex_timed (cos : bool) (l : list label) : list label :=
  [LEmit (EvInclude [ex_timer cos]); LRun false; LMain; LEvent 6; LTask 0] ++ l.
Definition ex_msgs (s : st) : list string := omap (fun o => match o with OLog m => Some m | _ => None end) (hist s).
Example C35_example :
  match exec w0 (ex_timed true [LTick 1]) s0 with
  | Some s => match step w0 (LTask 0) s with None => True | Some _ => False end /\ (times_fired (User 1) s, times_executed (User 1) s, future_done (User 1) s) = (0%nat, 1%nat, false)
  | None => False
  end /\
  match exec w0 (ex_timed true [LTick 1; LTick 1; LTask 0] ++ ex_event) s0 with
  | Some s => (times_fired (User 1) s, times_executed (User 1) s, future_done (User 1) s) = (1%nat, 1%nat, true) /\ ex_msgs s = ["done"]
  | None => False
  end.
Proof. vm_compute. by repeat split. Qed.
(** Cancelled one second after it was started. *)
Example C35_example_cancelled :
  match exec w0 (ex_timed true [LEmit (EvInclude [anon (ITimerCancel (User 1))]); LWake; LMain; LTick 1; LEvent 6]) s0 with
  | Some s => cancelled (User 1) s = true /\
      match exec w0 [LTask 0; LTick 5; LWake; LMain] s with
      | Some s => (times_fired (User 1) s, future_done (User 1) s) = (0%nat, true) /\ length (tasks s) = 0%nat
      | None => False
      end
  | None => False
  end.
Proof. vm_compute. by repeat split. Qed.
(** The full statement of C35 fails for a timer that is cancelled while it waits and executed
    again before the task of its first execution goes on: it fires at once, although it was
    cancelled and although no period has elapsed.  (timer_action.py:196 replaces the future the
    waiting task looks at.) *)
Theorem C35_refuted : exists (w : world) a (s1 s2 : st) ls, reachable w s1 /\ cancelled a s1 = true /\ times_executed a s1 = 1%nat /\
  times_fired a s1 = 0%nat /\ steps w s1 ls s2 /\ times_fired a s2 = 1%nat /\ now s2 = 0%Q.
Proof.
  destruct (exec_then w0
    [LEmit (EvInclude [ex_timer true]); LRun false; LMain; LEvent 6; LTask 0;
     LEmit (EvInclude [anon (ITimerCancel (User 1)) ]); LEmit (EvInclude [ex_timer true]); LWake; LMain; LEvent 6]
    [LWake; LMain; LEvent 6; LTask 0]
    (fun s => cancelled (User 1) s = true /\ times_executed (User 1) s = 1%nat /\ times_fired (User 1) s = 0%nat)
    (fun s => times_fired (User 1) s = 1%nat /\ now s = 0%Q)) as (s1 & s2 & H1 & H2 & (H3 & H4 & H5) & H6 & H7).
  { vm_compute. by repeat split. }
  exists w0, (User 1), s1, s2, [LWake; LMain; LEvent 6; LTask 0]. exact (conj H1 (conj H3 (conj H4 (conj H5 (conj H2 (conj H6 H7)))))).
Qed.
Print Assumptions C35_refuted.

(** ** C36 *)
(** C35_starts says that an execution with a cancel_on_shutdown that evaluates to true registers
    a handler; it is there until somebody unregisters it.  Processing a Shutdown event to the end
    then cancels the timer, and it does not fire any more. *)
Theorem C36_shutdown_cancels : forall (w : world) a h r g (s s' : st), reachable w s -> cancels_on_shutdown a h ->
  In (OReg h) (hist s) -> ~ In (OUnreg (h_id h)) (hist s) -> processes w s (EvShutdown r g) (Ok tt) s' ->
  cancelled a s' = true /\ times_fired a s' = times_fired a s.
Proof. exact shutdown_cancels. Qed.
Print Assumptions C36_shutdown_cancels.
Theorem C36_shutdown_prevents : forall (w : world) a h r g (s s' : st) ls (s2 : st), reachable w s -> cancels_on_shutdown a h ->
  In (OReg h) (hist s) -> ~ In (OUnreg (h_id h)) (hist s) -> processes w s (EvShutdown r g) (Ok tt) s' ->
  steps w s' ls s2 -> (times_executed a s2 <= 1)%nat -> times_fired a s2 = times_fired a s.
Proof. exact shutdown_prevents. Qed.
Print Assumptions C36_shutdown_prevents.

(** The hypotheses: the handler is registered, Shutdown is processed. *)
Example C36_example :
  match exec w0 (ex_timed true [LEmit (EvShutdown "x" false); LWake; LMain]) s0 with
  | Some s => omap (fun o => match o with OReg (MkH (Gen _) MShutdown false (HEntity (EAct _ None (ITimerCancel a)))) => Some a | _ => None end) (hist s) = [User 1] /\
      match exec w0 [LEvent 6] s with
      | Some s' => evt s' = ETDone (Ok tt) /\ cancelled (User 1) s' = true
      | None => False
      end
  | None => False
  end.
Proof. vm_compute. by repeat split. Qed.
(** With false the timer fires after the shutdown. *)
Example C36_example_false :
  match exec w0 (ex_timed false [LEmit (EvShutdown "x" false); LWake; LMain; LEvent 6; LTick 2; LTask 0] ++ ex_event) s0 with
  | Some s => cancelled (User 1) s = false /\ ex_msgs s = ["done"]
  | None => False
  end.
Proof. vm_compute. by repeat split. Qed.
