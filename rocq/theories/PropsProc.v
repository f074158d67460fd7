(** The properties of process actions (C22-C27, C29). *)
From Coq Require Import ssreflect.
From Verif Require Import SubstFacts SpecProc ExWorld ExecFacts VisitFacts HandleFacts StepFacts MicroSteps OwnFacts ProcFacts LifeFacts ProcLaws SpecNames RespawnFacts.

(** ** C22 *)
(** The mark that says the launch context was shut down is never taken back, whatever is
    done with the service afterwards (including a second run). *)
Theorem C22_stays_shut_down : forall (w : world) (s : st) ls (s' : st),
  reachable w s -> steps w s ls s' -> is_shutdown (cx s) = true -> is_shutdown (cx s') = true.
Proof. exact flag_steps. Qed.
Print Assumptions C22_stays_shut_down.

(** From then on an action whose coroutine is not at work never starts a process. *)
Theorem C22_nothing_starts : forall (w : world) a (s : st) ls (s' : st),
  reachable w s -> steps w s ls s' -> was_executed a s \/ is_shutdown (cx s) = true -> ~ active a s ->
  process_history a (hist s') = process_history a (hist s) /\ ~ active a s'.
Proof. exact quiet_steps. Qed.
Print Assumptions C22_nothing_starts.

(** A first run ends because nothing is to be done.  In the second run the process action is
    visited and executed, without any effect. *)
Example C22_example :
  match exec w0 [LRun true; LMain; LMain; LEvent 5; LWake; LMain; LLeave; LEmit (EvInclude [ex_proc (ex_cfg false None 0)]); LRun false; LMain; LEvent 5] s0 with
  | Some s => is_shutdown (cx s) = true /\ List.existsb (fun o => match o with OExecuted (User 1) => true | _ => false end) (hist s) = true /\
              process_history (User 1) (hist s) = [] /\ tasks s = []
  | None => False
  end.
Proof. vm_compute. by repeat split. Qed.

(** ** C23 *)
(** Executing an action that was executed before raises and does nothing: no coroutine, no
    event, no process. *)
Theorem C23_second_execution : forall (w : world) fuel a c oe (s s' : st) r,
  was_executed a s -> exec_action w fuel a (AExec c oe) s = (s', r) ->
  (forall l, r <> Ok l) /\ tasks s' = tasks s /\ log s' = log s /\ futs s' = futs s /\ pipes s' = pipes s.
Proof. exact (fun w fuel => exec_again w). Qed.
Print Assumptions C23_second_execution.

(** Executing an action when a shutdown is under way does not start anything either. *)
Theorem C23_late_execution : forall (w : world) fuel a c oe (s s' : st) r,
  is_shutdown (cx s) = true -> exec_action w fuel a (AExec c oe) s = (s', r) ->
  tasks s' = tasks s /\ log s' = log s /\ futs s' = futs s /\ pipes s' = pipes s /\ is_shutdown (cx s') = true.
Proof. exact (fun w fuel => exec_late w). Qed.
Print Assumptions C23_late_execution.

(** The same action twice in one description: the second execution raises (RuntimeError). *)
Example C23_example :
  match exec w0 [LEmit (EvInclude [ex_proc (ex_cfg false None 0); ex_proc (ex_cfg false None 0)]); LRun true; LMain; LEvent 5] s0 with
  | Some s => tasks s = [TProcInit (User 1)] /\ evt s = ETDone (Exn XRuntime) /\ (x_executed <$> procs s !! User 1) = Some true
  | None => False
  end.
Proof. vm_compute. by repeat split. Qed.

(** ** C24 *)
(** The processes of an action live one after the other.  Each is started, announced by
    ProcessStarted with its pid, ends, and is announced by ProcessExited with the same pid
    and its return code. *)
Theorem C24_life_cycles : forall (w : world) a (s : st), reachable w s -> life_cycles a (process_history a (hist s)).
Proof. exact life_cycles_thm. Qed.
Print Assumptions C24_life_cycles.

(** An announcement is the emission of the event. *)
Theorem C24_announced : forall (w : world) (s : st) l1 e l2,
  reachable w s -> hist s = l1 ++ OLife e :: l2 -> exists l, l2 = OEmit e :: l.
Proof. exact announced_hist. Qed.
Print Assumptions C24_announced.

(** At most one process is alive: the number of starts is the number of ends, or one more if
    a process is alive. *)
Theorem C24_at_most_one : forall (w : world) a (s : st), reachable w s ->
  (alive a s -> spawned a (hist s) = S (reaped a (hist s))) /\
  (~ alive a s -> spawned a (hist s) = reaped a (hist s)).
Proof. exact one_alive. Qed.
Print Assumptions C24_at_most_one.

Example C24_example :
  ex_history w0 (ex_start (ex_cfg true None 1) ++ ex_up ++ ex_down ++ [LTask 0; LSpawnOk 0 8; LExit 0 0; LTask 0; LTask 0])
  = Some ["spawn"; "started"; "reap"; "exited"; "spawn"; "reap"; "started"; "exited"].
Proof. by vm_compute. Qed.

(** ** C25 *)
(** Respawn off: one start; [n] retries: [n + 1] starts. *)
Theorem C25_bound : forall (w : world) a (s : st) c, reachable w s -> config a s = Some c ->
  (p_respawn c = BV false -> (spawned a (hist s) <= 1)%nat) /\
  (0 <= p_max c -> (spawned a (hist s) <= 1 + Z.to_nat (p_max c))%nat)%Z.
Proof. exact respawn_bound. Qed.
Print Assumptions C25_bound.

(** A negative number of retries: for every [n] there is an execution with [n] starts. *)
Theorem C25_without_bound : forall n m, (m < 0)%Z ->
  exists s, reachable w0 s /\ config (User 1) s = Some (ex_cfg true None m) /\ spawned (User 1) (hist s) = n.
Proof. exact without_bound. Qed.
Print Assumptions C25_without_bound.

(** When the end of a process is processed, whatever its return code, and no shutdown is
    under way and retries remain, the next process is started, after the delay if there is
    one, ... *)
Theorem C25_respawns : forall (w : world) a (s : st) i f d rc (s' : st),
  reachable w s -> tasks s !! i = Some (TProcRun a f d (Some rc)) -> step w (LTask i) s = Some s' ->
  may_respawn a s -> loop_set (cx s) = true ->
  tries a s' = (tries a s + 1)%Z /\ completion a s' = Some false /\
  exists c, config a s = Some c /\
    match p_delay c with
    | Some q => if Qle_bool q 0 then about_to_start a s' else In (TProcDelay a (now s + q)%Q) (tasks s')
    | None => about_to_start a s'
    end.
Proof. exact exit_again. Qed.
Print Assumptions C25_respawns.

(** ... where the delay ends early, and without a new process, iff a shutdown is requested. *)
Theorem C25_after_delay : forall (w : world) a (s : st) i dl (s' : st),
  reachable w s -> tasks s !! i = Some (TProcDelay a dl) -> step w (LTask i) s = Some s' ->
  (shut_requested a s -> completion a s' = Some true) /\
  (~ shut_requested a s -> (dl <= now s)%Q /\ (loop_set (cx s) = true -> about_to_start a s')).
Proof. exact delay_ends. Qed.
Print Assumptions C25_after_delay.

(** The option is evaluated when the action is executed, in the context of that moment, ... *)
Theorem C25_evaluated : forall (w : world) a c oe (s s' : st) l, exec_proc w a c oe s = (s', Ok l) -> config a s = None ->
  exists c1 c2 b p, perform_bval w (p_respawn c) c1 = (c2, Ok b) /\ same_variables (cx s) c1
    /\ procs s' !! a = Some p /\ x_respawn p = BV b.
Proof. intros w a c oe s s' l H Hn. eapply exec_respawn; [exact H|]. move: Hn. rewrite /config. by destruct (procs s !! a). Qed.
Print Assumptions C25_evaluated.
(** ... it keeps that value, ... *)
Theorem C25_value_stays : forall (w : world) a (s : st) ls (s' : st) p b, reachable w s -> steps w s ls s' ->
  procs s !! a = Some p -> x_respawn p = BV b -> exists p', procs s' !! a = Some p' /\ x_respawn p' = BV b.
Proof. exact resp_kept. Qed.
Print Assumptions C25_value_stays.
(** ... which is there while the action is at work (so that [may_respawn] or its opposite holds
    because of the value), ... *)
Theorem C25_value_known : forall (w : world) a (s : st), reachable w s -> active a s -> exists p b, procs s !! a = Some p /\ x_respawn p = BV b.
Proof. intros w a s Hr (t & Hin & Ht). by eapply running_value. Qed.
Print Assumptions C25_value_known.
(** ... and false means one process at most. *)
Theorem C25_false_once : forall (w : world) a (s : st) p, reachable w s -> procs s !! a = Some p -> x_respawn p = BV false -> (spawned a (hist s) <= 1)%nat.
Proof. exact off_once. Qed.
Print Assumptions C25_false_once.

(** Substitutions that give true and false. *)
Example C25_value_example :
  let c (t : string) := mkPcfg [[SText "/bin/prog"]] None (Some [SText "prog"]) None None None (BS [SText t]) None (-1) false [SText "log"] [SText "5"] [SText "5"] false in
  ex_history w0 (ex_start (c "true"%string) ++ ex_up ++ ex_down ++ ex_up) = Some ["spawn"; "started"; "reap"; "exited"; "spawn"; "started"]
  /\ ex_history w0 (ex_start (c "false"%string) ++ ex_up ++ ex_down) = Some ["spawn"; "started"; "reap"; "exited"]
  /\ ex_history w0 (ex_start (c "false"%string) ++ ex_up ++ ex_down ++ [LTask 0]) = None.
Proof. by vm_compute. Qed.

(** One retry: the third start does not happen. *)
Example C25_example :
  ex_history w0 (ex_start (ex_cfg true (Some 2%Q) 1) ++ ex_up ++ ex_down ++ [LTick 2; LTask 0] ++ ex_up ++ ex_down)
  = Some ["spawn"; "started"; "reap"; "exited"; "spawn"; "started"; "reap"; "exited"]
  /\ ex_history w0 (ex_start (ex_cfg true (Some 2%Q) 1) ++ ex_up ++ ex_down ++ [LTick 2; LTask 0] ++ ex_up ++ ex_down ++ [LTask 0]) = None.
Proof. by vm_compute. Qed.

(** ** C26 *)
(** The action has taken a shutdown request into account while no process was being started:
    no further process is started, and the action is at work until it completes. *)
Theorem C26_no_start : forall (w : world) a (s : st) ls (s' : st),
  reachable w s -> steps w s ls s' -> shut_requested a s -> ~ starting a s ->
  spawned a (hist s') = spawned a (hist s) /\ shut_requested a s'.
Proof. exact doomed_steps. Qed.
Print Assumptions C26_no_start.
Theorem C26_completes : forall (w : world) a (s : st) ls (s' : st),
  reachable w s -> steps w s ls s' -> shut_requested a s -> ~ starting a s -> active a s ->
  active a s' \/ completion a s' = Some true.
Proof. exact ends_steps. Qed.
Print Assumptions C26_completes.

(** The step that processes the end of the process completes the action. *)
Theorem C26_exit_completes : forall (w : world) a (s : st) i f d rc (s' : st),
  reachable w s -> tasks s !! i = Some (TProcRun a f d (Some rc)) -> step w (LTask i) s = Some s' ->
  ~ may_respawn a s -> completion a s' = Some true.
Proof. exact exit_ends. Qed.
Print Assumptions C26_exit_completes.
Theorem C26_exit_processed : forall (w : world) a (s : st) i f d rc,
  reachable w s -> in_loop s = true -> tasks s !! i = Some (TProcRun a f d (Some rc)) ->
  exists s', step w (LTask i) s = Some s'.
Proof. exact exit_enabled. Qed.
Print Assumptions C26_exit_processed.

(** [C26_no_start] has to exclude that a process is being started.  Shutdown is requested in the respawn delay: the action completes without a new process.
    It is requested while a new process is being started: the process starts nevertheless,
    and gets no signal. *)
Example C26_example :
  ex_history w0 (ex_start (ex_cfg true (Some 2%Q) 1) ++ ex_up ++ ex_down ++ ex_shutdown ++ [LTask 0])
  = Some ["spawn"; "started"; "reap"; "exited"].
Proof. by vm_compute. Qed.
(** [C26_no_start] without its hypothesis on [starting] is false. *)
Theorem C26_while_starting_refuted :
  exists s ls s', reachable w0 s /\ steps w0 s ls s' /\ shut_requested (User 1) s /\
    spawned (User 1) (hist s') = S (spawned (User 1) (hist s)) /\
    map ex_tag (process_history (User 1) (hist s')) = ["spawn"; "started"; "reap"; "exited"; "spawn"; "started"] /\ alive (User 1) s'.
Proof. exact starts_anyway. Qed.
Print Assumptions C26_while_starting_refuted.

(** ** C27 *)
(** Once the completion future is done it stays so, and from then on nothing happens to
    processes of the action: none starts, ends or gets a signal. *)
Theorem C27_final : forall (w : world) a (s : st) ls (s' : st),
  reachable w s -> steps w s ls s' -> completion a s = Some true ->
  completion a s' = Some true /\ process_history a (hist s') = process_history a (hist s) /\
  escalations a (hist s') = escalations a (hist s).
Proof. exact over_steps. Qed.
Print Assumptions C27_final.

(** The future is done only when every process that was started has ended, its end was
    announced, and the coroutine has nothing left to do. *)
Theorem C27_only_at_the_end : forall (w : world) a (s : st), reachable w s -> completion a s = Some true ->
  ~ active a s /\ exists lives, process_history a (hist s) = concat lives /\ Forall (session a) lives.
Proof. exact (fun w a s H E => conj (over_idle w a s H E) (inactive_sessions w a s H (over_idle w a s H E))). Qed.
Print Assumptions C27_only_at_the_end.

(** It becomes done in the step that processes the end of the last process (respectively the
    end of the delay, see C25_after_delay), or that finds that the process does not start;
    C25_respawns says that it stays pending when another process follows. *)
Theorem C27_at_last_exit : forall (w : world) a (s : st) i f d rc (s' : st),
  reachable w s -> tasks s !! i = Some (TProcRun a f d (Some rc)) -> step w (LTask i) s = Some s' ->
  ~ may_respawn a s -> completion a s' = Some true.
Proof. exact exit_ends. Qed.
Print Assumptions C27_at_last_exit.
Theorem C27_not_started : forall (w : world) a (s : st) i d (s' : st),
  reachable w s -> tasks s !! i = Some (TProcSpawn a d) -> step w (LSpawnFail i) s = Some s' -> completion a s' = Some true.
Proof. exact nospawn_ends. Qed.
Print Assumptions C27_not_started.

(** The timers of the escalation of a completed action are cancelled. *)
Theorem C27_timers_cancelled : forall (w : world) (s : st), reachable w s -> forall a p t,
  procs s !! a = Some p -> completion a s = Some true -> x_sigterm p = Some t \/ x_sigkill p = Some t ->
  timer_canceled t s = true.
Proof. exact offs_reachable. Qed.
Print Assumptions C27_timers_cancelled.

(** ** C29 *)
Theorem C29_at_most_once : forall (w : world) a (s : st), reachable w s -> (escalations a (hist s) <= 1)%nat.
Proof. exact escal_once. Qed.
Print Assumptions C29_at_most_once.
Theorem C29_ignored : forall (w : world) a (s : st) ls (s' : st),
  reachable w s -> steps w s ls s' -> shut_requested a s -> escalations a (hist s') = escalations a (hist s).
Proof. exact escal_steps. Qed.
Print Assumptions C29_ignored.

(** Two Shutdown events and a ShutdownProcess: one SIGINT. *)
Example C29_example :
  ex_history w0 (ex_start (ex_cfg true None 1) ++ ex_up ++ ex_shutdown ++ LEmit (EvShutdown "y" false) :: LEmit (EvShutdownProcess (PMFun 1)) :: ex_event ++ ex_event)
  = Some ["spawn"; "started"; "sigint"].
Proof. by vm_compute. Qed.
