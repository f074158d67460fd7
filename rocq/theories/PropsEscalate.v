(** The properties of stopping processes (C28, C30, C81). *)
From Coq Require Import ssreflect.
From Verif Require Import SubstFacts SpecTimer SpecEscalate ExWorld InstallFacts EscalateFacts StopFacts.

(** ** C28 *)
(** An execution before the shutdown starts the coroutine of the process and registers, in this
    order, the handlers of the action: for ShutdownProcess, SignalProcess, output, Shutdown,
    and for the exit what the user asked for and the flush of the buffers. *)
Theorem C28_listens : forall (w : world) a c oe (s s' : st) l, exec_proc w a c oe s = (s', Ok l) -> is_shutdown (cx s) = false ->
  l = [] /\ tasks s' = tasks s ++ [TProcInit a] /\ completion a s' = Some false /\
  exists h1 h2 h3 h4 h5 h6, on_shutdown_process_of a h1 /\ on_signal_of a h2 /\ on_output_of a h3 /\ on_shutdown_of a h4 /\
    (procs s !! a = None -> on_exit_of a oe h5) /\ on_exit_of a (HProcFlush a) h6 /\
    NoDup (map h_id [h1; h2; h3; h4; h5; h6]) /\
    hist s' = hist s ++ map OReg [h1; h2; h3; h4; h5; h6].
Proof. exact listens. Qed.
Print Assumptions C28_listens.

(** A process that is running and is told to shut down (by a Shutdown event; see C30 for
    ShutdownProcess and for requests that waited) is stopped: the escalation begins, unless
    the action completes. *)
Theorem C28_escalates : forall (w : world) a h r g (s s' : st), reachable w s -> on_shutdown_of a h -> still_registered h s ->
  completion a s <> None -> has_started a s -> processes w s (EvShutdown r g) (Ok tt) s' ->
  escalations a (hist s') = 1%nat \/ completion a s' = Some true.
Proof. exact escalates. Qed.
Print Assumptions C28_escalates.

(** When the escalation begins, the actions that are visited are exactly a timer for SIGTERM
    with the first timeout, a timer for SIGKILL with the sum of the timeouts and, unless the
    terminal has sent SIGINT to the process already, the emission of SIGINT; and no other
    signal is emitted. *)
Theorem C28_begins : forall (w : world) fuel h e a c sg (s s' : st), handle_one w fuel h e s = (s', Ok tt) -> h_once h = false ->
  asks a s (h_body h) e sg -> stoppable a c s ->
  exists t1 t2 l, hist s' = hist s ++ l /\ t1 <> t2 /\ In (OEscalate a t1 t2 (now s)) l /\
    visited l = stop_actions a c t1 t2 sg /\ signals_emitted l = if sg then [(SIGINT, PMAction a)] else [].
Proof. exact begins. Qed.
Print Assumptions C28_begins.
(** The premise of C28_begins holds for every running process that was not told to shut down. *)
Theorem C28_can_begin : forall (w : world) a (s : st), reachable w s -> completion a s = Some false -> ~ shut_requested a s ->
  has_started a s -> exists c, config a s = Some c /\ stoppable a c s.
Proof. exact can_stop. Qed.
Print Assumptions C28_can_begin.

(** The task of a timer starts the wait with the value of its period, at that time; C35 says
    that it fires not before that period is over, and not at all once it was cancelled; C27 says
    that the timers of the escalation are cancelled when the action completes. *)
Theorem C28_arms : forall (w : world) i a (s s' : st), tasks s !! i = Some (TTimerInit a) -> step w (LTask i) s = Some s' ->
  exists t c, timers s !! a = Some t /\
    ((exists p, perform_fval w (t_period t) (cx s) = (c, Ok p) /\ log s' = OArmed a p (now s) :: log s) \/
     (exists x, perform_fval w (t_period t) (cx s) = (c, Exn x) /\ log s' = log s)).
Proof. exact arms. Qed.
Print Assumptions C28_arms.

(** A SignalProcess event for the process is delivered exactly if the process still runs. *)
Theorem C28_delivers : forall (w : world) a sg m (s s' : st) l,
  (get_local "event" (cx s)).2 = Ok (LEv (EvSignalProcess sg m)) -> exec_proc_signal w a s = (s', Ok l) ->
  (addressed w a s m /\ running a s = true /\ log s' = OSignal a sg :: log s) \/ (~ (addressed w a s m /\ running a s = true) /\ log s' = log s).
Proof. exact delivers_ok. Qed.
Print Assumptions C28_delivers.

(** The process of [ex_start] does not react to SIGINT: SIGTERM after five seconds, SIGKILL
    after ten. *)
Definition ex_stop (sigint : bool) : list label :=
  ex_start (ex_cfg false None 1) ++ ex_up ++ LEmit (EvShutdown "x" sigint) :: ex_event ++ ex_event ++ (if sigint then [] else ex_event) ++ [LTask 1; LTask 2].
Example C28_example :
  ex_history w0 (ex_stop false ++ [LTick 5; LTask 1] ++ ex_event ++ ex_event) = Some ["spawn"; "started"; "sigint"; "sigterm"] /\
  ex_history w0 (ex_stop false ++ [LTick 5; LTask 1] ++ ex_event ++ ex_event ++ [LTick 5; LTask 1] ++ ex_event ++ ex_event)
    = Some ["spawn"; "started"; "sigint"; "sigterm"; "sigkill"] /\
  ex_history w0 (ex_stop true ++ [LTick 5; LTask 1] ++ ex_event ++ ex_event) = Some ["spawn"; "started"; "sigterm"] /\
  match exec w0 (ex_stop false ++ [LTick 4]) s0 with
  | Some s => match step w0 (LTask 1) s with None => True | Some _ => False end
  | None => False
  end /\
  ex_history w0 (ex_stop false ++ ex_down ++ [LTick 5; LTask 0]) = Some ["spawn"; "started"; "sigint"; "reap"; "exited"].
Proof. vm_compute. by repeat split. Qed.

(** ** C30 *)
(** A request is not lost: it is taken into account at once, or the process has not started
    and the request waits. *)
Theorem C30_not_lost : forall (w : world) a h r g (s s' : st), reachable w s -> on_shutdown_of a h -> still_registered h s ->
  completion a s <> None -> processes w s (EvShutdown r g) (Ok tt) s' ->
  shut_requested a s' \/ (~ has_started a s /\ request_waits a s').
Proof. exact not_lost. Qed.
Print Assumptions C30_not_lost.
Theorem C30_not_lost_process : forall (w : world) a h (s s' : st), reachable w s -> on_shutdown_process_of a h -> still_registered h s ->
  completion a s <> None -> processes w s (EvShutdownProcess (PMAction a)) (Ok tt) s' ->
  shut_requested a s' \/ (~ has_started a s /\ request_waits a s').
Proof. exact not_lost_process. Qed.
Print Assumptions C30_not_lost_process.

(** Once the process has started, the next ProcessStarted event makes a waiting request take
    effect.  The event for its own start is emitted after it has started. *)
Theorem C30_taken_up : forall (w : world) a sg h b d (s s' : st), reachable w s -> deferred a sg h -> still_registered h s ->
  completion a s <> None -> has_started a s -> processes w s (EvStarted b d) (Ok tt) s' -> shut_requested a s'.
Proof. exact taken_up. Qed.
Print Assumptions C30_taken_up.
Theorem C30_own_start : forall (w : world) a d (s : st), reachable w s -> In (OLife (EvStarted a d)) (hist s) -> has_started a s.
Proof. exact own_start. Qed.
Print Assumptions C30_own_start.
(** Taking effect means that the escalation has begun (or that the action is over). *)
Theorem C30_escalates : forall (w : world) a (s : st), reachable w s -> shut_requested a s ->
  escalations a (hist s) = 1%nat \/ completion a s = Some true.
Proof. exact requested_escalates. Qed.
Print Assumptions C30_escalates.

(** Until then every start of any process registers the waiting requests again, in addition to
    those that are there: their number doubles. *)
Theorem C30_accumulates : forall (w : world) a b d (s s' : st), reachable w s -> processes w s (EvStarted b d) (Ok tt) s' ->
  completion a s <> None -> ~ has_started a s' -> completion a s' = Some false ->
  (deferred_ever a s + deferred_now a s <= deferred_ever a s')%nat.
Proof. exact accumulate. Qed.
Print Assumptions C30_accumulates.

(** Two processes; the second one is told to shut down before either has started, then the first one starts. *)
Definition ex_two : entity := EAct (User 2) None (AExec (ex_cfg false None 1) HNone).
Definition ex_early : list label :=
  [LEmit (EvInclude [ex_proc (ex_cfg false None 1); ex_two]); LEmit (EvShutdownProcess (PMAction (User 2))); LRun true; LMain; LEvent 5; LTask 0; LTask 1].
Example C30_example :
  match exec w0 (ex_early ++ ex_event) s0 with
  | Some s => (deferred_now (User 2) s, deferred_ever (User 2) s, completion (User 2) s) = (1%nat, 1%nat, Some false) /\ escalations (User 2) (hist s) = 0%nat /\
      match exec w0 ([LSpawnOk 0 7; LTask 0] ++ ex_event) s with
      | Some s => (deferred_now (User 2) s, deferred_ever (User 2) s) = (2%nat, 2%nat) /\ escalations (User 2) (hist s) = 0%nat /\
          match exec w0 ([LSpawnOk 1 8; LTask 1] ++ ex_event) s with
          | Some s => escalations (User 2) (hist s) = 1%nat /\ escalations (User 1) (hist s) = 0%nat
          | None => False
          end
      | None => False
      end
  | None => False
  end.
Proof. vm_compute. by repeat split. Qed.

(** ** C81 *)
(** What a process action does with a SignalProcess event, whatever the state: the signal is sent
    if and only if the event names the process and the process runs; a process that is named and has ended
    ignores it; one that is named and was not started yet raises; one that is not named does
    nothing, unless the question cannot be answered. *)
Theorem C81_signal : forall (w : world) a sg m (s s' : st) r,
  (get_local "event" (cx s)).2 = Ok (LEv (EvSignalProcess sg m)) -> exec_proc_signal w a s = (s', r) ->
  (addressed w a s m /\ running a s = true /\ r = Ok [] /\ log s' = OSignal a sg :: log s) \/
  (log s' = log s /\ procs s' = procs s /\ tasks s' = tasks s /\
   ((addressed w a s m /\ running a s = false /\ details a s <> None /\ has_started a s /\ r = Ok []) \/
    (addressed w a s m /\ (details a s = None \/ ~ has_started a s) /\ r = Exn XRuntime) \/
    (~ addressed w a s m /\ (forall x, ~ cannot_tell a s m x) /\ r = Ok []) \/
    (exists x, cannot_tell a s m x /\ r = Exn x))).
Proof. exact delivers. Qed.
Print Assumptions C81_signal.
(** A ShutdownProcess event makes the processes it names begin their shutdown: one that can be stopped
    gets its two timers and SIGINT. *)
Theorem C81_shutdown : forall (w : world) a m (s s' : st) r,
  (get_local "event" (cx s)).2 = Ok (LEv (EvShutdownProcess m)) -> exec_proc_shutdown w a s = (s', r) -> addressed w a s m ->
  (exists l, hist s' = hist s ++ OAsked a :: l) /\
  forall cf, stoppable a cf s -> exists t1 t2, t1 <> t2 /\ r = Ok (stop_actions a cf t1 t2 true) /\ hist s' = hist s ++ [OAsked a; OEscalate a t1 t2 (now s)].
Proof. exact shutdown_asked. Qed.
Print Assumptions C81_shutdown.
(** The processes it does not name are left alone: nothing at all happens to them. *)
Theorem C81_shutdown_other : forall (w : world) a m (s s' : st) r,
  (get_local "event" (cx s)).2 = Ok (LEv (EvShutdownProcess m)) -> exec_proc_shutdown w a s = (s', r) -> ~ addressed w a s m ->
  hist s' = hist s /\ procs s' = procs s /\ tasks s' = tasks s /\ futs s' = futs s /\ queue (cx s') = queue (cx s) /\ handlers (cx s') = handlers (cx s) /\
  (r = Ok [] \/ exists x, cannot_tell a s m x /\ r = Exn x).
Proof. exact shutdown_other. Qed.
Print Assumptions C81_shutdown_other.

(** Two running processes, with the pids 7 and 8. *)
Definition ex_both : list label :=
  [LEmit (EvInclude [ex_proc (ex_cfg false None 1); ex_two]); LRun true; LMain; LEvent 5; LTask 0; LTask 1; LSpawnOk 0 7; LTask 0; LSpawnOk 1 8; LTask 1] ++ ex_event ++ ex_event.
(** [w0] where splitting the empty prefix gives no words. *)
Definition ex_w : world := mkWorld
  (w_yaml w0) (w_sfun w0) (w_rand w0) (w_cond w0) (w_match w0) (w_tgt w0) (w_pmatch w0) (w_fun w0) (w_load w0) (w_loc w0) (w_abspath w0)
  (w_launchdir w0) (fun p => if String.eqb p "" then [] else [p]) (w_rematch w0) (w_output_ok w0).
Definition ex_signalled (m : pmatch) : option (list obs) :=
  match exec ex_w (ex_both ++ LEmit (EvSignalProcess SIGTERM m) :: ex_event) s0 with
  | Some s => Some (List.filter (fun o => match o with OSignal _ _ => true | _ => false end) (hist s))
  | None => None
  end.
Example C81_example :
  ex_signalled (PMPid 8) = Some [OSignal (User 2) SIGTERM] /\ ex_signalled (PMPid 9) = Some [] /\
  ex_signalled (PMAction (User 1)) = Some [OSignal (User 1) SIGTERM] /\
  ex_signalled (PMExecutable "prog") = Some [OSignal (User 2) SIGTERM; OSignal (User 1) SIGTERM] /\ ex_signalled (PMExecutable "/prog/") = Some [] /\
  ex_signalled (PMName "prog-1") = Some [OSignal (User 1) SIGTERM] /\ ex_signalled (PMFun 2) = Some [OSignal (User 2) SIGTERM].
Proof. vm_compute. by repeat split. Qed.
(** It is not true that an event that names another process leaves the run alone: while a process is
    prepared and not yet started, any event that asks for a pid raises KeyError and the run fails. *)
Definition ex_early_pid : list label :=
  [LEmit (EvInclude [ex_proc (ex_cfg false None 1)]); LEmit (EvSignalProcess SIGTERM (PMPid 8)); LRun true; LMain; LEvent 5; LTask 0; LWake; LMain; LEvent 5; LWake; LMain].
Lemma ex_early_pid_end : match exec w0 ex_early_pid s0 with Some s => rcode s = 1%Z /\ option_map d_pid (details (User 1) s) = Some None | None => False end.
Proof. vm_compute. split; reflexivity. Qed.
Theorem C81_early_pid_refuted : exists s : st, exec w0 ex_early_pid s0 = Some s /\ reachable w0 s /\ rcode s = 1%Z /\
  ~ addressed w0 (User 1) s (PMPid 8) /\ cannot_tell (User 1) s (PMPid 8) XKey.
Proof.
  pose proof ex_early_pid_end as H. destruct (exec w0 ex_early_pid s0) as [s|] eqn:E; [|destruct H].
  exists s. split; [reflexivity|]. split; [eapply EventFacts.exec_reachable; exact E|]. clear E.
  destruct H as [H1 H2]. split; [exact H1|]. destruct (details (User 1) s) as [d|] eqn:Ed; [|done]. injection H2 as H2.
  split; [inversion 1; congruence|by eapply no_pid].
Qed.
Print Assumptions C81_early_pid_refuted.
