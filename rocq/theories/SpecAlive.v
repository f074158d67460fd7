(** Specifications for the theorem about what a run still waits for (C82). *)
From Verif Require Export SpecProgress.

(** A process action works on its process: it is about to start it, waits for it to start,
    to exit or to be started again. *)
Definition process_alive (a : aid) (s : st) : Prop :=
  exists t, In t (tasks s) /\
    match t with
    | TProcInit b | TProcSpawn b _ | TProcConn b _ _ _ | TProcRun b _ _ _ | TProcDelay b _ => b = a
    | _ => False
    end.
(** A timer is about to count, or counts. *)
Definition timer_waits (a : aid) (s : st) : Prop :=
  exists t, In t (tasks s) /\ match t with TTimerInit b | TTimerWait b _ _ => b = a | _ => False end.
(** The coroutine of an action ended with an exception nobody looks at. *)
Definition crashed (o : owner) (s : st) : Prop := exists e, In (TDead o e) (tasks s).
(** The futures of a process action were created, but its execution raised before the
    coroutine was started. *)
Definition never_began (a : aid) (s : st) : Prop := exists p, procs s !! a = Some p /\ x_completed p <> None /\ x_begun p = false.
(** A timer was executed more than once. *)
Definition executed_again (a : aid) (s : st) : Prop := exists t, timers s !! a = Some t /\ (2 <= t_gen t)%nat.
(** [f] is the future with which a process action, or a timer, announces its completion. *)
Definition completes_process (a : aid) (f : nat) (s : st) : Prop := exists p, procs s !! a = Some p /\ x_completed p = Some f.
Definition completes_timer (a : aid) (f : nat) (s : st) : Prop := exists t, timers s !! a = Some t /\ t_completed t = Some f.
