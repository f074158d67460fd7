(** The action Test of launch_testing: a process with a timeout (C91). *)
From Verif Require Export SpecEscalate SpecTimer.

(** No timeout is given: none at all, zero seconds, or the empty text. *)
Inductive without_timeout : option fval -> Prop :=
| no_value : without_timeout None
| zero_seconds q : q == 0 -> without_timeout (Some (FV (FFin q)))
| empty_text : without_timeout (Some (FS [])).
(** The timer [t] of the test [a]: after [p] it stops the process. *)
Definition stops_test (a : aid) : list entity := [anon (ITestStop a)].
Definition test_timer (a : aid) (p : fval) (t : aid) : entity := EAct t None (ATimer p (stops_test a) (BV false)).
(** The handler that cancels the timer [t] when a process of [a] exits. *)
Definition ends_timer (a t : aid) (h : handler) : Prop := on_exit_of a (HTestExit t) h.
(** What the timer [t] does when it fires. *)
Definition timer_does (t : aid) (l : list entity) (s : st) : Prop := exists x, timers s !! t = Some x /\ t_body x = l.
(** The handler all timers share is registered. *)
Definition timers_run (s : st) : Prop := exists n, In (timers_handler n) (handlers (cx s)).
