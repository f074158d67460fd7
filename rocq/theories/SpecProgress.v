(** Specification for the end of a run (C80). *)
From Verif Require Export SpecService.

(** The steps of the run itself: the top of its loop, the end of asyncio.wait, and leaving. *)
Definition run_label (l : label) : bool := match l with LMain | LWake | LLeave => true | _ => false end.
(** No event is waiting, and every future the run waits for has ended. *)
Definition nothing_left (s : st) : Prop := queue (cx s) = [] /\ forall f, awaited f s -> f_is_done f s = true.
(** Histories in which nobody unregisters the handler with which the service notices Shutdown
    events, and in which the coroutine that shutdown() returns in the loop is awaited. *)
Inductive regular (w : world) : st -> Prop :=
| reg_init n e : regular w (init n e)
| reg_step s l s' : regular w s -> step w l s = Some s' -> l <> LShutLoop false -> In svc_handler (handlers (cx s)) -> regular w s'.
