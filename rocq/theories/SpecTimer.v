(** Specifications for the theorems about timers (C35, C36). *)
From Verif Require Export SpecEvents.

(** How often the timer action [a] has been executed, has fired (the event that yields its
    actions was emitted), and whether it has been cancelled. *)
Definition times_executed (a : aid) (s : st) : nat := match timers s !! a with Some t => t_gen t | None => O end.
Definition is_fire (a : aid) (o : obs) : bool := match o with OFire b _ => bool_decide (a = b) | _ => false end.
Definition times_fired (a : aid) (s : st) : nat := length (List.filter (is_fire a) (log s)).
Definition cancelled (a : aid) (s : st) : bool := match timers s !! a with Some t => t_canceled t | None => false end.
(** The future of the timer action is done. *)
Definition future_done (a : aid) (s : st) : bool :=
  match timers s !! a with
  | Some t => match t_completed t with Some f => f_is_done f s | None => false end
  | None => false
  end.
(** A period [p] that began at [t0] is over at [t]. *)
Definition elapsed (p : pyfloat) (t0 t : Q) : Prop :=
  match p with FFin q => (t0 + q <= t)%Q | FInf true => (t0 <= t)%Q | _ => False end.
(** The handler an execution registers if the timer is to be cancelled on shutdown. *)
Definition cancels_on_shutdown (a : aid) (h : handler) : Prop :=
  exists n, h = MkH (Gen n) MShutdown false (HEntity (anon (ITimerCancel a))).
