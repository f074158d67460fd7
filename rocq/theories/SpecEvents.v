(** Specifications used by the theorems about events and event handlers. *)
From Verif Require Export SpecContext SpecVisit.

(** [emits s l s']: going from [s] to [s'] the observations [l] were made. *)
Definition observed (s : st) (l : list obs) (s' : st) : Prop := hist s' = hist s ++ l.

(** The step [s -> s'] takes event [e] from the queue and processes it; [r] is how
    processing ended: Ok tt, or Exn x if a handler or an entity raised. *)
Definition processes (w : world) (s : st) (e : event) (r : res unit) (s' : st) : Prop :=
  exists fuel, step w (LEvent fuel) s = Some s' /\ head (queue (cx s)) = Some e /\ evt s' = ETDone r.

(** The handlers of [c] that match [e], in the order of the deque (C14 says what the
    order is): each registration counts. *)
Definition receivers (w : world) (e : event) (c : ctx) : list hid :=
  map h_id (List.filter (fun h => matches w h e) (handlers c)).

(** How often handler [i] has handled an event, and how often it was registered. *)
Definition times_handled (i : hid) (l : list obs) : nat :=
  length (List.filter (fun he => bool_decide (he.1 = i)) (handled l)).
Definition registrations (i : hid) (l : list obs) : list handler :=
  omap (fun o => match o with OReg h => if bool_decide (h_id h = i) then Some h else None | _ => None end) l.
Definition unregistrations (i : hid) (l : list obs) : nat :=
  length (List.filter (fun o => match o with OUnreg j => bool_decide (j = i) | _ => false end) l).
Definition registered (i : hid) (c : ctx) : Prop := exists h, In h (handlers c) /\ h_id h = i.

(** Handler observations of [l]: every handler call is preceded by the start of the
    processing of its event, with no other event in between. *)
Definition one_event_at_a_time (l : list obs) : Prop :=
  forall l1 h e l2, l = l1 ++ OHandle h e :: l2 -> last (processed l1) = Some e.

(** What an event is about, as its class and its action attribute. *)
Definition is_event_of (c : ecls) (a : aid) (e : event) : Prop :=
  match c with
  | CComplete => e = EvComplete a
  | CStart => exists d, e = EvStarted a d
  | CExit => exists d rc, e = EvExited a d rc
  | CIO => (exists d fd t, e = EvIO a d fd t) \/ exists t, e = EvStdin a t
  end.
(** The action satisfies the target of a handler. *)
Definition is_target (w : world) (t : tgt) (a : aid) : Prop :=
  match t with TgtAny => True | TgtAct b => a = b | TgtFun n => w_tgt w n a = true end.
(** The events a matcher stands for. *)
Definition stands_for (w : world) (m : matcher) (e : event) : Prop :=
  match m with
  | MInclude => exists ld, e = EvInclude ld
  | MShutdown => exists r g, e = EvShutdown r g
  | MTimer => exists a, e = EvTimer a
  | MShutdownProc => exists p, e = EvShutdownProcess p
  | MSignalProc => exists sg p, e = EvSignalProcess sg p
  | MAct c t => exists a, is_event_of c a e /\ is_target w t a
  | MFun n => w_match w n e = true
  end.
(** The callback OnProcessIO has for an event. *)
Definition stream_callback (fo fe fi : option nat) (e : event) : option nat :=
  match e with EvIO _ _ Stdout _ => fo | EvIO _ _ Stderr _ => fe | EvStdin _ _ => fi | _ => None end.
