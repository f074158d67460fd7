(** Model of waiting for output and for events in tests
    (launch_pytest/launch_pytest/tools/process.py:23-88), in a coroutine or in another thread
    than the launch service.  Times are integers, and one clock stands for [time.time()] and
    for the clocks of the waiting functions. *)
From Verif Require Export Base.

(** What a call does: return a value, raise a TypeError, or raise what the condition raises. *)
Inductive wres := WBool (b : bool) | WType | WRaised.

(** process.py:45-62 and 74-88: a call, between any two of its steps. *)
Inductive wpc :=
| PFirst                        (* about to evaluate the condition, line 50 or 79 *)
| PRegister (b : bool)          (* about to register the handler, 51 or 80 *)
| PTime (b : bool)              (* about to read the clock, 52-53 or 81-82 *)
| PTest (b : bool) (now : Z)    (* at the head of the loop, 54 or 83 *)
| PWait (until : Z)             (* waiting, 56 or 84 *)
| PClear                        (* about to clear the event, 59 or 85 *)
| PEval                         (* about to evaluate the condition, 60 or 86 *)
| PNow (b : bool)               (* about to read the clock, 61 or 87 *)
| PLeave (r : wres)             (* about to unregister the handler, 29 *)
| PReturned (r : wres).

(** An output event that is being handled: its text, whether the handler of the call was
    registered when the handlers were collected, and whether the action has got the text. *)
Record handling := { hg_text : string; hg_ours : bool; hg_kept : bool }.

(** [wt_seen] records the evaluations of the condition: on which output, with what result. *)
Record wst := {
  wt_output : list string;        (* what get_stdout() of the action returns, in pieces *)
  wt_registered : bool;
  wt_event : bool;                (* pyevent *)
  wt_clock : Z;
  wt_start : Z;                   (* start *)
  wt_pc : wpc;
  wt_handling : option handling;
  wt_seen : list (list string * bool) }.
Definition w_init (output : list string) (clock : Z) : wst :=
  {| wt_output := output; wt_registered := false; wt_event := false; wt_clock := clock; wt_start := clock; wt_pc := PFirst;
     wt_handling := None; wt_seen := [] |}.
Definition w_goto (pc : wpc) (st : wst) : wst :=
  {| wt_output := wt_output st; wt_registered := wt_registered st; wt_event := wt_event st; wt_clock := wt_clock st; wt_start := wt_start st;
     wt_pc := pc; wt_handling := wt_handling st; wt_seen := wt_seen st |}.

Section call.
(** [sync]: in another thread; [cond]: the condition on the output, none if it raises. *)
Context (sync : bool) (cond : list string -> option bool) (timeout : option Z).

Definition w_eval (st : wst) (next : bool -> wpc) (raised : wpc) : wst :=
  match cond (wt_output st) with
  | None => w_goto raised st
  | Some b =>
      {| wt_output := wt_output st; wt_registered := wt_registered st; wt_event := wt_event st; wt_clock := wt_clock st; wt_start := wt_start st;
         wt_pc := next b; wt_handling := wt_handling st; wt_seen := wt_seen st ++ [(wt_output st, b)] |}
  end.
(** One step of the call.  When it waits, it goes on because of the event ([woken]) or
    because of the timeout, and otherwise stays.  A coroutine may get the timeout even though
    the event is set ([asyncio.wait_for] cancels a task that has not run yet). *)
Definition w_step (woken : bool) (st : wst) : wst :=
  match wt_pc st with
  | PFirst => w_eval st PRegister (PReturned WRaised)
  | PRegister b =>
      {| wt_output := wt_output st; wt_registered := true; wt_event := wt_event st; wt_clock := wt_clock st; wt_start := wt_start st;
         wt_pc := PTime b; wt_handling := wt_handling st; wt_seen := wt_seen st |}
  | PTime b =>
      {| wt_output := wt_output st; wt_registered := wt_registered st; wt_event := wt_event st; wt_clock := wt_clock st; wt_start := wt_clock st;
         wt_pc := PTest b (wt_clock st); wt_handling := wt_handling st; wt_seen := wt_seen st |}
  | PTest true _ => w_goto (PLeave (WBool true)) st
  | PTest false now =>
      match timeout with
      | None => w_goto (PLeave WType) st                  (* start - now + None *)
      | Some t =>
          if (now <? wt_start st + t)%Z then w_goto (PWait (wt_clock st + (wt_start st - now + t))) st
          else w_goto (PLeave (WBool false)) st
      end
  | PWait until =>
      if woken then if wt_event st then w_goto PClear st else st
      else if (until <=? wt_clock st)%Z then w_goto (if sync then PClear else PLeave (WBool false)) st else st
  | PClear =>
      {| wt_output := wt_output st; wt_registered := wt_registered st; wt_event := false; wt_clock := wt_clock st; wt_start := wt_start st;
         wt_pc := PEval; wt_handling := wt_handling st; wt_seen := wt_seen st |}
  | PEval => w_eval st PNow (PLeave WRaised)
  | PNow b => w_goto (PTest b (wt_clock st)) st
  | PLeave r =>
      {| wt_output := wt_output st; wt_registered := false; wt_event := wt_event st; wt_clock := wt_clock st; wt_start := wt_start st;
         wt_pc := PReturned r; wt_handling := wt_handling st; wt_seen := wt_seen st |}
  | PReturned _ => st
  end.

(** What happens outside: time passes; the service begins to handle an output event, collects
    the handlers, calls the action's own handler (which keeps the text) and then, if it was
    registered, the handler of the call (process.py:27: it is appended).  A coroutine is not
    interrupted between two waits, and events are handled without interruption. *)
Inductive wop := WStep (woken : bool) | WTick (d : nat) | WBegin (text : string) | WKeep | WEnd.
Definition w_set (output : list string) (event : bool) (clock : Z) (h : option handling) (st : wst) : wst :=
  {| wt_output := output; wt_registered := wt_registered st; wt_event := event; wt_clock := clock; wt_start := wt_start st;
     wt_pc := wt_pc st; wt_handling := h; wt_seen := wt_seen st |}.
Definition at_await (pc : wpc) : bool := match pc with PFirst | PWait _ | PReturned _ => true | _ => false end.
Definition w_do (st : wst) (o : wop) : wst :=
  match o with
  | WStep woken => match wt_handling st with Some _ => if sync then w_step woken st else st | None => w_step woken st end
  | WTick d => w_set (wt_output st) (wt_event st) (wt_clock st + Z.of_nat d) (wt_handling st) st
  | WBegin text =>
      match wt_handling st with
      | Some _ => st
      | None =>
          if sync || at_await (wt_pc st)
          then w_set (wt_output st) (wt_event st) (wt_clock st) (Some {| hg_text := text; hg_ours := wt_registered st; hg_kept := false |}) st
          else st
      end
  | WKeep =>
      match wt_handling st with
      | Some h =>
          if hg_kept h then st
          else w_set (wt_output st ++ [hg_text h]) (wt_event st) (wt_clock st) (Some {| hg_text := hg_text h; hg_ours := hg_ours h; hg_kept := true |}) st
      | None => st
      end
  | WEnd =>
      match wt_handling st with
      | Some h => if hg_kept h then w_set (wt_output st) (hg_ours h || wt_event st) (wt_clock st) None st else st
      | None => st
      end
  end.
Definition w_run (output : list string) (clock : Z) (l : list wop) : wst := fold_left w_do l (w_init output clock).
End call.

(** process.py:32-42 and 65-71: waiting for one event, of a start or an exit.  What happens:
    the call registers its handler, an event is handled, time passes, the call is woken or
    times out (and unregisters the handler). *)
Inductive epc := ENew | EWaiting (until : option Z) | EReturned (b : bool).
Record est := { es_pc : epc; es_event : bool; es_clock : Z; es_count : nat }.
Inductive eop := ERegister | EHandled | ETick (d : nat) | EWake | ETimeout.
Definition e_do (timeout : option Z) (st : est) (o : eop) : est :=
  match o with
  | ERegister =>
      match es_pc st with
      | ENew => {| es_pc := EWaiting ((fun t => es_clock st + t)%Z <$> timeout); es_event := es_event st; es_clock := es_clock st; es_count := es_count st |}
      | _ => st
      end
  | EHandled =>
      {| es_pc := es_pc st; es_event := match es_pc st with EWaiting _ => true | _ => es_event st end; es_clock := es_clock st; es_count := S (es_count st) |}
  | ETick d => {| es_pc := es_pc st; es_event := es_event st; es_clock := es_clock st + Z.of_nat d; es_count := es_count st |}
  | EWake =>
      match es_pc st with
      | EWaiting _ => if es_event st then {| es_pc := EReturned true; es_event := es_event st; es_clock := es_clock st; es_count := es_count st |} else st
      | _ => st
      end
  | ETimeout =>
      match es_pc st with
      | EWaiting (Some u) => if (u <=? es_clock st)%Z then {| es_pc := EReturned false; es_event := es_event st; es_clock := es_clock st; es_count := es_count st |} else st
      | _ => st
      end
  end.
Definition e_run (timeout : option Z) (l : list eop) : est := fold_left (e_do timeout) l {| es_pc := ENew; es_event := false; es_clock := 0; es_count := 0 |}.
