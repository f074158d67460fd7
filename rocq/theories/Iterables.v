(** Model of how entities handed over in an iterable are kept and used by what is built from
    them: launch descriptions, groups, timers and event handlers.  Python's lists and tuples can be
    iterated again and again; iterators, like generators, are used up by the first iteration.
    (SomeEntitiesType, some_entities_type.py:22-25, and the signatures allow both.) *)
From Verif Require Export Base.

(** What the iterable has: entities, by number, and other things. *)
Inductive element := Ent (n : nat) | Other.
(** The iterable: [again] for lists and tuples; what is left. *)
Record iterable := { again : bool; left : list element }.
(** One iteration: what it gives and what the iterable is afterwards. *)
Definition iterate (i : iterable) : list element * iterable :=
  (left i, if again i then i else {| again := false; left := [] |}).
(** An iteration that stops at the first element that is not an entity, and whether there was one. *)
Fixpoint until_other (l : list element) : list element * bool :=
  match l with
  | [] => ([], false)
  | Ent _ :: l => until_other l
  | Other :: l => (l, true)
  end.

(** What is built. *)
Inductive holder :=
| KDescription (l : list element)                            (* a list of its own *)
| KGroup (i : iterable) (cache : option (list element))      (* __actions, __actions_to_return *)
| KTimer (i : iterable)                                      (* __actions *)
| KHandler (i : iterable)                                    (* EventHandler: __entities *)
| KShutdown (i : iterable)                                   (* OnShutdown: gen_handler(on_shutdown) *)
| KAction (l : list element).                                (* OnActionEventBase: __actions_on_event *)
Inductive kind := Description | Group | Timer | Handler | OnShut | OnAction.
(** The constructors: launch_description.py:53-61, actions/group_action.py:66-83,
    actions/timer_action.py:58-92, event_handler.py:108-125, event_handlers/on_shutdown.py:43-60,
    event_handlers/on_action_event_base.py:43-104 (used by OnProcessExit, OnProcessStart and
    OnExecutionComplete: on_process_exit.py:43-69, on_process_start.py:42-66,
    on_execution_complete.py:39-63).  The last one looks at all elements before it makes its list.
    The other arguments are not modelled. *)
Definition construct (k : kind) (i : iterable) : res holder :=
  match k with
  | Description => Ok (KDescription (iterate i).1)
  | Group => Ok (KGroup i None)
  | Timer => Ok (KTimer i)
  | Handler => Ok (KHandler i)
  | OnShut => Ok (KShutdown i)
  | OnAction =>
      if (until_other (left i)).2 then Exn XType
      else Ok (KAction (iterate (iterate i).2).1)
  end.
(** The uses: it is described, for instance to list the launch arguments, and what is described is
    gone through; it is visited, fires, or handles an event, and the entities it gives are visited. *)
Inductive use := Describe | Produce.
(** Description: launch_description.py:63-78.  Group: group_action.py:110-146, without the actions
    that are added around the given ones (C01, C02).  Timer: timer_action.py:136-147.  EventHandler:
    event_handler.py:132-142.  OnShutdown: on_shutdown.py:62-66; its description has no entities,
    event_handler.py:80-90.  OnActionEventBase: on_action_event_base.py:106-119; without actions it
    calls a function it does not have. *)
Definition use_holder (u : use) (h : holder) : res (list element) * holder :=
  match h with
  | KDescription l => (Ok l, h)
  | KGroup i (Some l) => (Ok l, h)
  | KGroup i None => let '(l, i') := iterate i in (Ok l, KGroup i' (Some l))
  | KTimer i => let '(l, i') := iterate i in (Ok l, KTimer i')
  | KHandler i => let '(l, i') := iterate i in (Ok l, KHandler i')
  | KShutdown i =>
      match u with Describe => (Ok [], h) | Produce => let '(l, i') := iterate i in (Ok l, KShutdown i') end
  | KAction l =>
      match u with
      | Describe => (Ok l, h)
      | Produce => (match l with [] => Exn XAttr | _ => Ok l end, h)
      end
  end.
(** All uses, one after another. *)
Fixpoint use_all (us : list use) (h : holder) : list (res (list element)) :=
  match us with
  | [] => []
  | u :: us => let '(r, h') := use_holder u h in r :: use_all us h'
  end.
