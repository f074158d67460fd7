(** Specifications for the theorems about waiting in tests (C60). *)
From Verif Require Export Waiting.

(** The evaluations so far: only the last one gave [b], the ones before it gave false, all on
    output that the action had by then. *)
Definition evaluated (cond : list string -> option bool) (st : wst) (b : bool) : Prop :=
  exists before out, wt_seen st = before ++ [(out, b)] /\ Forall (fun x => snd x = false) before /\
    Forall (fun x => cond (fst x) = Some (snd x) /\ exists later, wt_output st = fst x ++ later) (wt_seen st).
(** The call waits and nothing will wake it but a new event or the timeout. *)
Definition idle (st : wst) : Prop := (exists u, wt_pc st = PWait u) /\ wt_event st = false /\ wt_handling st = None.
(** How many output events have been handled to their end. *)
Definition ends_in (l : list wop) : nat := length (List.filter (fun o => match o with WEnd => true | _ => false end) l).
