(** Specifications for the theorems about signal managers (C55). *)
From Verif Require Export Signals.

(** The managers entered after a history, innermost first, if each was entered only when it
    was not yet entered and left only when it was the innermost one. *)
Fixpoint lifo (act : list nat) (l : list sop) : option (list nat) :=
  match l with
  | [] => Some act
  | SEnter m :: l' => if bool_decide (m ∈ act) then None else lifo (m :: act) l'
  | SExit m :: l' => match act with a :: act' => if Nat.eqb a m then lifo act' l' else None | [] => None end
  | _ :: l' => lifo act l'
  end.
(** The descriptor that other code set last. *)
Fixpoint last_set (f : fd) (l : list sop) : fd :=
  match l with [] => f | SSet f' :: l' => last_set f' l' | _ :: l' => last_set f l' end.
(** What [signal.set_wakeup_fd] must return to other code: the descriptor set before. *)
Fixpoint previous (f : fd) (l : list sop) : list fd :=
  match l with [] => [] | SSet f' :: l' => f :: previous f' l' | _ :: l' => previous f l' end.
Definition answers (l : list sobs) : list fd := omap (fun o => match o with SReturned f => Some f | _ => None end) l.
(** Other code does not use the sockets of managers. *)
Definition foreign (f : fd) : Prop := match f with SockFd _ => False | _ => True end.
Definition foreign_op (o : sop) : Prop := match o with SSet f => foreign f | _ => True end.

(** The signals that arrived, in order. *)
Definition signals (l : list sop) : list nat := omap (fun o => match o with SSignal n => Some n | _ => None end) l.
(** The calls of manager [m]'s handlers: signal and handler. *)
Definition calls (m : nat) (l : list sobs) : list (nat * nat) :=
  omap (fun o => match o with SCalled m' n h => if Nat.eqb m' m then Some (n, h) else None | _ => None end) l.
(** The bytes written to descriptor [e]. *)
Definition written (e : nat) (l : list sobs) : list nat :=
  concat (omap (fun o => match o with SWritten e' d => if Nat.eqb e' e then Some d else None | _ => None end) l).
(** The calls that manager handlers [hs] should get for some signals. *)
Definition due (hs : gmap nat nat) (ns : list nat) : list (nat * nat) := omap (fun n => (fun h => (n, h)) <$> hs !! n) ns.

(** All data has been read by the managers entered. *)
Definition drained (act : list nat) (st : sgst) : Prop := forall m, m ∈ act -> sg_data (sg_mgrs st m) = [].
(** Whenever a manager is left it has read all its data. *)
Fixpoint exits_drained (raises : nat -> bool) (cap : nat) (st : sgst) (l : list sop) : Prop :=
  match l with
  | [] => True
  | o :: l' =>
      match o with SExit m => sg_data (sg_mgrs st m) = [] | _ => True end /\
      exits_drained raises cap (sstep raises cap st o) l'
  end.
Definition same_handlers (m : nat) (o : sop) : Prop := match o with SHandle m' _ _ => m' <> m | _ => True end.
Definition not_exit (m : nat) (o : sop) : Prop := match o with SExit m' => m' <> m | _ => True end.
Definition no_set (o : sop) : Prop := match o with SSet _ => False | _ => True end.
