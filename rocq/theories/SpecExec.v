(** Specifications used by the theorems about executing actions, visiting entities and
    handling events. *)
From Verif Require Export Service.

(** What happened so far, oldest first. *)
Definition hist (s : st) : list obs := rev (log s).
Definition emitted (l : list obs) : list event :=
  omap (fun o => match o with OEmit e => Some e | _ => None end) l.
Definition processed (l : list obs) : list event :=
  omap (fun o => match o with OProcess e => Some e | _ => None end) l.
Definition handled (l : list obs) : list (hid * event) :=
  omap (fun o => match o with OHandle h e => Some (h, e) | _ => None end) l.
(** The locals and context.locals.event each handler found. *)
Definition bodies (l : list obs) : list (hid * dict lval * res lval) :=
  omap (fun o => match o with OBody h ls v => Some (h, ls, v) | _ => None end) l.
Definition visited (l : list obs) : list entity :=
  omap (fun o => match o with OVisit e => Some e | _ => None end) l.
Definition executed (l : list obs) : list aid :=
  omap (fun o => match o with OExecuted a => Some a | _ => None end) l.
