(** Entities handed over in iterables (C93). *)
From Verif Require Export Iterables.

(** A list or tuple; an iterator, for instance a generator. *)
Definition listed (l : list element) : iterable := {| again := true; left := l |}.
Definition generated (l : list element) : iterable := {| again := false; left := l |}.
Definition entities (l : list element) : Prop := forall x, In x l -> exists n, x = Ent n.
(** What a use gives if nothing is lost: the entities; an OnShutdown handler is described without. *)
Definition whole (k : kind) (l : list element) (u : use) : res (list element) :=
  match k, u with OnShut, Describe => Ok [] | _, _ => Ok l end.
(** The uses that go through the entities. *)
Definition goes_through (k : kind) (u : use) : Prop := ~ (k = OnShut /\ u = Describe).
