(** Specifications used by the theorems about descriptions that grow while they are visited (C99). *)
From Verif Require Export Growing.

Definition root (t : tree) : ent := let 'T e _ := t in e.
Definition subs (t : tree) : list tree := let 'T _ l := t in l.
(** The entities of a tree in the order of a depth-first visit. *)
Fixpoint preorder (t : tree) : list ent := let 'T e l := t in e :: flat_map preorder l.
(** The trees in a tree. *)
Inductive within : tree -> tree -> Prop :=
| within_self t : within t t
| within_sub t u e l : In u l -> within t u -> within t (T e l).
(** Everything that was there is there, at its place. *)
Definition grown (s s' : store) : Prop := forall d, exists l, lists s' d = lists s d ++ l.
