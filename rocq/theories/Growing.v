(** Model of visiting launch descriptions that are added to while they are visited:
    LaunchDescription.visit gives its own list of entities away, launch_description.py:63-74, and
    visit_all_entities_and_collect_futures goes through this list, so that what is appended to it by
    add_entity and add_action, launch_description.py:172-178, on the way is met by the iteration. *)
From Verif Require Export Base.

(** Entities: a launch description, by number, or an action that calls a function, by number. *)
Inductive ent := Desc (d : nat) | Call (n : nat).
#[global] Instance ent_eq_dec : EqDecision ent.
Proof. solve_decision. Defined.
(** The lists of the launch descriptions, and the entities that were visited so far. *)
Record store := { lists : nat -> list ent; visited : list ent }.
(** What was visited: an entity and its sub-entities. *)
Inductive tree := T (e : ent) (subs : list tree).

(** add_entity and add_action, launch_description.py:172-178 *)
Definition add_entity (s : store) (de : nat * ent) : store :=
  {| lists := fun d => if Nat.eqb d de.1 then lists s d ++ [de.2] else lists s d; visited := visited s |}.
Definition saw (e : ent) (s : store) : store := {| lists := lists s; visited := visited s ++ [e] |}.

Section visit.
(** What a function does: it adds entities to descriptions and returns entities, or raises; all this
    may depend on everything that was visited before.  (The list it returns is one that is not changed
    afterwards.) *)
Context (run : nat -> list ent -> res (list (nat * ent) * list ent)).
(** What is left to do: visit an entity; visit those of a list; go on with the list of a description
    at some position. *)
Inductive task := One (e : ent) | Rest (l : list ent) | From (d i : nat).
(** visit_all_entities_and_collect_futures, utilities/visit_all_entities_and_collect_futures_impl.py:
    25-47, without the futures (C80); Action.visit without conditions, action.py:107-122;
    OpaqueFunction.execute, actions/opaque_function.py:72-74.  Iterating over a list in Python looks at
    the next position of the list as it is then. *)
Fixpoint go (fuel : nat) (t : task) (s : store) : res (store * list tree) :=
  match fuel with
  | 0 => OutOfFuel
  | S fuel =>
      match t with
      | One (Desc d) => res_bind (go fuel (From d 0) (saw (Desc d) s)) (fun '(s, ts) => Ok (s, [T (Desc d) ts]))
      | One (Call n) =>
          res_bind (run n (visited s)) (fun '(adds, ret) =>
          res_bind (go fuel (Rest ret) (fold_left add_entity adds (saw (Call n) s))) (fun '(s, ts) => Ok (s, [T (Call n) ts])))
      | Rest [] => Ok (s, [])
      | Rest (e :: l) => res_bind (go fuel (One e) s) (fun '(s, ts) => res_bind (go fuel (Rest l) s) (fun '(s, us) => Ok (s, ts ++ us)))
      | From d i =>
          match nth_error (lists s d) i with
          | None => Ok (s, [])
          | Some e => res_bind (go fuel (One e) s) (fun '(s, ts) => res_bind (go fuel (From d (S i)) s) (fun '(s, us) => Ok (s, ts ++ us)))
          end
      end
  end.
Definition visit (fuel : nat) (e : ent) (s : store) : res (store * list tree) := go fuel (One e) s.
End visit.
