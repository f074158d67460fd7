(** Specifications used by the theorems about the verbosity of loggers (C100). *)
From Verif Require Export Levels.

(** The loggers that are above a logger, and itself: those whose names it extends after a dot. *)
Definition covers (a n : string) : Prop := a = n \/ a <> "" /\ exists r, n = (a ++ "." ++ r)%string.
(** In terms of what the program did, last things first: the level that was set last for all loggers ... *)
Fixpoint general (h : list lop) : nat :=
  match h with
  | [] | Reset :: _ => 20
  | SetRoot l :: _ => l
  | Service debug :: _ => if debug then 10 else 20
  | _ :: h => general h
  end.
(** ... and the level that was set last for one logger: a reset forgets it, unless the logger is older
    than launch.logging. *)
Fixpoint particular (early : dict nat) (h : list lop) (n : string) : nat :=
  match h with
  | [] => match early !! n with Some l => l | None => 0 end
  | SetLogger m l :: h => if String.eqb m n then l else particular early h n
  | Reset :: h => match early !! n with Some _ => particular early h n | None => 0 end
  | _ :: h => particular early h n
  end.
(** The level that counts for a logger: that of the nearest logger above it that has one (0 is none),
    and the general one if there is none. *)
Definition counts (early : dict nat) (h : list lop) (n : string) (l : nat) : Prop :=
  (exists a, covers a n /\ particular early h a = l /\ l <> 0 /\
     forall b, covers b n -> (String.length a < String.length b)%nat -> particular early h b = 0) \/
  l = general h /\ forall b, covers b n -> particular early h b = 0.
