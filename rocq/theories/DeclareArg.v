(** Model of the constructor of DeclareLaunchArgument, actions/declare_launch_argument.py:105-160. *)
From Verif Require Export Exec.

(** The elements of an iterable that is given as default value: text, a substitution, or something
    that is neither. *)
Inductive delem := DE_text (t : string) | DE_sub (x : subst) | DE_other.
(** The default value: none, text, a substitution, a list, or another iterable, like a tuple. *)
Inductive dvalue := DV_none | DV_text (t : string) | DV_sub (x : subst) | DV_list (l : list delem) | DV_iter (l : list delem).
(** normalize_to_list_of_substitutions, utilities/normalize_to_list_of_substitutions_impl.py:26-44 *)
Fixpoint normalize_elems (l : list delem) : res (list subst) :=
  match l with
  | [] => Ok []
  | DE_other :: _ => Exn XType
  | DE_text t :: l => match normalize_elems l with Ok k => Ok (SText t :: k) | r => r end
  | DE_sub x :: l => match normalize_elems l with Ok k => Ok (x :: k) | r => r end
  end.
(** 118-121 *)
Definition normalize_default (d : dvalue) : res (option (list subst)) :=
  match d with
  | DV_none => Ok None
  | DV_text t => Ok (Some [SText t])
  | DV_sub x => Ok (Some [x])
  | DV_list l | DV_iter l => match normalize_elems l with Ok k => Ok (Some k) | Exn e => Exn e | OutOfFuel => OutOfFuel end
  end.
(** 130-139: [default_value not in choices]; an iterable is equal to no text. *)
Definition default_allowed (d : dvalue) (ch : list string) : bool :=
  match d with
  | DV_none | DV_sub _ | DV_list _ => true
  | DV_text t => existsb (String.eqb t) ch
  | DV_iter _ => false
  end.
Section declare.
(** str() of the list of choices. *)
Context (str : list string -> string).
(** 141-152 *)
Definition ends_with_dot (t : string) : bool :=
  match String.length t with 0 => false | S n => match get n t with Some c => Ascii.eqb c "." | None => false end end.
Definition describe_arg (desc : option string) (ch : option (list string)) : string :=
  match desc, ch with
  | None, None => "no description given"
  | None, Some l => "One of: " ++ str l
  | Some t, None => t
  | Some t, Some l => (if ends_with_dot t then t else t ++ ".") ++ " Valid choices are: " ++ str l
  end.
(** 105-160: the action, and its description. *)
Definition declare_arg (n : string) (d : dvalue) (desc : option string) (ch : option (list string)) : res (action * string) :=
  match normalize_default d with
  | Ok dv =>
      match ch with
      | Some [] => Exn XRuntime
      | Some l => if default_allowed d l then Ok (ADeclare n dv ch, describe_arg desc ch) else Exn XRuntime
      | None => Ok (ADeclare n dv ch, describe_arg desc ch)
      end
  | Exn e => Exn e
  | OutOfFuel => OutOfFuel
  end.
End declare.
