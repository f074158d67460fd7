(** Model of how the launch arguments of a description are shown,
    launch_testing/launch_testing/print_arguments.py:16-40 (launch_test --show-args). *)
From Verif Require Export LaunchArgs.
Local Open Scope string_scope.

(** print(): the text and a newline. *)
Definition print (t : string) : string := t ++ String nl "".
(** ' + '.join *)
Fixpoint join_plus (l : list string) : string :=
  match l with
  | [] => ""
  | [t] => t
  | t :: l => t ++ " + " ++ join_plus l
  end.
Section show.
(** What describe() gives for a substitution, and the description of the declaration of an argument
    (declare_launch_argument.py:141-152, see DeclareArg.v). *)
Context (tok : subst -> string) (about : string -> string).
(** 22-34 *)
Definition message (d : decl) : string :=
  String nl "" ++ "    '" ++ dl_name d ++ "':" ++ (if dl_cond d then "*" else "")
  ++ String nl "" ++ "        " ++ about (dl_name d)
  ++ match dl_default d with
     | Some v => String nl "" ++ "        (default: " ++ join_plus (map tok v) ++ ")"
     | None => ""
     end.
(** 22-34: the loop. *)
Fixpoint messages (ds : list decl) : string :=
  match ds with [] => "" | d :: ds => print (message d) ++ messages ds end.
(** 36-40 *)
Definition footer (ds : list decl) : string :=
  match ds with
  | [] => print (String nl "" ++ "  No arguments.")
  | _ => if existsb dl_cond ds then print (String nl "" ++ "* argument(s) which are only used if specific conditions occur") else ""
  end.
Definition header : string := print "Arguments (pass arguments as '<name>:=<value>'):".
(** 16-40: what is printed, and whether it returns.  The first line is printed before the arguments
    are collected. *)
Definition print_arguments (w : world) (c : ctx) (known : nat -> option (list entity)) (fuel : nat) (ld : list entity) : string * res unit :=
  match get_launch_arguments w c known fuel ld false with
  | Ok a => (header ++ messages (a_decls a) ++ footer (a_decls a), Ok tt)
  | Exn e => (header, Exn e)
  | OutOfFuel => (header, OutOfFuel)
  end.
End show.
