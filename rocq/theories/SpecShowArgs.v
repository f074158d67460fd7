(** Specification used by the theorems about showing launch arguments (C97): how the printed text is
    read by the user.  Nothing here refers to how it is printed. *)
From Verif Require Export ShowArgs SpecOutput SpecActions.
Local Open Scope string_scope.

(** What the text says about an argument. *)
Record said := mkSaid { sd_name : string; sd_conditional : bool; sd_about : string; sd_default : option string }.

(** [t] without [p] at its beginning, without [p] at its end. *)
Definition without_front (p t : string) : option string :=
  if String.prefix p t then Some (substring (String.length p) (String.length t - String.length p) t) else None.
Definition without_end (p t : string) : option string :=
  let n := String.length t - String.length p in
  if String.eqb (substring n (String.length p) t) p then Some (substring 0 n t) else None.
(** The line with the name: the name is in quotes, and a star marks those that are conditional. *)
Definition read_name (t : string) : option (string * bool) :=
  match without_front "    '" t with
  | Some t => match without_end "':*" t with
              | Some n => Some (n, true)
              | None => match without_end "':" t with Some n => Some (n, false) | None => None end
              end
  | None => None
  end.
(** The line with the default value. *)
Definition read_default (t : string) : option string :=
  match without_front "        (default: " t with Some t => without_end ")" t | None => None end.
(** The lines after the heading: for each argument a blank line, the name, the description, and a
    line with the default value if it has one; at last what follows the arguments. *)
Fixpoint read_arguments (ls : list string) : option (list said * list string) :=
  match ls with
  | "" :: n :: ls' =>
      match read_name n with
      | Some (n, c) =>
          match ls' with
          | d :: ls' =>
              match without_front "        " d with
              | Some d =>
                  let more (v : option string) (r : option (list said * list string)) :=
                    match r with Some (l, ls) => Some (mkSaid n c d v :: l, ls) | None => None end in
                  match ls' with
                  | [] => Some ([mkSaid n c d None], [])
                  | "" :: _ => more None (read_arguments ls')
                  | v :: ls' => match read_default v with Some v => more (Some v) (read_arguments ls') | None => None end
                  end
              | None => None
              end
          | [] => None
          end
      | None => Some ([], ls)
      end
  | _ => Some ([], ls)
  end.
(** The last lines say that there are no arguments, or what a star means, if there is one. *)
Definition last_lines (l : list said) : list string :=
  match l with
  | [] => [""; "  No arguments."]
  | _ => if existsb sd_conditional l then [""; "* argument(s) which are only used if specific conditions occur"] else []
  end.
Definition reads (t : string) (l : list said) : Prop :=
  exists ls r, t = unlines ("Arguments (pass arguments as '<name>:=<value>'):" :: ls) /\ Forall no_nl ls /\
    read_arguments ls = Some (l, r) /\ r = last_lines l.

(** The default value is shown as its parts, with plus signs between them. *)
Fixpoint sum (l : list string) : string :=
  match l with [] => "" | [t] => t | t :: l => t ++ " + " ++ sum l end.
(** What there is to say about an argument that is listed. *)
Definition to_say (tok : subst -> string) (about : string -> string) (d : listed) : said :=
  mkSaid (li_name d) (li_conditional d) (about (li_name d)) (option_map (fun v => sum (map tok v)) (li_default d)).
(** Nothing of it has a line break. *)
Definition one_line (s : said) : Prop :=
  no_nl (sd_name s) /\ no_nl (sd_about s) /\ match sd_default s with Some v => no_nl v | None => True end.
