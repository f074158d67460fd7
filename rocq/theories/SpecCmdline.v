(** Specifications for the theorems about escapes and command lines (C51, C52). *)
From Verif Require Export Cmdline.

(** ** Escaping *)
(** [escaping t u]: [u] is [t] with a backslash put before every backslash and before any
    number of other characters except newlines. *)
Inductive escaping : string -> string -> Prop :=
| esc_nil : escaping "" ""
| esc_plain c t u : c <> backslash -> escaping t u -> escaping (String c t) (String c u)
| esc_esc c t u : c <> nl -> escaping t u -> escaping (String c t) (String backslash (String c u)).
Fixpoint has_char (c : ascii) (s : string) : bool :=
  match s with EmptyString => false | String d s' => Ascii.eqb c d || has_char c s' end.

(** ** Splitting *)
Fixpoint all_chars (p : ascii -> bool) (s : string) : bool :=
  match s with EmptyString => true | String c s' => p c && all_chars p s' end.
(** Space, tab, carriage return and newline. *)
Definition white (c : ascii) : bool := existsb (Ascii.eqb c) [" "; "009"; "013"; "010"]%char.
(** A character without special meaning in a shell command line. *)
Definition ordinary (c : ascii) : bool := negb (white c || Ascii.eqb c backslash || Ascii.eqb c squote || Ascii.eqb c dquote).
Definition a_word (s : string) : Prop := s <> "" /\ all_chars ordinary s = true.
Definition blank (s : string) : Prop := all_chars white s = true.
(** [s] is made of the words [ws], with blanks between them and perhaps around them. *)
Inductive spaced : string -> list string -> Prop :=
| sp_nil b : blank b -> spaced b []
| sp_one b x e : blank b -> a_word x -> blank e -> spaced (b ++ x ++ e) [x]
| sp_cons b x g s y ws : blank b -> a_word x -> blank g -> g <> "" -> spaced s (y :: ws) -> spaced (b ++ x ++ g ++ s) (x :: y :: ws).
(** Quoting one argument as shlex.quote does: in single quotes, a single quote as '"'"'. *)
Fixpoint quote_body (s : string) : string :=
  match s with
  | EmptyString => EmptyString
  | String c s' =>
      if Ascii.eqb c squote
      then String squote (String dquote (String squote (String dquote (String squote (quote_body s')))))
      else String c (quote_body s')
  end.
Definition quoted (s : string) : string := String squote (quote_body s ++ String squote "").
Definition space : string := String " " "".

(** ** Command lines *)
(** What a command line consists of: literal tokens, substitutions, and the gaps between
    arguments. *)
Inductive piece := Item (x : subst) | Gap.
Definition text_pieces (t : string) (tokens : list string) : list piece :=
  (if first_space t then [Gap] else []) ++
  match tokens with [] => [Gap] | _ => tail (flat_map (fun x => [Gap; Item (SText x)]) tokens) end ++
  (if last_space t then [Gap] else []).
Inductive pieces : list subst -> list piece -> Prop :=
| pc_nil : pieces [] []
| pc_text t tokens l ps : shlex_split t = Ok tokens -> pieces l ps -> pieces (SText t :: l) (text_pieces t tokens ++ ps)
| pc_other x l ps : (forall t, x <> SText t) -> pieces l ps -> pieces (x :: l) (Item x :: ps).
(** The arguments are the non-empty sequences of items between gaps. *)
Fixpoint arguments (cur : list subst) (ps : list piece) : list (list subst) :=
  match ps with
  | [] => match cur with [] => [] | _ => [cur] end
  | Item x :: ps' => arguments (cur ++ [x]) ps'
  | Gap :: ps' => match cur with [] => arguments [] ps' | _ => cur :: arguments [] ps' end
  end.
Definition is_text (x : subst) : bool := match x with SText _ => true | _ => false end.
Definition nonempty {A} (l : list A) : bool := match l with [] => false | _ => true end.
Definition items (ps : list piece) : list subst := omap (fun p => match p with Item x => Some x | Gap => None end) ps.
(** [expands l xs]: [xs] is [l] with every text replaced by its tokens. *)
Inductive expands : list subst -> list subst -> Prop :=
| ex_nil : expands [] []
| ex_text t tokens l xs : shlex_split t = Ok tokens -> expands l xs -> expands (SText t :: l) (map SText tokens ++ xs)
| ex_other x l xs : is_text x = false -> expands l xs -> expands (x :: l) (x :: xs).
(** No two texts follow each other, as in every list made by parse_substitution. *)
Definition starts_with_text (l : list subst) : bool := match l with x :: _ => is_text x | [] => false end.
Fixpoint merged (l : list subst) : Prop :=
  match l with [] => True | x :: l' => (is_text x = true -> starts_with_text l' = false) /\ merged l' end.
