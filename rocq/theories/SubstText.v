(** Model of substitutions written in text: launch/share/launch/frontend/grammar.lark,
    launch/launch/frontend/parse_substitution.py and expose.py:36-51.

    The grammar is given to lark with its Earley parser and dynamic lexer: at a place where a
    terminal can come, the only match considered is that of its regular expression, which is
    greedy.  With this the grammar has at most one derivation and a character decides between
    the alternatives, so the parser is modelled by recursive descent.  Text is a sequence of
    bytes; a letter is one of ASCII, as in the grammar. *)
From Verif Require Export Cmdline.

#[global] Instance res_mbind : MBind res := fun A B f r => res_bind r f.

(** What a text reads as, before the substitutions are looked up. *)
Inductive node := NText (s : string) | NSub (name : string) (args : list (list node)).

(** Unquoted, in single quotes, in double quotes. *)
Inductive mode := MUnq | MSq | MDq.
Definition dollar : ascii := "$"%char.
Definition lpar : ascii := "("%char.
Definition rpar : ascii := ")"%char.
Definition spc : ascii := " "%char.
(** grammar.lark:9-16: whether a character can be part of a terminal [*_STRING], or
    [*_RSTRING] ([raw]), given whether it comes after a backslash ([esc]) and the next
    character.  (The look-behinds look at the text before the terminal too, but no terminal
    begins after a backslash.  The alternatives of a backslash and a quote are tried before that of a backslash alone.) *)
Definition accepts (raw : bool) (m : mode) (esc : bool) (c : ascii) (next : option ascii) : bool :=
  if Ascii.eqb c dollar then esc || match next with Some n => negb (Ascii.eqb n lpar) | None => true end
  else if Ascii.eqb c squote then match m with MUnq => negb raw || esc | MSq => esc | MDq => true end
  else if Ascii.eqb c dquote then match m with MUnq => negb raw || esc | MDq => esc | MSq => true end
  else if Ascii.eqb c lpar || Ascii.eqb c rpar then negb raw || esc
  else if Ascii.eqb c spc then negb raw
  else true.
Definition first_char (s : string) : option ascii := match s with EmptyString => None | String c _ => Some c end.
(** The match of the regular expression at the beginning of [s] (empty: none), and the rest. *)
Fixpoint lex (raw : bool) (m : mode) (esc : bool) (s : string) : string * string :=
  match s with
  | EmptyString => (EmptyString, s)
  | String c r =>
      if accepts raw m esc c (first_char r)
      then let '(t, rest) := lex raw m (Ascii.eqb c backslash) r in (String c t, rest)
      else (EmptyString, s)
  end.
(** grammar.lark:7 IDENTIFIER *)
Definition letter (c : ascii) : bool := let n := nat_of_ascii c in ((65 <=? n) && (n <=? 90) || (97 <=? n) && (n <=? 122))%nat.
Definition ident_char (c : ascii) : bool :=
  let n := nat_of_ascii c in letter c || ((48 <=? n) && (n <=? 57))%nat || Ascii.eqb c "_" || Ascii.eqb c "-".
Fixpoint lex_while (p : ascii -> bool) (s : string) : string * string :=
  match s with
  | EmptyString => (EmptyString, s)
  | String c r => if p c then let '(t, rest) := lex_while p r in (String c t, rest) else (EmptyString, s)
  end.
Definition lex_ident (s : string) : string * string :=
  match s with String c _ => if letter c then lex_while ident_char s else (EmptyString, s) | EmptyString => (EmptyString, s) end.

(** The rules, 18-67.  [read_items raw]: parts (in arguments) or fragments, as many as there are.
    The result is what was read and the rest; [Exn XRuntime] stands for the exceptions of lark.
    Escapes are replaced (parse_substitution.py:41-47, 76-82). *)
Section read.
Context (read_sub : mode -> string -> res (node * string)).
Fixpoint read_items (fuel : nat) (raw : bool) (m : mode) (s : string) : res (list node * string) :=
  match fuel with
  | 0 => OutOfFuel
  | S f =>
      let '(t, rest) := lex raw m false s in
      match t with
      | String _ _ => '(l, rest') ← read_items f raw m rest; Ok (NText (unescape t) :: l, rest')
      | EmptyString =>
          match s with
          | String a (String b s') =>
              if Ascii.eqb a dollar && Ascii.eqb b lpar
              then '(n, rest) ← read_sub m s'; '(l, rest') ← read_items f raw m rest; Ok (n :: l, rest')
              else Ok ([], s)
          | _ => Ok ([], s)
          end
      end
  end.
(** 49-51 value, 22 and 36 (in quotes), 32 and 46 (the quotes) *)
Definition value (fuel : nat) (m : mode) (s : string) : res (list node * string) :=
  let quoted m' q s' :=
    '(l, rest) ← read_items fuel false m' s';
    match rest with String c rest' => if Ascii.eqb c q then Ok (l, rest') else Exn XRuntime | EmptyString => Exn XRuntime end in
  let plain := '(l, rest) ← read_items fuel true m s; match l with [] => Exn XRuntime | _ => Ok (l, rest) end in
  match m, s with
  | MUnq, String c s' => if Ascii.eqb c squote then quoted MSq squote s' else if Ascii.eqb c dquote then quoted MDq dquote s' else plain
  | _, _ => plain
  end.
(** 53-54 arguments, up to the closing parenthesis of 56 *)
Fixpoint read_arguments (fuel vfuel : nat) (m : mode) (s : string) : res (list (list node) * string) :=
  match fuel with
  | 0 => OutOfFuel
  | S f =>
      '(v, rest) ← value vfuel m s;
      match rest with
      | String c rest' =>
          if Ascii.eqb c rpar then Ok ([v], rest')
          else if Ascii.eqb c spc then '(vs, rest'') ← read_arguments f vfuel m rest'; Ok (v :: vs, rest'')
          else Exn XRuntime
      | EmptyString => Exn XRuntime
      end
  end.
End read.
(** 56 substitution, after the opening parenthesis *)
Fixpoint substitution (fuel : nat) (m : mode) (s : string) : res (node * string) :=
  match fuel with
  | 0 => OutOfFuel
  | S f =>
      let '(name, rest) := lex_ident s in
      match name, rest with
      | String _ _, String c rest' =>
          if Ascii.eqb c rpar then Ok (NSub name [], rest')
          else if Ascii.eqb c spc then '(vs, rest'') ← read_arguments (substitution f) (S (String.length s)) (S (String.length s)) m rest'; Ok (NSub name vs, rest'')
          else Exn XRuntime
      | _, _ => Exn XRuntime
      end
  end.
(** parse_substitution.py:96-107, without looking up substitutions. *)
Definition read_text (s : string) : res (list node) :=
  match s with
  | EmptyString => Ok [NText ""]
  | _ =>
      '(l, rest) ← read_items (substitution (S (String.length s))) (S (String.length s)) false MUnq s;
      match rest with EmptyString => Ok l | _ => Exn XRuntime end
  end.

(** ** Looking up *)
Section lookup.
Context {S : Type} (text : string -> S) (parse_methods : string -> option (list (list S) -> res S)).
(** expose.py:42-51 *)
Definition instantiate (name : string) (args : list (list S)) : res S :=
  match parse_methods name with None => Exn XRuntime | Some f => f args end.
(** The transformer, parse_substitution.py:38-87: children first, from left to right. *)
Definition mapm {A B} (f : A -> res B) : list A -> res (list B) :=
  fix go l := match l with [] => Ok [] | x :: l' => y ← f x; ys ← go l'; Ok (y :: ys) end.
Fixpoint transform (n : node) : res S :=
  match n with
  | NText s => Ok (text s)
  | NSub name args => vs ← mapm (fun v => mapm transform v) args; instantiate name vs
  end.
Definition parse_substitution (s : string) : res (list S) := l ← read_text s; mapm transform l.

(** ** Values: parse_if_substitutions, 117-151 *)
(** A string, or another scalar (or anything that is neither a string nor a list). *)
Inductive sval A := VStr (s : string) | VOther (a : A).
Inductive oval A := OText (s : string) | OSubs (l : list S) | OOther (a : A).
#[global] Arguments VStr {A}. #[global] Arguments VOther {A}. #[global] Arguments OText {A}. #[global] Arguments OSubs {A}. #[global] Arguments OOther {A}.
(** [text_of]: the text of an instance of TextSubstitution; [type_of]: type(value). *)
Context {A T : Type} (eqb_type : T -> T -> bool) (str : T) (type_of : A -> T) (text_of : S -> option string).
(** 133-141, with the type that is added to the set of types. *)
Definition parse_if (v : sval A) : res (oval A * list T) :=
  match v with
  | VStr s =>
      output ← parse_substitution s;
      match output with
      | [x] => match text_of x with Some t => Ok (OText t, [str]) | None => Ok (OSubs output, []) end
      | _ => Ok (OSubs output, [])
      end
  | VOther a => Ok (OOther a, [type_of a])
  end.
(** 142-150; a value that is not a list adds one type at most. *)
Definition parse_values (vs : list (sval A)) : res (list (oval A)) :=
  outs ← mapm parse_if vs;
  match concat (map snd outs) with
  | [] => Ok (map fst outs)
  | t :: ts => if forallb (eqb_type t) ts then Ok (map fst outs) else Exn XValue
  end.
Definition parse_value (v : sval A) : res (oval A) := o ← parse_if v; Ok (fst o).
End lookup.
#[global] Arguments OText {S A}. #[global] Arguments OSubs {S A}. #[global] Arguments OOther {S A}.
