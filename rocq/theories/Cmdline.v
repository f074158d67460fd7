(** Model of escape sequences in frontend strings and of the parsing of command lines:
    launch/launch/frontend/parse_substitution.py:33-35 and
    launch/launch/actions/execute_process.py:243-301.

    The library function shlex.split is modelled by its algorithm (python's shlex.py,
    posix=True, whitespace_split=True, no comments, no punctuation characters). *)
From Verif Require Export Syntax.

Definition backslash : ascii := "092"%char.
Definition dquote : ascii := "034"%char.
Definition squote : ascii := "039"%char.

(** replace_escaped_characters, parse_substitution.py:33-35: re.sub(r'\\(.)', r'\1', data).
    The dot does not match a newline. *)
Fixpoint unescape (s : string) : string :=
  match s with
  | EmptyString => EmptyString
  | String a r =>
      if Ascii.eqb a backslash
      then match r with
           | EmptyString => s
           | String b r' => if Ascii.eqb b nl then String a (String b (unescape r')) else String b (unescape r')
           end
      else String a (unescape r)
  end.

(** ** shlex.split *)
(** The white space of shlex: space, tab, carriage return, newline. *)
Definition sh_space (c : ascii) : bool :=
  let n := nat_of_ascii c in ((n =? 32) || (n =? 9) || (n =? 13) || (n =? 10))%nat.
Definition is_quote (c : ascii) : bool := Ascii.eqb c squote || Ascii.eqb c dquote.
(** The state of the scanner, with the token read so far: between tokens, in a word,
    within quotes, after a backslash in a word, after a backslash within quotes. *)
Inductive shst :=
| ShGap
| ShWord (t : string)
| ShQuote (q : ascii) (t : string)
| ShEsc (t : string)
| ShQEsc (q : ascii) (t : string).
Definition snoc (t : string) (c : ascii) : string := (t ++ String c "")%string.
(** One character; the token that it ends, if any. *)
Definition sh_step (x : shst) (c : ascii) : shst * list string :=
  match x with
  | ShGap =>
      if sh_space c then (ShGap, [])
      else if Ascii.eqb c backslash then (ShEsc "", [])
      else if is_quote c then (ShQuote c "", [])
      else (ShWord (String c ""), [])
  | ShWord t =>
      if sh_space c then (ShGap, [t])
      else if Ascii.eqb c backslash then (ShEsc t, [])
      else if is_quote c then (ShQuote c t, [])
      else (ShWord (snoc t c), [])
  | ShQuote q t =>
      if Ascii.eqb c q then (ShWord t, [])
      else if Ascii.eqb c backslash && Ascii.eqb q dquote then (ShQEsc q t, [])
      else (ShQuote q (snoc t c), [])
  | ShEsc t => (ShWord (snoc t c), [])
  | ShQEsc q t =>
      (ShQuote q (if Ascii.eqb c backslash || Ascii.eqb c q then snoc t c else snoc (snoc t backslash) c), [])
  end.
Fixpoint sh_run (x : shst) (s : string) : res (list string) :=
  match s with
  | EmptyString =>
      match x with
      | ShGap => Ok []
      | ShWord t => Ok [t]
      | _ => Exn XValue             (* No closing quotation / No escaped character *)
      end
  | String c s' => let '(x', out) := sh_step x c in res_bind (sh_run x' s') (fun ts => Ok (out ++ ts))
  end.
Definition shlex_split (s : string) : res (list string) := sh_run ShGap s.

(** ** ExecuteProcess._parse_cmdline, execute_process.py:243-301 *)
(** [arg] is the argument being built, [out] the finished ones. *)
Definition first_space (s : string) : bool := match s with String c _ => is_space c | EmptyString => false end.
Fixpoint last_space (s : string) : bool :=
  match s with
  | EmptyString => false
  | String c EmptyString => is_space c
  | String _ s' => last_space s'
  end.
Definition cmd_text (t : string) (tokens : list string) (out : list (list subst)) (arg : list subst) : list (list subst) * list subst :=
  match tokens with
  | [] => (out ++ [arg], [])                                              (* 266-272 *)
  | tok :: more =>
      let '(out, arg) := if first_space t && negb (Nat.eqb (length arg) 0) then (out ++ [arg], []) else (out, arg) in  (* 273-278 *)
      let arg := arg ++ [SText tok] in                                    (* 279 *)
      let '(out, arg) :=
        match more with
        | [] => (out, arg)
        | _ => (out ++ [arg] ++ map (fun x => [SText x]) (removelast more), [SText (List.last more "")])  (* 280-291 *)
        end in
      if last_space t then (out ++ [arg], []) else (out, arg)             (* 292-296 *)
  end.
Fixpoint cmd_loop (l : list subst) (out : list (list subst)) (arg : list subst) : res (list (list subst)) :=
  match l with
  | [] => Ok (match arg with [] => out | _ => out ++ [arg] end)           (* 299-301 *)
  | SText t :: l' =>
      res_bind (shlex_split t) (fun tokens => let '(out, arg) := cmd_text t tokens out arg in cmd_loop l' out arg)
  | x :: l' => cmd_loop l' out (arg ++ [x])
  end.
(** The argument is the result of parser.parse_substitution(cmd). *)
Definition parse_cmdline (l : list subst) : res (list (list subst)) := cmd_loop l [] [].
