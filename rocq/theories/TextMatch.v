(** Model of matching output in tests: launch_testing/launch_testing/tools/text.py,
    tools/output.py:35-134 and asserts/assert_output.py:29-107. *)
From Verif Require Export Testing.

(** text.py:20-26 [normalize_lineseps].  On POSIX os.linesep is a newline, so that only
    the second replacement, of carriage return and newline, does anything. *)
Definition cr : ascii := "013"%char.
Fixpoint normalize (s : string) : string :=
  match s with
  | String a (String b r as s') =>
      if Ascii.eqb a cr && Ascii.eqb b nl then String nl (normalize r) else String a (normalize s')
  | _ => s
  end.

(** Expectations: a text, a compiled pattern (numbered), an iterable of expectations, or
    anything else. *)
Inductive expect := XText (s : string) | XPattern (r : nat) | XSeq (l : list expect) | XOther.

(** A matcher: from a position on, where the match begins and ends. *)
Definition matcher_of (A : Type) := A -> nat -> option (nat * nat).

(** The loops of text.py:69-80 and 124-136 [_match], after the first matcher: [ms] are the
    tail matchers, [e] is [end]. *)
Fixpoint tail_match {A} (strict : bool) (ms : list (matcher_of A)) (x : A) (e : nat) : option nat :=
  match ms with
  | [] => Some e
  | m :: ms' =>
      match m x e with
      | None => None
      | Some (i, j) => if (i <? e) || (strict && negb (i =? e)) then None else tail_match strict ms' x j
      end
  end.
Definition seq_match {A} (strict : bool) (m : matcher_of A) (ms : list (matcher_of A)) : matcher_of A :=
  fun x start =>
    match m x start with
    | None => None
    | Some (i, j) =>
        if (i <? start) || (strict && negb (i =? start)) then None
        else (fun e => (i, e)) <$> tail_match strict ms x j
    end.

Section re.
(** [pattern.search(text, pos)] and [pattern.match(text, pos)]: begin and end of the match. *)
Context (re_search re_match : nat -> string -> nat -> option (nat * nat)).

(** ** Texts *)
(** text.py:94-105 *)
Definition text_match (strict : bool) (s : string) : matcher_of string := fun text start =>
  let text := normalize text in
  if strict then if String.eqb (drop_str start text) s then Some (start, start + String.length s) else None
  else (fun i => (i, i + String.length s)) <$> find_from s text start.
(** text.py:107-117 *)
Definition pattern_match (strict : bool) (r : nat) : matcher_of string := fun text start =>
  (if strict then re_match else re_search) r (normalize text) start.
(** text.py:85-138 [build_text_match]; ValueError for an empty iterable (there is no first
    matcher) and for anything else. *)
Fixpoint build_text_match (strict : bool) (e : expect) : res (matcher_of string) :=
  match e with
  | XText s => Ok (text_match strict s)
  | XPattern r => Ok (pattern_match strict r)
  | XSeq l =>
      res_bind ((fix go (l : list expect) : res (list (matcher_of string)) :=
                   match l with
                   | [] => Ok []
                   | e :: l' => res_bind (build_text_match false e) (fun m => res_bind (go l') (fun ms => Ok (m :: ms)))
                   end) l) (fun ms =>
        match ms with
        | [] => Exn XValue
        | m :: ms' => Ok (fun text start => seq_match strict m ms' (normalize text) start)
        end)
  | XOther => Exn XValue
  end.

(** ** Lines *)
(** [next((i, i + 1) for i, line in enumerate(lines[start:], start=start) if ok(line))] *)
Fixpoint first_line (ok : string -> bool) (lines : list string) (i : nat) : option (nat * nat) :=
  match lines with
  | [] => None
  | line :: lines' => if ok line then Some (i, S i) else first_line ok lines' (S i)
  end.
(** text.py:38-49 and 51-62, where [all_ok] is used if strict, and [ok] otherwise *)
Definition line_match (strict : bool) (all_ok ok : string -> bool) : matcher_of (list string) := fun lines start =>
  if strict then
    if forallb all_ok (drop start lines) then Some (start, start + length (drop start lines)) else None
  else first_line ok (drop start lines) start.
Definition re_ok (r : nat) (line : string) : bool := match re_match r line 0 with Some _ => true | None => false end.
(** text.py:29-82 [build_line_match].  (The matcher of a pattern requires the argument
    [start], which expect_output does not give: see [expect_output] below.) *)
Fixpoint build_line_match (strict : bool) (e : expect) : res (matcher_of (list string)) :=
  match e with
  | XText s => Ok (line_match strict (String.eqb s) (contains s))
  | XPattern r => Ok (line_match strict (re_ok r) (re_ok r))
  | XSeq l =>
      res_bind ((fix go (l : list expect) : res (list (matcher_of (list string))) :=
                   match l with
                   | [] => Ok []
                   | e :: l' => res_bind (build_line_match false e) (fun m => res_bind (go l') (fun ms => Ok (m :: ms)))
                   end) l) (fun ms =>
        match ms with
        | [] => Exn XValue
        | m :: ms' => Ok (seq_match strict m ms')
        end)
  | XOther => Exn XValue
  end.

(** ** expect_output *)
(** [remove_ansi_escape_sequences] (osrf_pycommon), an arbitrary function, and
    [str.splitlines()]. *)
Context (strip_ansi : string -> string) (splitlines : string -> list string).
(** What is given, and what is expected: the arguments that are not None. *)
Definition is_pattern (e : expect) : bool := match e with XPattern _ => true | _ => false end.
(** output.py:89-134 [expect_output] *)
Definition expect_output (text : option string) (lines : option (list string)) (etext elines : option expect)
    (strip strict : bool) : res bool :=
  let some {A} (o : option A) := match o with Some _ => true | None => false end in
  if Bool.eqb (some text) (some lines) then Exn XValue
  else if Bool.eqb (some etext) (some elines) then Exn XValue
  else
    let clean t := if strip then strip_ansi t else t in
    match etext, elines with
    | Some e, _ =>
        let t := match text with Some t => t | None => join (String nl "") (default [] lines) end in
        res_bind (build_text_match strict e) (fun m => Ok (some (m (clean t) 0)))
    | None, Some e =>
        res_bind (build_line_match strict e) (fun m =>
          let ls := match lines with Some ls => ls | None => splitlines (default "" text) end in
          if is_pattern e then Exn XType       (* _match() misses the argument start, text.py:52 *)
          else Ok (some (m (map clean ls) 0)))
    | None, None => Exn XValue
    end.

(** ** assertInStream *)
(** assert_output.py:29-107: passes, raises an AssertionError, raises a ValueError, or raises
    what [resolveProcesses] raises.  [filter]: output_filter, the identity if there is none. *)
Inductive averdict := APasses | AFails | AValue | AUnresolved (r : resolved).
(** assert_output.py:84-91: the output of a process on a stream *)
Definition stream_output (stdout : bool) (name : string) (h : ioh) : string :=
  match ih_get name h with
  | Ok es => concat_str (map io_text (List.filter (fun e => Bool.eqb (io_stdout e) stdout) es))
  | _ => ""
  end.
Definition assert_in_stream (det : nat -> details) (h : ioh) (e : expect) (q : pquery) (args : cmdargs)
    (filter : string -> string) (strict strip : bool) (stream : string) : averdict :=
  match resolve det (ih_processes h) q args strict with
  | Procs l =>
      match build_text_match false e with
      | Ok m =>
          let known := String.eqb stream "stdout" || String.eqb stream "stderr" in
          if negb known then match l with [] => AFails | _ => AValue end
          else
            let good p :=
              let t := stream_output (String.eqb stream "stdout") (de_name (det p)) h in
              let t := if strip then strip_ansi t else t in
              match m (filter t) 0 with Some _ => true | None => false end in
            if existsb good l then APasses else AFails
      | _ => AValue
      end
  | r => AUnresolved r
  end.
End re.

(** basic_output_filter, output.py:35-65, given the lines with their ends
    ([output.splitlines(keepends=True)]); [pat r line]: pattern [r] matches at the beginning. *)
Definition output_filter (prefixes : list string) (patterns : list nat) (pat : nat -> string -> bool) (lines : list string) : string :=
  concat_str (List.filter (fun line => negb (existsb (fun p => starts_with p line) prefixes) && negb (existsb (fun r => pat r line) patterns)) lines).
