(** Model of the substitutions that can be written in text, and of those that use the world
    outside of launch: the parse methods in launch/launch/substitutions/*.py (with the names of
    their @expose_substitution), command.py, find_executable.py, file_content.py and
    python_expression.py. *)
From Verif Require Export Subst SubstText.

(** ** The parse methods *)
(** Classes that are not in [subst] are [SFun] with these numbers. *)
Definition fid_command : nat := 100.       (* arguments: command, on_stderr *)
Definition fid_find_exec : nat := 101.     (* name *)
Definition fid_file_content : nat := 102.  (* path *)
Definition fid_eval : nat := 103.          (* every module, then the expression *)
Definition fid_log_dir : nat := 104.
(** str.split(',') *)
Fixpoint split_at (sep : ascii) (cur : string) (s : string) : list string :=
  match s with
  | EmptyString => [cur]
  | String c s' => if Ascii.eqb c sep then cur :: split_at sep "" s' else split_at sep (cur ++ String c "")%string s'
  end.
Definition module_names (t : string) : list string := map strip (split_at "," "" t).
(** python_expression.py:61-86.  Performing anything but a text without a context is an
    AttributeError (simplified: LaunchLogDir, which needs no context, too). *)
Definition parse_eval (data : list (list subst)) : res subst :=
  match data with
  | [e] => Ok (SFun fid_eval [[SText "math"]; e])
  | [e; ms] =>
      match ms with
      | [] => Ok (SFun fid_eval [e])
      | SText t :: _ => Ok (SFun fid_eval (map (fun m => [SText m]) (module_names t) ++ [e]))
      | _ => Exn XAttr
      end
  | _ => Exn XType
  end.
(** The names, with parse and the call of the class with what parse gives (expose.py:42-54). *)
Definition exposed (name : string) : option (list (list subst) -> res subst) :=
  let table : list (string * (list (list subst) -> res subst)) :=
    [ ("anon", fun d => match d with [n] => Ok (SAnonName n) | _ => Exn XType end);          (* anon_name.py:44-48 *)
      ("not", fun d => match d with [v] => Ok (SNot v) | _ => Exn XType end);                (* boolean_substitution.py:42-46 *)
      ("and", fun d => match d with [l; r] => Ok (SAnd l r) | _ => Exn XType end);           (* 79-83 *)
      ("or", fun d => match d with [l; r] => Ok (SOr l r) | _ => Exn XType end);             (* 125-129 *)
      ("any", fun _ => Exn XType);           (* 177-180: AnySubstitution has no parameter called args *)
      ("all", fun _ => Exn XType);           (* 223-226 *)
      ("command", fun d => match d with      (* command.py:72-80 *)
                           | [c] => Ok (SFun fid_command [c; [SText "fail"]])
                           | [c; e] => Ok (SFun fid_command [c; e])
                           | _ => Exn XValue end);
      ("env", fun d => match d with          (* environment_variable.py:65-72 *)
                       | [n] => Ok (SEnvVar n None)
                       | [n; v] => Ok (SEnvVar n (Some v))
                       | _ => Exn XType end);
      ("equals", fun d => match d with [l; r] => Ok (SEquals l r) | _ => Exn XType end);     (* equals_substitution.py:97-101 *)
      ("file-content", fun d => match d with [p] => Ok (SFun fid_file_content [p]) | _ => Exn XAttr end);  (* file_content.py:43-48 *)
      ("find-exec", fun d => match d with [n] => Ok (SFun fid_find_exec [n]) | _ => Exn XAttr end);        (* find_executable.py:45-50 *)
      ("if", fun d => match d with           (* if_else_substitution.py:67-86 *)
                      | [c; i] => Ok (SIfElse c i [SText ""])
                      | [c; i; e] => Ok (SIfElse c i e)
                      | _ => Exn XType end);
      ("var", fun d => match d with          (* launch_configuration.py:68-76 *)
                       | [n] => Ok (SLaunchConfig n None)
                       | [n; v] => Ok (SLaunchConfig n (Some v))
                       | _ => Exn XType end);
      ("launch_log_dir", fun d => match d with [] => Ok (SFun fid_log_dir []) | _ => Exn XType end);       (* launch_log_dir.py:37-41 *)
      ("log_dir", fun d => match d with [] => Ok (SFun fid_log_dir []) | _ => Exn XType end);
      ("not-equals", fun d => match d with [l; r] => Ok (SNotEquals l r) | _ => Exn XType end);            (* equals_substitution.py:97-101 *)
      ("eval", parse_eval);
      ("filename", fun d => match d with [] => Ok SThisFile | _ => Exn XType end);           (* this_launch_file.py:36-40 *)
      ("dirname", fun d => match d with [] => Ok SThisDir | _ => Exn XType end) ] in         (* this_launch_file_dir.py:36-40 *)
  option_map snd (List.find (fun x => String.eqb (fst x) name) table).
(** parse_substitution in launch *)
Definition parse_text (s : string) : res (list subst) := parse_substitution SText exposed s.

(** ** Command *)
(** What the system does when it is asked to run a program: not found, another exception, or the
    program ends with a code after it has written pieces of output (true: to stderr). *)
Inductive ran := RNotFound | RRaises (e : exn) | RExits (code : Z) (out : list (bool * string)).
(** str.replace of subprocess.Popen._translate_newlines: first CR LF by LF, then CR by LF. *)
Definition cr : ascii := "013"%char.
Fixpoint replace_crlf (s : string) : string :=
  match s with
  | EmptyString => EmptyString
  | String a r =>
      match r with
      | String b r' => if Ascii.eqb a cr && Ascii.eqb b nl then String nl (replace_crlf r') else String a (replace_crlf r)
      | EmptyString => s
      end
  end.
Fixpoint replace_cr (s : string) : string :=
  match s with EmptyString => EmptyString | String a r => String (if Ascii.eqb a cr then nl else a) (replace_cr r) end.
Definition universal (s : string) : string := replace_cr (replace_crlf s).
(** What is read from the pipes: of the pieces that go to one. *)
Definition piped (keep : bool -> bool) (out : list (bool * string)) : string :=
  String.concat "" (map snd (List.filter (fun x : bool * string => keep (fst x)) out)).
(** What happens: the runs, with their argv and whether stderr goes to the pipe of stdout;
    whether a warning is logged; what is returned. *)
Record command_done := { cm_runs : list (list string * bool); cm_warned : bool; cm_result : res string }.
Section outside.
Context (w : world) (prog : list string -> ran) (decodes : string -> bool).
(** command.py:107-140, not on Windows *)
Definition run_command (argv : list string) (mode : string) : command_done :=
  if existsb (String.eqb mode) ["fail"; "ignore"; "warn"; "capture"] then
    let capture := String.eqb mode "capture" in
    match argv with
    | [] => {| cm_runs := []; cm_warned := false; cm_result := Exn XIndex |}       (* args[0] of subprocess *)
    | _ =>
        let ended warned r := {| cm_runs := [(argv, capture)]; cm_warned := warned; cm_result := r |} in
        match prog argv with
        | RNotFound => ended false (Exn XSubst)
        | RRaises e => ended false (Exn e)
        | RExits code out =>
            let stdout := piped (fun err => negb err || capture) out in
            let stderr := piped (fun err => err && negb capture) out in
            if decodes stdout && decodes stderr then
              if negb (Z.eqb code 0) then ended false (Exn XSubst)
              else if String.eqb (universal stderr) "" then ended false (Ok (universal stdout))
              else if String.eqb mode "fail" then ended false (Exn XSubst)
              else ended (String.eqb mode "warn") (Ok (universal stdout))
            else ended false (Exn XValue)                                          (* UnicodeDecodeError *)
        end
    end
  else {| cm_runs := []; cm_warned := false; cm_result := Exn XSubst |}.
(** 96-106 *)
Definition perform_command (command on_stderr : list subst) (c : ctx) : ctx * command_done :=
  let failed {A} (r : res A) := {| cm_runs := []; cm_warned := false; cm_result := match r with Ok _ => OutOfFuel | Exn e => Exn e | OutOfFuel => OutOfFuel end |} in
  let '(c, r) := perform_substitutions w command c in
  match r with
  | Ok text =>
      match shlex_split text with
      | Ok argv =>
          let '(c, r) := perform_substitutions w on_stderr c in
          match r with Ok mode => (c, run_command argv mode) | _ => (c, failed r) end
      | r => (c, failed r)
      end
  | _ => (c, failed r)
  end.

(** ** FindExecutable, FileContent *)
(** find_executable.py:60-67; [which]: osrf_pycommon.process_utils.which *)
Definition perform_find (which : string -> option string) (name : list subst) (c : ctx) : ctx * res string :=
  let '(c, r) := perform_substitutions w name c in
  (c, n ← r; match which n with Some p => Ok p | None => Exn XSubst end).
(** file_content.py:61-69; reading gives a text, FileNotFoundError ([None]), or another exception. *)
Definition perform_content (read : string -> option (res string)) (path : list subst) (c : ctx) : ctx * res string :=
  let '(c, r) := perform_substitutions w path c in
  (c, p ← r; match read p with Some t => t | None => Exn XSubst end).

(** ** PythonExpression *)
Record pmodule (V : Type) := { pm_name : string; pm_vars : gmap string V; pm_self : V }.
(** python_expression.py:104-118.  [import]: importlib.import_module; [eval]: eval with these
    local names and str of the result.  The result also has the names of the modules that were
    asked for. *)
Definition expression_locals {V} (ms : list (pmodule V)) : gmap string V :=
  fold_left (fun l m => <[pm_name V m := pm_self V m]> (if String.eqb (pm_name V m) "math" then pm_vars V m ∪ l else l)) ms ∅.
Fixpoint perform_modules (l : list subst) (c : ctx) : ctx * res (list string) :=
  match l with
  | [] => (c, Ok [])
  | x :: l' =>
      let '(c, r) := perform w x c in
      match r with
      | Ok t => let '(c, r) := perform_modules l' c in (c, ts ← r; Ok (t :: ts))
      | Exn e => (c, Exn e)
      | OutOfFuel => (c, OutOfFuel)
      end
  end.
Definition perform_eval {V} (import : string -> res (pmodule V)) (eval : string -> gmap string V -> res string)
    (expression modules : list subst) (c : ctx) : ctx * res string :=
  let '(c, r) := perform_modules modules c in
  match (names ← r; mapm import names) with
  | Ok ms => let '(c, r) := perform_substitutions w expression c in (c, e ← r; eval e (expression_locals ms))
  | Exn e => (c, Exn e)
  | OutOfFuel => (c, OutOfFuel)
  end.
End outside.
