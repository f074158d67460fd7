(** Specifications for the theorems about the substitutions of launch that can be written in
    text and about those that use the world outside (C75-C77). *)
From Verif Require Export Exposed SpecSubstText SpecSubst SpecCmdline SpecNum.

(** ** Names with commas between *)
Definition stripped (m : string) : Prop := (forall c r, m = String c r -> is_space c = false) /\ (forall c r, m = (r ++ String c "")%string -> is_space c = false).
Definition no_comma (s : string) : Prop := forall a b, s <> (a ++ String "," b)%string.
(** [comma_separated t ms]: [t] is the names [ms], surrounded by white space, with commas between. *)
Inductive comma_separated : string -> list string -> Prop :=
| cs_last p m q : blank p -> blank q -> stripped m -> no_comma (p ++ m ++ q) -> comma_separated (p ++ m ++ q) [m]
| cs_more p m q t ms : blank p -> blank q -> stripped m -> no_comma (p ++ m ++ q) -> comma_separated t ms ->
    comma_separated ((p ++ m ++ q) ++ String "," t) (m :: ms).

(** ** Names and arguments *)
(** [writes name args x]: [$(name args)] is the substitution [x]. *)
Inductive writes : string -> list (list subst) -> subst -> Prop :=
| wr_var n : writes "var" [n] (SLaunchConfig n None)
| wr_var_default n d : writes "var" [n; d] (SLaunchConfig n (Some d))
| wr_env n : writes "env" [n] (SEnvVar n None)
| wr_env_default n d : writes "env" [n; d] (SEnvVar n (Some d))
| wr_not v : writes "not" [v] (SNot v)
| wr_and l r : writes "and" [l; r] (SAnd l r)
| wr_or l r : writes "or" [l; r] (SOr l r)
| wr_equals l r : writes "equals" [l; r] (SEquals l r)
| wr_not_equals l r : writes "not-equals" [l; r] (SNotEquals l r)
| wr_if c i : writes "if" [c; i] (SIfElse c i [SText ""])
| wr_if_else c i e : writes "if" [c; i; e] (SIfElse c i e)
| wr_anon n : writes "anon" [n] (SAnonName n)
| wr_filename : writes "filename" [] SThisFile
| wr_dirname : writes "dirname" [] SThisDir
| wr_log_dir : writes "log_dir" [] (SFun fid_log_dir [])
| wr_launch_log_dir : writes "launch_log_dir" [] (SFun fid_log_dir [])
| wr_find n : writes "find-exec" [n] (SFun fid_find_exec [n])
| wr_content p : writes "file-content" [p] (SFun fid_file_content [p])
| wr_command c : writes "command" [c] (SFun fid_command [c; [SText "fail"]])
| wr_command_mode c m : writes "command" [c; m] (SFun fid_command [c; m])
| wr_eval e : writes "eval" [e] (SFun fid_eval [[SText "math"]; e])
| wr_eval_none e : writes "eval" [e; []] (SFun fid_eval [e])
| wr_eval_modules e t ms rest : comma_separated t ms -> writes "eval" [e; SText t :: rest] (SFun fid_eval (map (fun m => [SText m]) ms ++ [e])).
(** What a node of the grammar is. *)
Inductive means : node -> subst -> Prop :=
| me_text t : means (NText t) (SText t)
| me_sub name args vs x : Forall2 (Forall2 means) args vs -> writes name vs x -> means (NSub name args) x.

(** ** Commands *)
(** [ready w command on_stderr c c' argv mode]: the command can be performed in [c] and split, and
    then [on_stderr] be performed, which gives these. *)
Definition ready (w : world) (command on_stderr : list subst) (c c' : ctx) (argv : list string) (mode : string) : Prop :=
  exists c1 t, perform_substitutions w command c = (c1, Ok t) /\ shlex_split t = Ok argv /\ perform_substitutions w on_stderr c1 = (c', Ok mode).
Definition modes : list string := ["fail"; "ignore"; "warn"; "capture"].
(** The program has written to stderr. *)
Definition complains (out : list (bool * string)) : Prop := exists t, In (true, t) out /\ t <> "".
(** [output capture out s]: [s] is what was written to stdout, and to stderr if [capture]. *)
Inductive output (capture : bool) : list (bool * string) -> string -> Prop :=
| op_nil : output capture [] ""
| op_out t out s : output capture out s -> output capture ((false, t) :: out) (t ++ s)
| op_err t out s : output capture out s -> output capture ((true, t) :: out) (if capture then t ++ s else s)%string.
(** Text with all line ends made newlines. *)
Inductive newlines : string -> string -> Prop :=
| nt_nil : newlines "" ""
| nt_crlf s t : newlines s t -> newlines (String cr (String nl s)) (String nl t)
| nt_cr s t : (forall r, s <> String nl r) -> newlines s t -> newlines (String cr s) (String nl t)
| nt_other c s t : c <> cr -> newlines s t -> newlines (String c s) (String c t).

(** ** Expressions *)
(** The names a module gives to an expression: its own, and what is in math. *)
Definition gives {V} (m : pmodule V) (n : string) (v : V) : Prop :=
  n = pm_name V m /\ v = pm_self V m \/ n <> pm_name V m /\ pm_name V m = "math" /\ pm_vars V m !! n = Some v.
(** What a name stands for: what the last module gives that gives it. *)
Definition visible {V} (ms : list (pmodule V)) (n : string) (v : V) : Prop :=
  exists pre m post, ms = pre ++ m :: post /\ gives m n v /\ forall m' v', In m' post -> ~ gives m' n v'.
