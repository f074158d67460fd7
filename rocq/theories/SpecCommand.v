(** What a process action runs (C90). *)
From Verif Require Export SpecNames.

(** The value of a launch configuration, empty if there is none. *)
Definition conf_or_empty (c : ctx) (k : string) : string := default ""%string (lc c !! k).
(** The last component of a path: what comes after the last slash. *)
Definition no_slash (b : string) : Prop := ~ In "/"%char (String.list_ascii_of_string b).
Definition last_component (p b : string) : Prop := no_slash b /\ (p = b \/ exists dir, p = (dir ++ "/" ++ b)%string).
(** [l] says [t] in a context that differs from [c] only in what evaluating other texts added. *)
Definition says (w : world) (c : ctx) (l : list subst) (t : string) : Prop :=
  exists c1 c2, same_variables c c1 /\ perform_substitutions w l c1 = (c2, Ok t).
(** The words put before the words [words] of the command: those of the prefix option if it is
    given.  Otherwise those of the configuration launch-prefix, if the name of the program matches
    the configuration launch-prefix-filter. *)
Inductive prefix_words (w : world) (c : ctx) (words : list string) : option (list subst) -> list string -> Prop :=
| pw_given l t : says w c l t -> prefix_words w c words (Some l) (w_shlex w t)
| pw_conf first rest b : words = first :: rest -> last_component first b ->
    w_rematch w (conf_or_empty c "launch-prefix-filter") b = true ->
    prefix_words w c words None (w_shlex w (conf_or_empty c "launch-prefix"))
| pw_not first rest b : words = first :: rest -> last_component first b ->
    w_rematch w (conf_or_empty c "launch-prefix-filter") b = false -> prefix_words w c words None [].
(** Executing the options [o] in the context [c] gives the process details [d], with number [k]. *)
Definition will_run (w : world) (c : ctx) (o : pcfg) (k : Z) (d : pdet) : Prop :=
  (exists words pre c', evals w (p_cmd o) c c' words /\ prefix_words w c words (p_prefix o) pre /\ d_cmd d = pre ++ words)
  /\ (exists n, numbered d n k /\ match p_name o with
       | Some l => says w c l n
       | None => exists program args, d_cmd d = program :: args /\ last_component program n
       end)
  /\ match p_cwd o, d_cwd d with
     | Some l, Some dir => says w c l dir
     | None, None => True
     | _, _ => False
     end.
(** The texts of the options, and that one of them raises [e]. *)
Definition texts_of_options (o : pcfg) : list (list subst) :=
  p_cmd o ++ match p_prefix o with Some l => [l] | None => [] end ++ match p_name o with Some l => [l] | None => [] end
  ++ match p_cwd o with Some l => [l] | None => [] end
  ++ concat (map (fun kv => [fst kv; snd kv]) (default [] (p_env o) ++ default [] (p_addenv o))).
Definition some_text_raises (w : world) (c : ctx) (o : pcfg) (e : exn) : Prop :=
  exists l c1 c2, In l (texts_of_options o) /\ same_variables c c1 /\ perform_substitutions w l c1 = (c2, Exn e).
