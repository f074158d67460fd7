(** The properties of what a process action runs (C90). *)
From Coq Require Import ssreflect.
From Verif Require Import SubstFacts SpecCommand ExWorld NameFacts CommandFacts.

(** ** C90 *)
(** Executing a process action fixes what it runs: the words of the prefix, if one applies, and
    behind them the words of the command, one for each text; the name, which without the option is
    that of the program (the first word, so that of the prefix if there is one), with the next
    number; and the working directory, if the option is given. *)
Theorem C90_executed : forall (w : world) a c oe (s s' : st) l, exec_proc w a c oe s = (s', Ok l) -> config a s = None ->
  exists d p, will_run w (cx s) c (pcount s + 1) d /\ procs s' !! a = Some p /\ x_det p = Some d.
Proof. intros w a c oe s s' l H Hn. eapply exec_runs; [exact H|]. move: Hn. rewrite /config. by destruct (procs s !! a). Qed.
Print Assumptions C90_executed.
(** The events about the process say what its options asked for. *)
Theorem C90_announced : forall (w : world) a d (s : st), reachable w s -> announced_as a d s ->
  exists c c0 k d0, config a s = Some c /\ will_run w c0 c k d0 /\ same_but_pid d0 d.
Proof.
  intros w a d s Hr Ha. destruct (announced_prepared w a d s Hr Ha) as (c & s1 & s2 & d0 & H1 & H2 & H3).
  exists c, (cx s1), (pcount s1 + 1)%Z, d0. split; [exact H1|]. split; [by eapply prepare_runs|exact H3].
Qed.
Print Assumptions C90_announced.
(** Nothing else is refused than an empty command (with the prefix that is configured, or with a
    given prefix of no words and no name) and options that raise when they are evaluated. *)
Theorem C90_refused : forall (w : world) c (s s' : st) e, prepare_executable w c s = (s', Exn e) ->
  some_text_raises w (cx s) c e \/
  (e = XIndex /\ p_cmd c = [] /\ (p_prefix c = None \/ exists l t, p_prefix c = Some l /\ p_name c = None /\ says w (cx s) l t /\ w_shlex w t = [])).
Proof. exact prepare_refused. Qed.
Print Assumptions C90_refused.
(** There is always at most one thing the configured prefix can do: it applies or it does not. *)
Theorem C90_prefix_decided : forall (w : world) c first rest, exists b, last_component first b /\
  forall pre, prefix_words w c (first :: rest) None pre <->
    pre = if w_rematch w (conf_or_empty c "launch-prefix-filter") b then w_shlex w (conf_or_empty c "launch-prefix") else [].
Proof. exact prefix_decided. Qed.
Print Assumptions C90_prefix_decided.

(** A world where text is split at blanks and a pattern matches the names it is the start of. *)
Fixpoint ex_split (acc : string) (s : string) : list string :=
  match s with
  | EmptyString => match acc with EmptyString => [] | _ => [acc] end
  | String c s' => if Ascii.eqb c " " then match acc with EmptyString => [] | _ => [acc] end ++ ex_split "" s' else ex_split (acc ++ String c "") s'
  end.
Definition ex_w : world := mkWorld
  (w_yaml w0) (w_sfun w0) (w_rand w0) (w_cond w0) (w_match w0) (w_tgt w0) (w_pmatch w0) (w_fun w0) (w_load w0) (w_loc w0) (w_abspath w0)
  (w_launchdir w0) (ex_split "") String.prefix (w_output_ok w0).
Definition ex_cmd (cmd : list string) (prefix name cwd : option string) : pcfg :=
  mkPcfg (map (fun t => [SText t]) cmd) (option_map (fun t => [SText t]) prefix) (option_map (fun t => [SText t]) name) (option_map (fun t => [SText t]) cwd)
    None None (BV false) None 0 false [SText "log"] [SText "5"] [SText "5"] false.
Definition ex_details (conf : list (string * string)) (o : pcfg) : res (string * list string * option string) :=
  match prepare_executable ex_w o (s0 <| cx := cx s0 <| lc := list_to_map conf |> |>) with
  | (_, Ok d) => Ok (d_name d, d_cmd d, d_cwd d)
  | (_, Exn e) => Exn e
  | (_, OutOfFuel) => OutOfFuel
  end.
Example C90_example :
  ex_details [] (ex_cmd ["/opt/talker"; "a b"] None None None) = Ok ("talker-1", ["/opt/talker"; "a b"], None) /\
  ex_details [] (ex_cmd ["/opt/talker"; "a b"] (Some "/usr/bin/gdb --args") None (Some "/tmp")) = Ok ("gdb-1", ["/usr/bin/gdb"; "--args"; "/opt/talker"; "a b"], Some "/tmp") /\
  ex_details [("launch-prefix", "strace -f"); ("launch-prefix-filter", "talk")] (ex_cmd ["/opt/talker"] None (Some "t") None) = Ok ("t-1", ["strace"; "-f"; "/opt/talker"], None) /\
  ex_details [("launch-prefix", "strace -f"); ("launch-prefix-filter", "talk")] (ex_cmd ["/talk/listener"] None None None) = Ok ("listener-1", ["/talk/listener"], None) /\
  ex_details [("launch-prefix", "strace -f")] (ex_cmd ["/opt/talker"] (Some "nice") None None) = Ok ("nice-1", ["nice"; "/opt/talker"], None) /\
  ex_details [] (ex_cmd [] None (Some "n") None) = Exn XIndex /\ ex_details [] (ex_cmd [] (Some "ls") None None) = Ok ("ls-1", ["ls"], None).
Proof. vm_compute. by repeat split. Qed.
(** It is not true that the name defaults to that of the executable, the first item of the command
    (as the documentation of Executable says): with a prefix it is that of the prefix. *)
Theorem C90_name_refuted : exists (w : world) c (s s' : st) d first, prepare_executable w c s = (s', Ok d) /\ p_name c = None /\
  hd_error (p_cmd c) = Some [SText first] /\ forall b, last_component first b -> ~ numbered d b (pcount s + 1).
Proof.
  destruct (prepare_executable ex_w (ex_cmd ["/opt/talker"] (Some "gdb") None None) s0) as [s' [d|e|]] eqn:E; [|vm_compute in E; congruence|vm_compute in E; congruence].
  assert (d_name d = "gdb-1") as Hd by (vm_compute in E; by injection E as _ <-).
  eexists _, _, _, s', d, "/opt/talker"%string. split; [exact E|]. clear E. split; [done|]. split; [done|]. intros b Hb.
  assert (b = "talker"%string) as ->. { eapply last_fun; [exact Hb|]. exact (basename_last "/opt/talker"). }
  rewrite /numbered Hd. done.
Qed.
Print Assumptions C90_name_refuted.
