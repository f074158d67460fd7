(** Theorems about the routing of process output (C53) and about log directories (C54). *)
From Coq Require Import ssreflect.
From Verif Require Import SpecLogging StrFacts LoggingFacts LoggingLaws.

(** C53: after any history, the output loggers of a new process name have exactly the
    documented sinks, each once, and keep them whatever is done with other loggers. *)
Theorem C53_routed : forall other l made pname c st' s,
  let st := lrun other l log_start in
  (forall s, handlers_of st (logger_of pname s) = []) -> pname <> "launch" -> is_dict c ->
  get_output_loggers made pname c st = Ok st' ->
  forall l', Forall (fun mo => not_about (logger_of pname s) (snd mo)) l' ->
  exists (dir : place -> string) ps, NoDup ps /\ (forall p, In p ps <-> routes c s p) /\
    sinks (lrun other l' st') (logger_of pname s) = map (fun p => place_sink (dir p) pname s p) ps.
Proof. exact routing_law. Qed.
Print Assumptions C53_routed.

(** A line logged then is written once to each documented place and nowhere else, as it is,
    or with a time stamp in the launch log. *)
Theorem C53_lines : forall other l made pname c st' s r,
  let st := lrun other l log_start in
  (forall s, handlers_of st (logger_of pname s) = []) -> pname <> "launch" -> is_dict c ->
  get_output_loggers made pname c st = Ok st' -> lr_name r = logger_of pname s ->
  exists (dir : place -> string) ps, NoDup ps /\ (forall p, In p ps <-> routes c s p) /\
    ls_written (log_info other r st') = ls_written st' ++ map (fun p => (place_sink (dir p) pname s p, place_text p r)) ps.
Proof. exact lines_law. Qed.
Print Assumptions C53_lines.

(** A valid configuration is accepted; anything else raises a ValueError. *)
Theorem C53_valid : forall made pname c st, is_dict c ->
  (valid c -> exists st', get_output_loggers made pname c st = Ok st') /\
  (~ valid c -> get_output_loggers made pname c st = Exn XValue).
Proof. exact invalid_law. Qed.
Print Assumptions C53_valid.

(** Configuring one process does not change where any other logger writes. *)
Theorem C53_isolated : forall other l made pname c lg,
  let st := lrun other l log_start in
  (forall s, logger_of pname s <> lg) -> sinks (lstep other made (LOutput pname c) st) lg = sinks st lg.
Proof. exact isolated_law. Qed.
Print Assumptions C53_isolated.

(** Whatever was called how often, no logger writes a line twice to one sink. *)
Theorem C53_once : forall other l lg, NoDup (sinks (lrun other l log_start) lg).
Proof. exact once_law. Qed.
Print Assumptions C53_once.

(** Unless the directory is set by hand, all files are in the one log directory, which is one
    of those made for it. *)
Theorem C53_directory : forall other l lg d n, Forall (fun mo => keeps_dir (snd mo)) l ->
  In (ToFile d n) (sinks (lrun other l log_start) lg) -> ls_dir (lrun other l log_start) = Some d /\ In d (map fst l).
Proof. exact directory_law. Qed.
Print Assumptions C53_directory.

(** Processes whose names end in their number share no file but the launch log. *)
Theorem C53_separate : forall d p s x d' q s' y, numbered p -> numbered q -> shared x = false ->
  place_sink d p s x = place_sink d' q s' y -> p = q.
Proof. exact separate_law. Qed.
Print Assumptions C53_separate.

Definition ex_other (f : string) (r : lrec) : string := (f ++ "|" ++ lr_msg r)%string.
(** Finding: configuring a name again adds sinks and never removes one: after 'screen' and
    then 'own_log' the output still goes to the screen. *)
Theorem C53_again_refuted : exists st1 st2,
  get_output_loggers "/d" "p-1" (OAlias "screen") log_start = Ok st1 /\
  get_output_loggers "/d" "p-1" (OAlias "own_log") st1 = Ok st2 /\
  ~ routes (OAlias "own_log") Stdout Screen /\ In ToScreen (sinks st2 (logger_of "p-1" Stdout)).
Proof.
  eexists _, _. split; [vm_compute; reflexivity|]. split; [vm_compute; reflexivity|]. split.
  - intros H. inversion H.
  - vm_compute. by left.
Qed.
Print Assumptions C53_again_refuted.

(** Finding: the combined log of a process called "launch" is the launch log itself, whose
    other entries lose their format. *)
Theorem C53_launch_refuted : exists st1 st2, 
  get_logger "/d" "launch.user" log_start = st1 /\
  get_output_loggers "/d" "launch" (OAlias "own_log") st1 = Ok st2 /\
  let r := {| lr_name := "launch.user"; lr_created := "1.0"; lr_msg := "hello" |} in
  In (ToFile "/d" "launch.log", "{created:.7f} [{levelname}] [{name}]: {msg}|hello") (ls_written (log_info ex_other r st1)) /\
  In (ToFile "/d" "launch.log", "hello") (ls_written (log_info ex_other r st2)).
Proof.
  eexists _, _. split; [vm_compute; reflexivity|]. split; [vm_compute; reflexivity|].
  vm_compute. by repeat split; auto.
Qed.
Print Assumptions C53_launch_refuted.

(** Finding: setting the log format later also changes the logs of processes. *)
Theorem C53_format_refuted : exists st1,
  get_output_loggers "/d" "p-1" (OAlias "own_log") log_start = Ok st1 /\
  let r := {| lr_name := "p-1-stdout"; lr_created := "1.0"; lr_msg := "hello" |} in
  In (ToFile "/d" "p-1.log", "hello") (ls_written (log_info ex_other r st1)) /\
  ~ In (ToFile "/d" "p-1.log", "hello") (ls_written (log_info ex_other r (set_log_format (FOther "x") st1))).
Proof.
  eexists. split; [vm_compute; reflexivity|]. vm_compute. split; [by auto|].
  intros [H|[H|[]]]; congruence.
Qed.
Print Assumptions C53_format_refuted.

(** A history that meets the hypotheses: two processes with different options. *)
Example C53_ex :
  let st := lrun ex_other [("/d", LLogger "launch"); ("/d", LOutput "a-1" (OAlias "log"))] log_start in
  handlers_of st (logger_of "b-2" Stdout) = [] /\ handlers_of st (logger_of "b-2" Stderr) = [] /\
  match get_output_loggers "/e" "b-2" (ODict [("stdout", DOne "own_log"); ("both", DMany ["screen"; "own_log"])]) st with
  | Ok st' =>
      sinks st' "b-2-stdout" = [ToScreen; ToFile "/d" "b-2-stdout.log"; ToFile "/d" "b-2.log"] /\
      sinks st' "b-2-stderr" = [ToScreen; ToFile "/d" "b-2.log"] /\
      sinks st' "a-1-stdout" = [ToFile "/d" "launch.log"] /\
      sinks st' "a-1-stderr" = [ToScreen; ToFile "/d" "launch.log"] /\
      ls_written (log_info ex_other {| lr_name := "b-2-stderr"; lr_created := "1.5"; lr_msg := "oops" |} st')
        = [(ToScreen, "oops"); (ToFile "/d" "b-2.log", "oops")]
  | _ => False
  end.
Proof. vm_compute. by repeat split. Qed.
Example C53_ex_invalid : ~ valid (ODict [("stdin", DOne "screen")]) /\ valid (ODict [("stderr", DMany [])]) /\
  routes (ODict [("both", DMany ["log"])]) Stderr LaunchLog /\ numbered "talker-12".
Proof.
  split; [|split; [|split]].
  - intros H. inversion H as [|l Hl]; subst. destruct (Hl "stdin" (DOne "screen") (or_introl eq_refl)) as [Hin _].
    simpl in Hin. repeat (destruct Hin as [Hin|Hin]; [done|]). done.
  - constructor. intros k ds [[= <- <-]|[]]. split; [by right; left|]. by intros d [].
  - eapply r_dict_log; [by left|by left|by left].
  - exists "talker-1", "2"%char. split; [done|]. simpl. auto.
Qed.

(** C54: callers on one host with one log root, of which no two with one process number call
    at the same time, get pairwise different directories that did not exist before, however
    their steps interleave and whatever the clock reads. *)
Theorem C54_unique : forall fs0 base host l,
  (forall p t, log_name base host p -> fs0 !! p <> Some (FLink t)) ->
  all_allowed base host {| ms_fs := fs0; ms_calls := [] |} l ->
  let s := mrun {| ms_fs := fs0; ms_calls := [] |} l in
  forall k p, returned s k p -> fs0 !! p = None /\ ms_fs s !! p = Some FDir /\ forall j, returned s j p -> j = k.
Proof. exact unique_law. Qed.
Print Assumptions C54_unique.

(** One call by itself makes the first of its names that is not a directory, which must not
    exist; it changes nothing else and ends as soon as the clock reads such a name. *)
Theorem C54_single : forall fuel m clock k fs r, make_unique fuel m clock k fs = r ->
  (forall p fs', r = Ok (p, fs') -> exists j, k <= j /\ p = candidate m (clock j) /\ fs !! p = None /\ fs' = <[p := FDir]> fs /\
     forall i, k <= i < j -> is_dir fs (candidate m (clock i)) = true) /\
  (forall j, k <= j < k + fuel -> is_dir fs (candidate m (clock j)) = false -> r <> OutOfFuel).
Proof. exact single_law. Qed.
Print Assumptions C54_single.

(** The link to the latest directory is renewed, unless a file or directory is there, and
    nothing else is touched. *)
Theorem C54_latest : forall base dir fs ok fs', renew_latest base dir fs = (ok, fs') ->
  (forall p, p <> path_join base "latest" -> fs' !! p = fs !! p) /\
  (ok = true <-> fs' !! path_join base "latest" = Some (FLink dir) /\ fs !! path_join base "latest" <> Some FDir /\ fs !! path_join base "latest" <> Some FFile) /\
  (ok = false -> fs' = fs).
Proof. exact latest_law. Qed.
Print Assumptions C54_latest.

(** Where the log directories are. *)
Theorem C54_where : forall normal env,
  (forall d, env !! "ROS_LOG_DIR" = Some d -> d <> "" -> logging_directory normal env = normal d) /\
  (forall h, (env !! "ROS_LOG_DIR" = None \/ env !! "ROS_LOG_DIR" = Some "") -> env !! "ROS_HOME" = Some h -> h <> "" ->
     logging_directory normal env = normal (path_join h "log")) /\
  ((env !! "ROS_LOG_DIR" = None \/ env !! "ROS_LOG_DIR" = Some "") -> (env !! "ROS_HOME" = None \/ env !! "ROS_HOME" = Some "") ->
     logging_directory normal env = normal "~/.ros/log").
Proof. exact where_law. Qed.
Print Assumptions C54_where.

(** Finding: two callers with one host name and one process number (two containers that share
    a directory, or two threads) can get the same directory. *)
Definition ex_maker (pid : string) : maker := {| mk_base := "/log"; mk_host := "h"; mk_pid := pid |}.
Theorem C54_race_refuted : exists l p,
  let s := mrun {| ms_fs := ∅; ms_calls := [] |} l in returned s 0 p /\ returned s 1 p.
Proof.
  exists [MStart (ex_maker "7") "t"; MStart (ex_maker "7") "t"; MStep 0 ""; MStep 1 ""; MStep 0 ""; MStep 1 ""], "/log/t-h-7".
  by split; eexists; split; vm_compute.
Qed.
Print Assumptions C54_race_refuted.

Definition ex_time (n : string) : string := ("2024-01-01-00-00-00-00000" ++ n)%string.
(** Two callers, one of which finds its first name taken. *)
Example C54_ex :
  let p := candidate (ex_maker "7") (ex_time "1") in
  let l := [MStart (ex_maker "7") (ex_time "1"); MStart (ex_maker "8") (ex_time "1"); MStep 0 (ex_time "2"); MStep 1 (ex_time "2");
            MStep 1 (ex_time "2"); MStep 0 (ex_time "2"); MStep 0 (ex_time "2")] in
  let fs0 := <[p := FDir]> ∅ in
  all_allowed "/log" "h" {| ms_fs := fs0; ms_calls := [] |} l /\
  map mc_pc (ms_calls (mrun {| ms_fs := fs0; ms_calls := [] |} l)) =
    [MReturned "/log/2024-01-01-00-00-00-000002-h-7"; MReturned "/log/2024-01-01-00-00-00-000001-h-8"].
Proof.
  split; [|by vm_compute].
  repeat split; try (intros k c Hk Hp); try done; simpl in Hk.
  destruct k as [|k]; simpl in Hk; [|done]. injection Hk as <-. done.
Qed.
