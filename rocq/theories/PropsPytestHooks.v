(** C84: launch tests run by pytest through the plugin of launch_testing. *)
From Verif Require Import SpecPytestHooks PytestHooksFacts TestRunFacts.

(** ** Which files are launch tests *)
(** If no other plugin takes the file, it becomes a launch test with all the marks of its entry
    point exactly when that is marked with launch_test. *)
Theorem C84_collected : forall init i others marks, alone others ->
  (makemodule init i others = Some (NLaunch marks) <-> marked i marks).
Proof.
  intros init i others marks Ha. rewrite collect_law. destruct i as [| |[ms|]].
  - split; [destruct init; discriminate|]. intros [H _]. discriminate H.
  - split; [intros []|]. intros [H _]. discriminate H.
  - split.
    + intros [(pre & post & E & _)|[_ [[Hm E]|[_ E]]]].
      * destruct (Ha ms (NLaunch marks)). rewrite E. apply in_app_iff. right. left. reflexivity.
      * injection E as ->. exact Hm.
      * destruct init; discriminate E.
    + intros Hm. pose proof Hm as [[= ->] _]. right. split; [exact (fun x => Ha marks x)|]. left. split; [exact Hm|reflexivity].
  - split; [destruct init; discriminate|]. intros [H _]. discriminate H.
Qed.
(** All other files are collected as pytest does it without the plugin; only an exception other
    than SyntaxError raised by the file itself ends the collection. *)
Theorem C84_others : forall init i others, alone others -> (forall marks, ~ marked i marks) ->
  makemodule init i others = match i with MRaises => None | _ => Some (if init then NPackage else NModule) end.
Proof.
  intros init i others Ha Hn. destruct i as [| |[ms|]]; try reflexivity.
  apply collect_law. right. split; [exact (fun x => Ha ms x)|]. right. split; [exact (Hn ms)|reflexivity].
Qed.
(** What another plugin makes of a file with an entry point, marked or not, comes first. *)
Theorem C84_plugins : forall init marks others pre n post, others marks = pre ++ Some n :: post -> (forall x, ~ In (Some x) pre) ->
  makemodule init (MModule (Some marks)) others = Some n.
Proof. intros init marks others pre n post E H. apply collect_law. left. exists pre, post. split; [exact E|exact H]. Qed.
Print Assumptions C84_collected. Print Assumptions C84_others. Print Assumptions C84_plugins.

(** ** What running one gives *)
(** A launch test passes exactly when its configuration is valid and each of its runs is good;
    so no run that failed, died or raised is ever passed over. *)
Theorem C84_passes : forall is_case valid runs,
  runtest is_case valid runs = IPass <-> valid = true /\ forall cases t, In (cases, t) runs -> good_run t.
Proof. exact pass_law. Qed.
(** The verdict is the one of the launch_test command for the same runs. *)
Theorem C84_agrees : forall is_case runs,
  match runtest is_case true runs with IPass => exit_code runs = 0%Z | IFailed _ => exit_code runs = 1%Z | IRaised => exit_code runs = 2%Z end.
Proof. exact runtest_code. Qed.
(** A failure names exactly the tests that failed or raised in a run that was not good, up to the
    first run that died, all of whose tests are named. *)
Theorem C84_report : forall is_case runs ran tests t, runtest is_case true runs = IFailed tests -> until_death runs ran ->
  (In t tests <-> is_case t = true /\ exists run, In run ran /\ ~ good_run (snd run) /\ blamed run t).
Proof.
  intros is_case runs ran tests t H Hu. unfold runtest in H. cbn [negb] in H. destruct (runner_run runs) as [rs|] eqn:E; [|discriminate H].
  destruct (existsb _ _); [|discriminate H]. injection H as <-. exact (reported_law is_case runs ran rs t E Hu).
Qed.
Theorem C84_ran : forall runs, exists ran, until_death runs ran.
Proof. exact until_total. Qed.
Print Assumptions C84_passes. Print Assumptions C84_agrees. Print Assumptions C84_report. Print Assumptions C84_ran.
(** Findings: a failure that names no test.  Unexpected successes are not looked at, nor errors
    outside of tests (as in setUpClass), and a run that died may have no tests. *)
Theorem C84_unnamed_refuted :
  (forall t is_case, runtest is_case true [([t], TWorks (WResults (tr_of [RStarted t; RGot OUnexpected t])))] = IFailed []) /\
  (forall t is_case, is_case t = false -> runtest is_case true [([], TWorks (WResults (tr_of [RGot OError t])))] = IFailed []) /\
  (forall is_case, runtest is_case true [([], TWorks WDied)] = IFailed []).
Proof.
  repeat split; try (intros; reflexivity). intros t is_case H. unfold runtest, reported. simpl. rewrite H. reflexivity.
Qed.
Print Assumptions C84_unnamed_refuted.

(** ** Arguments *)
(** The uses of the option add up: a name has the value it was last given in any of them. *)
Theorem C84_arguments : forall sets r, parse_args (launch_args sets) = Some r <->
  exists kvs, Forall2 (fun a kv => argument a (fst kv) (snd kv)) (concat sets) kvs /\
  map fst r = first_names (map fst kvs) /\ Forall (fun kv => last_value (fst kv) kvs = Some (snd kv)) r.
Proof. intros sets r. rewrite args_concat. exact (args_values_law (concat sets) r). Qed.
Print Assumptions C84_arguments.

(** ** Cases *)
Example C84_ex_collected : makemodule false (MModule (Some [("slow", 1); ("launch_test", 0)])) (fun _ => [None]) = Some (NLaunch [("slow", 1); ("launch_test", 0)]).
Proof. reflexivity. Qed.
Example C84_ex_others : makemodule false (MModule (Some [("slow", 1)])) (fun _ => [None]) = Some NModule /\ makemodule true MSyntax (fun _ => []) = Some NPackage /\
  makemodule false MRaises (fun _ => []) = None.
Proof. repeat split. Qed.
Example C84_ex_plugins : makemodule false (MModule (Some [("launch_test", 0)])) (fun _ => [None; Some (NOther 3); Some (NOther 4)]) = Some (NOther 3).
Proof. reflexivity. Qed.
Example C84_ex_report : runtest (Nat.leb 1) true
    [([1], TSkips); ([2; 3], TWorks (WResults (tr_of [RStarted 2; RGot OFailure 2; RGot OError 0; RStarted 3]))); ([4; 5], TWorks WDied); ([6], TWorks WDied)]
  = IFailed [2; 4; 5].
Proof. reflexivity. Qed.
Example C84_ex_arguments : parse_args (launch_args [["a:=1"; "b:=2"]; []; ["a:=3"]]) = Some [("a", "3"); ("b", "2")].
Proof. reflexivity. Qed.
