(** Model of running launch tests: launch_testing/launch_testing/test_runner.py, test_result.py,
    launch_test.py:69-142, junitxml.py, and the parts of python's unittest that decide about
    success.  Test cases are numbered (equal cases have the same number). *)
From Verif Require Export Base.

(** ** Results *)
(** What unittest reports while a suite runs, in order: a case starts; an outcome for a case
    (or for the holder of an error outside of cases, as of setUpClass). *)
Inductive outcome := OFailure | OError | OSkip | OExpected | OUnexpected.
Inductive report := RStarted (t : nat) | RGot (o : outcome) (t : nat).
(** [unittest.TestResult] with the fields of test_result.py:64-104; times are left out.
    [tr_cases] are the keys of __test_cases, in order. *)
Record tresult := { tr_cases : list nat; tr_failures : list nat; tr_errors : list nat; tr_run : nat;
                    tr_skipped : list nat; tr_expected : list nat; tr_unexpected : list nat }.
Definition tr_empty : tresult :=
  {| tr_cases := []; tr_failures := []; tr_errors := []; tr_run := 0; tr_skipped := []; tr_expected := []; tr_unexpected := [] |}.
Definition add_key (t : nat) (l : list nat) : list nat := if existsb (Nat.eqb t) l then l else l ++ [t].
(** test_result.py:85-90 [startTest] and unittest's [addFailure], [addError], ... *)
Definition tr_do (r : tresult) (e : report) : tresult :=
  match e with
  | RStarted t =>
      {| tr_cases := add_key t (tr_cases r); tr_failures := tr_failures r; tr_errors := tr_errors r; tr_run := S (tr_run r);
         tr_skipped := tr_skipped r; tr_expected := tr_expected r; tr_unexpected := tr_unexpected r |}
  | RGot o t =>
      let add b l := match b with true => l ++ [t] | false => l end in
      {| tr_cases := tr_cases r; tr_run := tr_run r;
         tr_failures := add (match o with OFailure => true | _ => false end) (tr_failures r);
         tr_errors := add (match o with OError => true | _ => false end) (tr_errors r);
         tr_skipped := add (match o with OSkip => true | _ => false end) (tr_skipped r);
         tr_expected := add (match o with OExpected => true | _ => false end) (tr_expected r);
         tr_unexpected := add (match o with OUnexpected => true | _ => false end) (tr_unexpected r) |}
  end.
Definition tr_of (l : list report) : tresult := fold_left tr_do l tr_empty.
(** test_result.py:96-104 [append]. *)
Definition tr_append (r s : tresult) : tresult :=
  {| tr_cases := fold_left (fun l t => add_key t l) (tr_cases s) (tr_cases r);
     tr_failures := tr_failures r ++ tr_failures s; tr_errors := tr_errors r ++ tr_errors s; tr_run := tr_run r + tr_run s;
     tr_skipped := tr_skipped r ++ tr_skipped s; tr_expected := tr_expected r ++ tr_expected s; tr_unexpected := tr_unexpected r ++ tr_unexpected s |}.
Definition is_nil {A} (l : list A) : bool := match l with [] => true | _ => false end.
(** [unittest.TestResult.wasSuccessful]. *)
Definition tr_success (r : tresult) : bool := is_nil (tr_failures r) && is_nil (tr_errors r) && is_nil (tr_unexpected r).
(** test_result.py:20-61 [FailResult] and [SkipResult]; [cases]: [test_run.all_cases()]. *)
Definition fail_result (cases : list nat) : tresult :=
  {| tr_cases := cases; tr_failures := cases; tr_errors := []; tr_run := length cases; tr_skipped := []; tr_expected := []; tr_unexpected := [] |}.
Definition skip_result (cases : list nat) : tresult :=
  {| tr_cases := cases; tr_failures := []; tr_errors := []; tr_run := length cases; tr_skipped := cases; tr_expected := []; tr_unexpected := [] |}.

(** ** One test run *)
(** What [_RunnerWorker.run] does in the end: return results, raise a _LaunchDiedException, or
    raise another exception. *)
Inductive worked := WResults (r : tresult) | WDied | WRaises.
(** test_runner.py:159-182: the main thread, from the start of the test thread on. *)
Inductive mpc := MLaunch | MCheck | MPost | MEnd (w : worked).
(** test_runner.py:184-203 [_run_test], the test thread. *)
Inductive tpc := TWait | TRunning | TSet | TShut | TEnd.
(** What can be observed. *)
Inductive robs :=
| BReady                          (* the ReadyToTest action was executed *)
| BActive                         (* the active tests begin *)
| BActiveEnd (l : option (list report))   (* and end, or raise *)
| BShutdown                       (* the test thread has called shutdown() *)
| BLaunchEnd (rc : Z)             (* LaunchService.run() returns *)
| BPost (l : option (list report)).       (* the post-shutdown tests have run, or raise *)
(** [wk_ready]: _processes_launched; [wk_completed]: _tests_completed; [wk_results]: _results, if
    the attribute exists. *)
Record wkst := { wk_ready : bool; wk_completed : bool; wk_results : option tresult; wk_main : mpc; wk_test : tpc; wk_log : list robs }.
Definition wk_init : wkst := {| wk_ready := false; wk_completed := false; wk_results := None; wk_main := MLaunch; wk_test := TWait; wk_log := [] |}.
(** What happens: the steps of the two threads, the launch service becomes ready or ends. *)
Inductive wkop :=
| KReady                          (* the ready function is called, 77-79 *)
| KTimeout                        (* wait() in 188 times out *)
| KBegin                          (* wait() in 188 returns True *)
| KActive (l : option (list report))      (* the tests of 196-199 end, or raise *)
| KSet                            (* 202 *)
| KShut                           (* 191 or 203 *)
| KLaunchEnd (rc : Z)             (* 162-164, whose return code is not used *)
| KCheck                          (* 166-173 *)
| KPost (l : option (list report)).       (* 175-182 *)
Definition wk_do (st : wkst) (o : wkop) : wkst :=
  let upd ready completed results main test log := {| wk_ready := ready; wk_completed := completed; wk_results := results; wk_main := main; wk_test := test; wk_log := log |} in
  let '{| wk_ready := ready; wk_completed := completed; wk_results := results; wk_main := main; wk_test := test; wk_log := log |} := st in
  match o, main, test with
  | KReady, MLaunch, _ => upd true completed results main test (log ++ [BReady])
  | KTimeout, _, TWait => upd ready completed results main TShut log
  | KBegin, _, TWait => if ready then upd ready completed results main TRunning (log ++ [BActive]) else st
  | KActive l, _, TRunning => upd ready completed (tr_of <$> l) main TSet (log ++ [BActiveEnd l])
  | KSet, _, TSet => upd ready true results main TShut log
  | KShut, _, TShut => upd ready completed results main TEnd (log ++ [BShutdown])
  | KLaunchEnd rc, MLaunch, _ => upd ready completed results MCheck test (log ++ [BLaunchEnd rc])
  | KCheck, MCheck, _ => upd ready completed results (if completed then MPost else MEnd WDied) test log
  | KPost l, MPost, _ =>
      upd ready completed results
        (MEnd match l, results with
              | Some l, Some r => WResults (tr_append r (tr_of l))
              | _, _ => WRaises                     (* AttributeError in 180 if there is no _results *)
              end) test (log ++ [BPost l])
  | _, _, _ => st
  end.
Definition wk_run (l : list wkop) : wkst := fold_left wk_do l wk_init.

(** ** All test runs *)
(** What a test run does: raise SkipTest or something else before the launch
    (test_runner.py:77-157), or work. *)
Inductive trun := TSkips | TBroken | TWorks (w : worked).
(** test_runner.py:241-275 [LaunchTestRunner.run]: the results in order; [None]: an exception.
    A run comes with its cases. *)
Fixpoint runner_run (runs : list (list nat * trun)) : option (list tresult) :=
  match runs with
  | [] => Some []
  | (cases, t) :: runs' =>
      match t with
      | TSkips => cons (skip_result cases) <$> runner_run runs'
      | TWorks (WResults r) => cons r <$> runner_run runs'
      | TWorks WDied => Some [fail_result cases]
      | TBroken | TWorks WRaises => None
      end
  end.
(** Results know whether they were successful: FailResult never, SkipResult always. *)
Definition run_success (t : trun) : bool :=
  match t with TSkips => true | TWorks (WResults r) => tr_success r | _ => false end.
(** launch_test.py:111-126 and 138-142: the exit code of the command; parser.error exits with 2.
    [all(result.wasSuccessful() …)] over the runs that have a result. *)
Fixpoint with_result (runs : list (list nat * trun)) : list trun :=
  match runs with
  | [] => []
  | (_, t) :: runs' => match t with TWorks WDied => [t] | _ => t :: with_result runs' end
  end.
Definition exit_code (runs : list (list nat * trun)) : Z :=
  match runner_run runs with
  | None => 2
  | Some _ => if forallb run_success (with_result runs) then 0 else 1
  end.

(** ** The report *)
(** junitxml.py:18-110: the counts in an element, and the cases with their elements (the parts
    of names, times and messages are left out). *)
Inductive xkind := KFailure | KError | KSkipped.
Record xcase := { xc_case : nat; xc_elements : list xkind }.
Record xsuite := { xs_tests : nat; xs_failures : nat; xs_errors : nat; xs_skipped : nat; xs_cases : list xcase }.
Record xreport := { xr_tests : nat; xr_failures : nat; xr_errors : nat; xr_suites : list xsuite }.
(** junitxml.py:73-110 [unittestCaseToXml] *)
Definition case_xml (r : tresult) (t : nat) : xcase :=
  {| xc_case := t;
     xc_elements := map (fun _ => KFailure) (List.filter (Nat.eqb t) (tr_failures r)) ++ map (fun _ => KError) (List.filter (Nat.eqb t) (tr_errors r)) ++
                    map (fun _ => KSkipped) (List.filter (Nat.eqb t) (tr_skipped r)) |}.
(** junitxml.py:52-70 [unittestResultToXml] *)
Definition suite_xml (r : tresult) : xsuite :=
  {| xs_tests := tr_run r; xs_failures := length (tr_failures r); xs_errors := length (tr_errors r); xs_skipped := length (tr_skipped r);
     xs_cases := map (case_xml r) (tr_cases r) |}.
(** junitxml.py:18-49 [unittestResultsToXml] *)
Definition report_xml (rs : list tresult) : xreport :=
  {| xr_tests := fold_left (fun n r => n + tr_run r) rs 0; xr_failures := fold_left (fun n r => n + length (tr_failures r)) rs 0;
     xr_errors := fold_left (fun n r => n + length (tr_errors r)) rs 0; xr_suites := map suite_xml rs |}.

(** ** Arguments *)
(** parse_arguments.py:22-33 [parse_launch_arguments] (last one wins, at the place of the first);
    [None]: RuntimeError.  [count(':=')] counts without overlap, which cannot happen here. *)
Fixpoint split_arg (s : string) : option (string * string) :=
  match s with
  | EmptyString => None
  | String a r =>
      if starts_with ":=" s then Some ("", drop_str 2 s)
      else (fun p => (String a (fst p), snd p)) <$> split_arg r
  end.
Fixpoint count_sep (s : string) : nat :=
  match s with EmptyString => 0 | String _ r => (if starts_with ":=" s then 1 else 0) + count_sep r end.
Fixpoint od_set (k v : string) (d : list (string * string)) : list (string * string) :=
  match d with [] => [(k, v)] | (k', v') :: d' => if String.eqb k' k then (k', v) :: d' else (k', v') :: od_set k v d' end.
Fixpoint parse_args_from (d : list (string * string)) (l : list string) : option (list (string * string)) :=
  match l with
  | [] => Some d
  | a :: l' =>
      let n := count_sep a in
      if (n =? 0) || starts_with ":=" a || ((n =? 1) && ends_with ":=" a) then None
      else match split_arg a with Some (k, v) => parse_args_from (od_set k v d) l' | None => None end
  end.
Definition parse_args : list string -> option (list (string * string)) := parse_args_from [].
