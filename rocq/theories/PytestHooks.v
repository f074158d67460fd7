(** Model of launch_testing/launch_testing/pytest/hooks.py: which python files pytest collects as
    launch tests, and what running one reports.  The version of pytest only decides with which
    keywords nodes are made and is left out. *)
From Verif Require Export TestRun.

(** ** Collecting *)
(** A mark of the entry point: its name and (a number for) its arguments. *)
Definition mark := (string * nat)%type.
(** What importing the file does: raise SyntaxError, raise something else, or give a module, with
    the marks of its generate_test_description if it has one that is not None. *)
Inductive imported := MSyntax | MRaises | MModule (entry : option (list mark)).
(** What is made of the file; [NOther] by another plugin. *)
Inductive node := NLaunch (marks : list mark) | NPackage | NModule | NOther (n : nat).
(** 176-189 [find_launch_test_entrypoint]; [None]: the exception goes on. *)
Definition find_entrypoint (i : imported) : option (option (list mark)) :=
  match i with MSyntax => Some None | MRaises => None | MModule e => Some e end.
(** 227-230: the marks are added to the module one by one. *)
Fixpoint add_markers (marks own : list mark) : list mark :=
  match marks with [] => own | m :: marks' => add_markers marks' (own ++ [m]) end.
(** 218-231 [pytest_launch_collect_makemodule] *)
Definition launch_makemodule (marks : list mark) : option node :=
  if match marks with [] => false | _ => existsb (fun m => String.eqb (fst m) "launch_test") marks end
  then Some (NLaunch (add_markers marks [])) else None.
(** hookspecs.py:18-21: the first result of the hooks, this one last (218). [others]: what the
    hooks of other plugins give. *)
Fixpoint first_result (others : list (option node)) (last : option node) : option node :=
  match others with [] => last | Some n :: _ => Some n | None :: others' => first_result others' last end.
(** 192-215 [pytest_pycollect_makemodule]; [init]: the file is called __init__.py. *)
Definition makemodule (init : bool) (i : imported) (others : list mark -> list (option node)) : option node :=
  match find_entrypoint i with
  | None => None
  | Some e =>
      let module := match e with Some marks => first_result (others marks) (launch_makemodule marks) | None => None end in
      match module with
      | Some n => Some n
      | None => Some (if init then NPackage else NModule)
      end
  end.

(** ** Running *)
(** The runs that have a result, with it (test_runner.py:241-275). *)
Fixpoint with_results (runs : list (list nat * trun)) : list (trun * tresult) :=
  match runs with
  | [] => []
  | (cases, t) :: runs' =>
      match t with
      | TSkips => (t, skip_result cases) :: with_results runs'
      | TWorks (WResults r) => (t, r) :: with_results runs'
      | TWorks WDied => [(t, fail_result cases)]
      | TBroken | TWorks WRaises => []
      end
  end.
(** 119-127 [repr_failure]: the tests named, in order; [is_case]: is the holder of an outcome a
    TestCase (that of an error in setUpClass is not)?  The texts are left out. *)
Definition reported (is_case : nat -> bool) (rs : list (trun * tresult)) : list nat :=
  flat_map (fun x => List.filter (fun t => is_case t && negb (run_success (fst x))) (tr_errors (snd x) ++ tr_failures (snd x))) rs.
Inductive item_end := IPass | IFailed (tests : list nat) | IRaised.
(** 98-117 [runtest]; [valid]: validate() does not raise. *)
Definition runtest (is_case : nat -> bool) (valid : bool) (runs : list (list nat * trun)) : item_end :=
  if negb valid then IRaised
  else match runner_run runs with
       | None => IRaised
       | Some _ =>
           let results := with_results runs in
           if existsb (fun x => negb (run_success (fst x))) results then IFailed (reported is_case results) else IPass
       end.
(** 99-101: the arguments of all the uses of the option. *)
Definition launch_args (sets : list (list string)) : list string := fold_left (fun acc s => acc ++ s) sets [].
