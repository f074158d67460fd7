(** Specifications for the theorems about launch tests in pytest (C84). *)
From Verif Require Export PytestHooks SpecTestRun.

(** The file has a generate_test_description that is marked as a launch test. *)
Definition marked (i : imported) (marks : list mark) : Prop := i = MModule (Some marks) /\ exists n, In ("launch_test", n) marks.
(** No other plugin makes something of the file. *)
Definition alone (others : list mark -> list (option node)) : Prop := forall marks n, ~ In (Some n) (others marks).
(** What the failure of a run is blamed on: outcomes of tests that failed, in runs that were not
    good, when the run died all its tests. *)
Definition blamed (run : list nat * trun) (t : nat) : Prop :=
  match snd run with
  | TWorks (WResults r) => In t (tr_errors r) \/ In t (tr_failures r)
  | TWorks WDied => In t (fst run)
  | _ => False
  end.
(** The runs up to the first that died. *)
Inductive until_death : list (list nat * trun) -> list (list nat * trun) -> Prop :=
| ud_end : until_death [] []
| ud_died cases runs : until_death ((cases, TWorks WDied) :: runs) [(cases, TWorks WDied)]
| ud_on run runs l : snd run <> TWorks WDied -> until_death runs l -> until_death (run :: runs) (run :: l).
