(** The properties of the fixtures of launch_pytest (C92). *)
From Coq Require Import ssreflect.
From Verif Require Import SpecLaunchFixtures LaunchFixtureFacts.

(** ** C92 *)
(** In a test module that does not define launch_service, event_loop or launch_context itself, each
    of them has the greatest scope of the launch fixtures declared in the module, in whatever
    order. *)
Theorem C92_scope : forall b l, left_alone b l -> greatest (found (exec_module l) b) l.
Proof. exact found_alone. Qed.
Print Assumptions C92_scope.
(** Therefore pytest accepts the scopes of every launch fixture declared, and of what they use. *)
Theorem C92_accepted : forall s l, (forall b, left_alone b l) -> In (Declare s) l ->
  (forall b, accepts s (found (exec_module l) b) = true) /\
  (forall b c, In c (uses b) -> accepts (found (exec_module l) b) (found (exec_module l) c) = true).
Proof.
  intros s l Hl Hs. split.
  - intros b. rewrite /accepts. apply negb_true_iff, scope_gt_false. by apply (found_alone b l (Hl b)).
  - intros b c _. rewrite /accepts. apply negb_true_iff, scope_gt_false.
    rewrite (greatest_unique _ _ _ (found_alone b l (Hl b)) (found_alone c l (Hl c))). by rewrite /at_most.
Qed.
Print Assumptions C92_accepted.
(** A fixture the user defines under such a name is never replaced. *)
Theorem C92_user : forall l1 b s l2, left_alone b l2 ->
  found (exec_module (l1 ++ Define b {| fo_scope := s; fo_over := false |} :: l2)) b = s.
Proof. exact user_kept. Qed.
Print Assumptions C92_user.
(** Tests that share a launch fixture share its launch service. If all launch fixtures of the module
    have the same scope the converse holds too. *)
Theorem C92_shared : forall s l t u, left_alone Service l -> In (Declare s) l -> same_instance s t u = true ->
  same_instance (found (exec_module l) Service) t u = true.
Proof. intros s l t u Hl Hs. apply same_le. by apply (found_alone Service l Hl). Qed.
Print Assumptions C92_shared.
Theorem C92_one_scope : forall s l t u, left_alone Service l -> In (Declare s) l -> (forall r, In (Declare r) l -> r = s) ->
  same_instance (found (exec_module l) Service) t u = same_instance s t u.
Proof.
  intros s l t u Hl Hs Ho. destruct (found_alone Service l Hl) as [H1 [H2|H2]].
  - rewrite H2 in H1 |- *. f_equal. apply H1 in Hs. apply rank_inj. rewrite /at_most /= in Hs. simpl. lia.
  - by rewrite (Ho _ H2).
Qed.
Print Assumptions C92_one_scope.
(** It is not true that every instance of a launch fixture has a launch service of its own: if the
    module also declares a launch fixture with scope module, the tests with one of scope function
    share one service. *)
Theorem C92_own_refuted : exists l t u, left_alone Service l /\ In (Declare SFunction) l /\
  same_instance SFunction t u = false /\ same_instance (found (exec_module l) Service) t u = true.
Proof.
  exists [Declare SFunction; Declare SModule].
  exists {| pl_package := 0; pl_module := 0; pl_class := None; pl_test := 0 |}, {| pl_package := 0; pl_module := 0; pl_class := None; pl_test := 1 |}.
  split; [|split; [by left|done]]. intros o [H|[H|[]]]; discriminate H.
Qed.
Print Assumptions C92_own_refuted.
(** Whatever tests do with a shared service, and however the loop is scheduled: only the launch that
    is set up first starts processes. *)
Theorem C92_first_only : forall l v d, happens l v -> List.NoDup (setups l) -> In d (v_started v) -> hd_error (setups l) = Some d.
Proof. exact first_only. Qed.
Print Assumptions C92_first_only.
(** A second launch that is set up while the first runs blocks the test run for ever. *)
Theorem C92_blocks : forall d v v1 l v2, v_run v = true -> fixture_step (FBegin (WSetup d)) v = Some v1 -> fixture_run l v1 = Some v2 ->
  l = [] /\ v_main v2 = MInclude d.
Proof. exact busy_blocks. Qed.
Print Assumptions C92_blocks.
(** So does a launch that ends before its ReadyToTest action has been executed. *)
Theorem C92_never_ready : forall d v l v', v_main v = MReady d -> v_run v = false -> v_new v = [] -> ~ In d (v_ready v) ->
  fixture_run l v = Some v' -> l = [] /\ v' = v.
Proof. exact never_ready. Qed.
Print Assumptions C92_never_ready.

(** A launch with a process is set up, used by a test, and torn down; then the launch of a second
    instance (for instance of the second parameter of the fixture): its test runs, but without the
    process. *)
Definition ex_launch (d : nat) : list fstep :=
  [FBegin (WSetup d); FTurn TBegin; FTurn TVisit; FTurn (TProcess d); FTurn (TReady d); FProceed; FBegin WTest; FTurn (TProcess d); FProceed].
Definition ex_down : list fstep := [FBegin (WTeardown true); FTurn TEnded; FProceed].
Example C92_example :
  match fixture_run (ex_launch 1) svc_new with Some v => set_up 1 v /\ In 1%nat (v_started v) | None => False end /\
  match fixture_run (ex_launch 1 ++ ex_down ++ ex_launch 2) svc_new with
  | Some v => set_up 2 v /\ v_started v = [1; 1]%nat /\ v_run v = true
  | None => False
  end /\
  match fixture_run (ex_launch 1 ++ [FBegin (WSetup 2)]) svc_new with
  | Some v => v_main v = MInclude 2 /\ v_ready v = [1]%nat
  | None => False
  end /\
  match fixture_run [FBegin (WSetup 1); FTurn TBegin; FTurn TVisit; FTurn TShutdown; FTurn TEnded] svc_new with
  | Some v => v_main v = MReady 1 /\ v_run v = false /\ v_new v = [] /\ v_ready v = []
  | None => False
  end /\
  found (exec_module [Declare SClass; Declare SFunction; Define Loop {| fo_scope := SSession; fo_over := false |}; Declare SModule]) Service = SModule /\
  found (exec_module [Declare SClass; Declare SFunction; Define Loop {| fo_scope := SSession; fo_over := false |}; Declare SModule]) Loop = SSession.
Proof. vm_compute. repeat split; auto. Qed.
