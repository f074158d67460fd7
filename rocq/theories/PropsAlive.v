(** The properties of what a run waits for (C82). *)
From Coq Require Import ssreflect.
From Verif Require Import SubstFacts SpecAlive ServiceFacts ProgressFacts ExWorld ExecFacts VisitFacts HandleFacts EventFacts StepFacts MicroSteps OwnFacts ProcFacts LifeFacts ProcLaws TimerLaws AliveFacts AliveLaws.

(** Whatever a run waits for, and has not ended, is a future of a user (an OpaqueCoroutine, an
    OpaqueFunction or a completion future), or the completion of a process action that works on its
    process, or of a timer that counts.  The exceptions: the coroutine of the action ended with an
    exception, the execution of a process action raised before its coroutine was started, and a
    timer was executed more than once. *)
Theorem C82_waits_for_living : forall (w : world) (s : st) f, reachable w s -> awaited f s -> f_is_done f s = false ->
  In f (ufuts s) \/
  (exists a, completes_process a f s /\ (process_alive a s \/ crashed (ByProcess a) s \/ never_began a s)) \/
  (exists a, completes_timer a f s /\ (timer_waits a s \/ crashed (ByTimer a) s)) \/
  (exists a, executed_again a s).
Proof. exact alive_law. Qed.
Print Assumptions C82_waits_for_living.

(** So a run that is shutting down returns by itself, by at most three steps of its own, once its
    queue is empty, the futures of users have ended, and no action is at work or lost. *)
Theorem C82_returns : forall (w : world) (s : st), reachable w s -> in_run s = true -> sdt s = SdNone -> when_idle s = true -> shutting_down s = true ->
  queue (cx s) = [] -> (forall f, In f (ufuts s) -> f_is_done f s = true) ->
  (forall a, ~ process_alive a s /\ ~ crashed (ByProcess a) s /\ ~ never_began a s) ->
  (forall a, ~ timer_waits a s /\ ~ crashed (ByTimer a) s /\ ~ executed_again a s) ->
  exists ls s', (length ls <= 3)%nat /\ Forall (fun l => run_label l = true) ls /\ steps w s ls s' /\ in_run s' = false.
Proof. intros w s Hr H1 H2 H3 H4 H5 H6 H7 H8. apply returns_default; try done. by eapply done_law. Qed.
Print Assumptions C82_returns.
(** And a run that is not shutting down, and is to shut down when idle, emits a Shutdown event. *)
Theorem C82_shuts_down : forall (w : world) (s : st), reachable w s -> in_run s = true -> rpc s <> Leaving -> when_idle s = true -> shutting_down s = false ->
  queue (cx s) = [] -> (forall f, In f (ufuts s) -> f_is_done f s = true) ->
  (forall a, ~ process_alive a s /\ ~ crashed (ByProcess a) s /\ ~ never_began a s) ->
  (forall a, ~ timer_waits a s /\ ~ crashed (ByTimer a) s /\ ~ executed_again a s) ->
  (forall f, f_get f s <> FCancelled) ->
  exists ls s', (length ls <= 2)%nat /\ Forall (fun l => run_label l = true) ls /\ steps w s ls s' /\ in_run s' = true /\ shutting_down s' = true /\
    exists r, queue (cx s') = [EvShutdown r false].
Proof. intros w s Hr H1 H2 H3 H4 H5 H6 H7 H8 H9. apply shuts_down; try done. by eapply done_law. Qed.
Print Assumptions C82_shuts_down.

(** Conversely, if a run waits for a process action that no longer works and has not completed,
    then it waits for it for ever: nothing that can happen afterwards completes it, and the run ends
    only if it is cancelled. *)
Theorem C82_stuck : forall (w : world) (s : st) a f ls (s1 : st), reachable w s -> awaited f s -> completes_process a f s -> f_is_done f s = false -> ~ process_alive a s ->
  steps w s ls s1 ->
  awaited f s1 /\ f_is_done f s1 = false /\ ~ process_alive a s1 /\
  forall l (s2 : st), step w l s1 = Some s2 -> in_run s1 = true -> in_run s2 = false -> run_cancelled w s1.
Proof.
  intros w s a f ls s1 Hr Hw Hc Hd Ha Hs. destruct (gone_steps w a f s ls s1 Hr Hs Hc Hd Ha Hw) as (_ & H1 & H2 & H3). split_and!; [done..|].
  intros l s2 H4 H5 H6. by eapply gone_returns.
Qed.
Print Assumptions C82_stuck.

(** Examples: a run that waits for a running process and for a timer; the same run when ctrl-c was
    pressed, the timer was cancelled, and the process has exited. *)
Definition ex_alive : list label :=
  [LEmit (EvInclude [ex_proc (ex_cfg false None 0); EAct (User 2) None (ATimer (FV (FFin 2)) [] (BV true))]); LRun true; LMain; LEvent 6; LTask 0; LSpawnOk 0 77; LTask 0; LTask 1].
Definition ex_over : list label :=
  ex_alive ++ ex_event ++ [LSigint] ++ ex_event ++ [LTask 1; LTask 1; LTask 2; LExit 0 0; LTask 0] ++ ex_event ++ [LTask 0; LTask 0].
Definition ex_owners (s : st) : list owner := map owner_of (tasks s).
Example C82_example :
  match exec w0 ex_alive s0 with
  | Some s => efuts s = [9; 11]%nat /\ ex_owners s = [ByProcess (User 1); ByTimer (User 2)] /\ map (fun f => f_is_done f s) [9; 11]%nat = [false; false] /\
      (match procs s !! User 1 with Some p => x_completed p | None => None end) = Some 9%nat /\ (match timers s !! User 2 with Some t => t_completed t | None => None end) = Some 11%nat
  | None => False
  end /\
  match exec w0 ex_over s0 with
  | Some s => in_run s = true /\ sdt s = SdNone /\ when_idle s = true /\ shutting_down s = true /\ length (queue (cx s)) = 0%nat /\ ufuts s = [] /\
      efuts s = [18; 20]%nat /\ tasks s = [] /\ x_begun <$> procs s !! User 1 = Some true /\
      map (fun a => t_gen <$> timers s !! a) [User 2; Gen 16; Gen 17] = [Some 1; Some 1; Some 1]%nat
  | None => False
  end.
Proof. vm_compute. by repeat split. Qed.

Lemma nobody_works s : tasks s = [] -> (forall a, ~ process_alive a s /\ ~ crashed (ByProcess a) s) /\ (forall a, ~ timer_waits a s /\ ~ crashed (ByTimer a) s).
Proof. rewrite /process_alive /crashed /timer_waits => ->. split; intros a; split; intros (? & H); try by destruct H. all: by destruct H as [[] _]. Qed.
Lemma ex_over_end : match exec w0 ex_over s0 with
  | Some s => in_run s = true /\ sdt s = SdNone /\ when_idle s = true /\ shutting_down s = true /\ length (queue (cx s)) = 0%nat /\ ufuts s = [] /\ length (tasks s) = 0%nat /\
      forallb (fun x => x_begun x.2) (map_to_list (procs s)) = true /\ forallb (fun x => Nat.leb (t_gen x.2) 1) (map_to_list (timers s)) = true
  | None => False
  end.
Proof. vm_compute. by repeat split. Qed.
Example C82_returns_example : exists s, reachable w0 s /\ in_run s = true /\ sdt s = SdNone /\ when_idle s = true /\ shutting_down s = true /\
  queue (cx s) = [] /\ (forall f, In f (ufuts s) -> f_is_done f s = true) /\
  (forall a, ~ process_alive a s /\ ~ crashed (ByProcess a) s /\ ~ never_began a s) /\
  (forall a, ~ timer_waits a s /\ ~ crashed (ByTimer a) s /\ ~ executed_again a s).
Proof.
  pose proof ex_over_end as HE. destruct (exec w0 ex_over s0) as [s|] eqn:E; [|destruct HE]. exists s. split; [exact (exec_reachable w0 _ _ _ s E)|].
  destruct HE as (H1 & H2 & H3 & H4 & H5%nil_length_inv & H6 & H7%nil_length_inv & H8 & H9).
  clear E. destruct (nobody_works s H7) as [H10 H11]. rewrite forallb_forall in H8. rewrite forallb_forall in H9.
  split_and!; try done.
  - by rewrite H6.
  - intros a. destruct (H10 a). split_and!; [done..|]. intros (p & Hp & _ & Hb).
    specialize (H8 (a, p)). rewrite /= Hb in H8. apply elem_of_map_to_list in Hp. apply elem_of_list_In in Hp. by specialize (H8 Hp).
  - intros a. destruct (H11 a). split_and!; [done..|]. intros (t & Ht & Hg).
    apply elem_of_map_to_list in Ht. apply elem_of_list_In in Ht. specialize (H9 (a, t) Ht). apply Nat.leb_le in H9. simpl in H9. lia.
Qed.

(** Findings.  The launch configuration emulate_tty has a value that is neither true nor false when
    a process action begins to work (execute_local.py:559-566).  Its coroutine ends with an
    exception that nobody looks at, no process is ever started, and the run goes on waiting for it
    for ever, also when it is shut down: only a cancellation ends it. *)
Definition ex_tty : list label :=
  [LEmit (EvInclude [anon (ASetLC [SText "emulate_tty"] [SText "maybe"]); ex_proc (ex_cfg false None 0)]);
   LRun true; LMain; LEvent 6; LTask 0; LReport; LWake; LMain; LSigint; LEvent 9; LWake; LMain].
Lemma ex_tty_end : match exec w0 ex_tty s0 with
  | Some s => in_run s = true /\ shutting_down s = true /\ efuts s = [9%nat] /\ f_is_done 9 s = false /\ ex_owners s = [ByProcess (User 1)] /\
      existsb (ptask (User 1)) (tasks s) = false /\ (match procs s !! User 1 with Some p => x_completed p | None => None end) = Some 9%nat /\
      existsb (fun o => match o with OSpawn _ _ => true | _ => false end) (log s) = false
  | None => False
  end.
Proof. vm_compute. by repeat split. Qed.
Theorem C82_crashed_refuted : exists (w : world) (s : st) a f, reachable w s /\ in_run s = true /\ shutting_down s = true /\
  crashed (ByProcess a) s /\ completes_process a f s /\ awaited f s /\ (forall b pid, ~ In (OSpawn b pid) (log s)) /\
  forall ls (s1 : st), steps w s ls s1 -> f_is_done f s1 = false /\
    forall l (s2 : st), step w l s1 = Some s2 -> in_run s1 = true -> in_run s2 = false -> run_cancelled w s1.
Proof.
  pose proof ex_tty_end as HE. destruct (exec w0 ex_tty s0) as [s|] eqn:E; [|destruct HE].
  destruct HE as (H1 & H2 & H3 & H4 & H5 & H6 & H7 & H8). pose proof (exec_reachable w0 _ _ _ s E) as Hr. clear E.
  assert (completes_process (User 1) 9 s) as Hc. { destruct (procs s !! User 1) as [p|] eqn:Ep; [|done]. by exists p. }
  assert (awaited 9 s) as Hw by (left; rewrite H3; by left).
  assert (~ process_alive (User 1) s) as Ha.
  { intros (t & Ht & Hm). assert (existsb (ptask (User 1)) (tasks s) = true) as Hx; [|congruence].
    apply existsb_exists. exists t. split; [done|]. destruct t; try done; simpl; by apply bool_decide_eq_true. }
  exists w0, s, (User 1), 9%nat. split_and!; try done.
  - rewrite /ex_owners in H5. destruct (tasks s) as [|t [|]] eqn:Et; try done. simpl in H5, H6. rewrite orb_false_r in H6.
    rewrite /crashed Et. destruct t; try done; simpl in H5; injection H5 as ->; try (by vm_compute in H6).
    eexists. by left.
  - intros b pid Hin. assert (existsb (fun o => match o with OSpawn _ _ => true | _ => false end) (log s) = true) as Hx; [|congruence].
    apply existsb_exists. by eexists.
  - intros ls s1 Hs. by destruct (C82_stuck w0 s (User 1) 9 ls s1 Hr Hw Hc H4 Ha Hs) as (_ & ? & _ & ?).
Qed.
Print Assumptions C82_crashed_refuted.

(** The same for timers: one whose period is a substitution that does not give a number, and one
    that was executed twice.  In the second case the future of the first execution is never set, and
    the second task to finish raises because the other has set the result already.  The run waits,
    and nothing in the program is left that could go on. *)
Definition ex_tm (p : fval) : entity := EAct (User 1) None (ATimer p [] (BV true)).
Definition ex_soon : list label := [LEmit (EvInclude [ex_tm (FS [SText "soon"])]); LRun true; LMain; LEvent 6; LTask 0; LWake; LMain; LSigint; LEvent 6; LWake; LMain].
Definition ex_twice : list label :=
  [LEmit (EvInclude [ex_tm (FV (FFin 2))]); LEmit (EvInclude [ex_tm (FV (FFin 2))]); LRun true; LMain; LEvent 6; LWake; LMain; LEvent 6; LTask 0; LTask 1; LSigint]
  ++ ex_event ++ [LTask 0; LTask 0; LWake; LMain].
Definition nothing_goes_on (w : world) (s : st) : Prop :=
  (forall l, run_label l = true -> step w l s = None) /\ (forall fuel, step w (LEvent fuel) s = None) /\ (forall i, step w (LTask i) s = None) /\ cbs s = [].
Lemma lost_timer w s f o e : rpc s = Waiting [f] -> evt s = ETPending -> queue (cx s) = [] -> tasks s = [TDead o e] -> cbs s = [] -> f_is_done f s = false -> nothing_goes_on w s.
Proof.
  intros H1 H2 H3 H4 H5 H6. split_and!; [| | |done].
  - intros [] Hl; try done; cbn [step]; rewrite H1; [done| |done]. by rewrite /wake_step H2 /= H6.
  - intros fuel. cbn [step]. by rewrite /loop_step /in_loop H1 H2 H3.
  - intros i. cbn [step]. rewrite /loop_step /in_loop H1 /task_step H4. by destruct i as [|[|i]].
Qed.
Lemma ex_soon_end : match exec w0 ex_soon s0 with
  | Some s => rpc s = Waiting [3%nat] /\ shutting_down s = true /\ evt s = ETPending /\ length (queue (cx s)) = 0%nat /\ cbs s = [] /\ efuts s = [3%nat] /\ f_is_done 3 s = false /\
      tasks s = [TDead (ByTimer (User 1)) XValue] /\ option_map (fun t => (t_completed t, t_gen t)) (timers s !! User 1) = Some (Some 3, 1)%nat
  | None => False
  end.
Proof. vm_compute. by repeat split. Qed.
Theorem C82_timer_refuted : exists (w : world) (s : st) a f, reachable w s /\ in_run s = true /\ shutting_down s = true /\
  crashed (ByTimer a) s /\ completes_timer a f s /\ awaited f s /\ f_is_done f s = false /\ ~ executed_again a s /\ nothing_goes_on w s.
Proof.
  pose proof ex_soon_end as HE. destruct (exec w0 ex_soon s0) as [s|] eqn:E; [|destruct HE]. exists w0, s, (User 1), 3%nat.
  destruct HE as (H1 & H2 & H3 & H4%nil_length_inv & H5 & H6 & H7 & H8 & H9).
  pose proof (exec_reachable w0 _ _ _ s E) as Hr. clear E. destruct (timers s !! User 1) as [t|] eqn:Et; [|done]. injection H9 as H9 H10.
  split_and!; [exact Hr|by rewrite /in_run H1|done|eexists; rewrite H8; by left|by exists t|left; rewrite H6; by left|done| |by eapply lost_timer].
  intros (t' & Ht & Hg). rewrite Et in Ht. injection Ht as <-. lia.
Qed.
Print Assumptions C82_timer_refuted.
Lemma ex_twice_end : match exec w0 ex_twice s0 with
  | Some s => rpc s = Waiting [3%nat] /\ shutting_down s = true /\ evt s = ETPending /\ length (queue (cx s)) = 0%nat /\ cbs s = [] /\ efuts s = [3%nat] /\ f_is_done 3 s = false /\
      tasks s = [TDead (ByTimer (User 1)) XInvalidState] /\ option_map (fun t => (t_completed t, t_gen t)) (timers s !! User 1) = Some (Some 7, 2)%nat
  | None => False
  end.
Proof. vm_compute. by repeat split. Qed.
Theorem C82_twice_refuted : exists (w : world) (s : st) a f, reachable w s /\ in_run s = true /\ shutting_down s = true /\
  executed_again a s /\ ~ completes_timer a f s /\ awaited f s /\ f_is_done f s = false /\ nothing_goes_on w s.
Proof.
  pose proof ex_twice_end as HE. destruct (exec w0 ex_twice s0) as [s|] eqn:E; [|destruct HE]. exists w0, s, (User 1), 3%nat.
  destruct HE as (H1 & H2 & H3 & H4%nil_length_inv & H5 & H6 & H7 & H8 & H9).
  pose proof (exec_reachable w0 _ _ _ s E) as Hr. clear E. destruct (timers s !! User 1) as [t|] eqn:Et; [|done]. injection H9 as H9 H10.
  split_and!; [exact Hr|by rewrite /in_run H1|done|exists t; split; [done|lia]| |left; rewrite H6; by left|done|by eapply lost_timer].
  intros (t' & Ht & Hg). rewrite Et in Ht. injection Ht as <-. congruence.
Qed.
Print Assumptions C82_twice_refuted.
