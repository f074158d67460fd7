(** The properties of how a run ends by itself (C80). *)
From Coq Require Import ssreflect.
From Verif Require Import SubstFacts SpecProgress ExWorld ExecFacts VisitFacts HandleFacts EventFacts StepFacts MicroSteps OwnFacts ProcFacts LifeFacts ProcLaws TimerLaws ServiceFacts ProgressFacts.

(** A run that cannot go on by itself waits for an event to be processed, for a future that has
    not ended, or (only if it is not told to shut down when idle, and nobody has told it to shut
    down) for the next event.  No thread is inside shutdown(). *)
Theorem C80_waits_for : forall (w : world) (s : st), regular w s -> in_run s = true -> sdt s = SdNone ->
  (forall l, run_label l = true -> step w l s = None) ->
  exists ws, rpc s = Waiting ws /\ evt s = ETPending /\
    (queue (cx s) <> [] \/ (exists f, awaited f s /\ f_is_done f s = false) \/ (when_idle s = false /\ shutting_down s = false)).
Proof. exact waits_regular. Qed.
Print Assumptions C80_waits_for.

(** A run that is shutting down and has nothing left to do returns, by at most three steps of its
    own: nothing else has to happen.  If it shuts down when idle, this needs no assumption about
    its history. *)
Theorem C80_returns : forall (w : world) (s : st), reachable w s -> in_run s = true -> sdt s = SdNone -> when_idle s = true -> shutting_down s = true -> nothing_left s ->
  exists ls s', (length ls <= 3)%nat /\ Forall (fun l => run_label l = true) ls /\ steps w s ls s' /\ in_run s' = false.
Proof. exact returns_default. Qed.
Print Assumptions C80_returns.
(** Otherwise nobody may have unregistered the service's own handler, and the coroutine returned by
    shutdown() in the loop must have been awaited. *)
Theorem C80_returns_regular : forall (w : world) (s : st), regular w s -> in_run s = true -> sdt s = SdNone -> shutting_down s = true -> nothing_left s ->
  exists ls s', (length ls <= 3)%nat /\ Forall (fun l => run_label l = true) ls /\ steps w s ls s' /\ in_run s' = false.
Proof. exact returns_regular. Qed.
Print Assumptions C80_returns_regular.

(** A run that is to shut down when idle and has nothing left to do shuts down by itself, from
    wherever it is. *)
Theorem C80_shuts_down : forall (w : world) (s : st), reachable w s -> in_run s = true -> rpc s <> Leaving -> when_idle s = true -> shutting_down s = false -> nothing_left s ->
  (forall f, f_get f s <> FCancelled) ->
  exists ls s', (length ls <= 2)%nat /\ Forall (fun l => run_label l = true) ls /\ steps w s ls s' /\ in_run s' = true /\ shutting_down s' = true /\
    exists r, queue (cx s') = [EvShutdown r false].
Proof. exact shuts_down. Qed.
Print Assumptions C80_shuts_down.

(** The hypotheses are met: a run that waits for a future which then ends, and a run that is not to
    shut down when idle and is told to shut down by a thread. *)
Lemma exec_regular w ls s s' : regular w s -> exec w ls s = Some s' ->
  (forall ls1 l ls2 s1, ls = ls1 ++ l :: ls2 -> exec w ls1 s = Some s1 -> l <> LShutLoop false /\ In svc_handler (handlers (cx s1))) -> regular w s'.
Proof.
  revert s. induction ls as [|l ls IH]; intros s Hg; [by intros [= <-]|]. simpl. destruct (step w l s) as [s1|] eqn:E; [|done]. intros HE HA.
  destruct (HA [] l ls s eq_refl eq_refl) as [H1 H2]. apply (IH s1); [by eapply reg_step|done|].
  intros ls1 l1 ls2 s2 -> E2. apply (HA (l :: ls1) l1 ls2); [done|]. by rewrite /= E.
Qed.
Definition ex_idle : list label := [LUser [OpAddFuture]; LRun true; LMain; LSigint; LEvent 5; LWake; LMain; LUserFut 3 FOk].
Example C80_example :
  match exec w0 ex_idle s0 with
  | Some s => in_run s = true /\ sdt s = SdNone /\ when_idle s = true /\ shutting_down s = true /\ length (queue (cx s)) = 0%nat /\
      cfuts (cx s) = [3%nat] /\ efuts s = [] /\ f_is_done 3 s = true /\ rpc s = Waiting [3%nat] /\ evt s = ETPending
  | None => False
  end /\
  match exec w0 [LRun false; LMain; LShutThread; LShutPost; LShutPut; LEvent 5; LShutEnd] s0 with
  | Some s => in_run s = true /\ sdt s = SdNone /\ when_idle s = false /\ shutting_down s = true /\ length (queue (cx s)) = 0%nat /\
      cfuts (cx s) = [] /\ efuts s = [] /\ rpc s = Waiting [] /\ In svc_handler (handlers (cx s)) /\
      match exec w0 [LWake; LMain; LLeave] s with Some s' => in_run s' = false | None => False end
  | None => False
  end.
Proof. vm_compute. repeat split. by left. Qed.
Example C80_regular_example : exists s, regular w0 s /\ in_run s = true /\ sdt s = SdNone /\ when_idle s = false /\ shutting_down s = true /\ nothing_left s.
Proof.
  set (ls := [LRun false; LMain; LShutThread; LShutPost; LShutPut; LEvent 5; LShutEnd]).
  destruct (exec w0 ls s0) as [s|] eqn:E; [|by vm_compute in E]. exists s. split.
  - apply (exec_regular w0 ls s0 s); [apply reg_init|done|]. intros ls1 l ls2 s1 El Es.
    assert (ls1 = firstn (length ls1) ls) as Ef by (rewrite El take_app //).
    assert (length ls1 < 7)%nat as Hn. { assert (length ls = 7%nat) as Hlen by done. rewrite El app_length /= in Hlen. lia. }
    assert (nth (length ls1) ls LMain = l) as Hl by (rewrite El app_nth2; [lia|]; rewrite Nat.sub_diag //).
    rewrite Ef in Es. revert Es Hl. generalize (length ls1) Hn. clear. intros k Hk.
    do 7 (destruct k as [|k]; [intros Es <-; vm_compute in Es; injection Es as <-; split; [done|vm_compute; by repeat first [left; reflexivity|right]]|]). lia.
  - revert E. clear. vm_compute. intros [= <-]. split_and!; try done. intros f [[]|[]].
Qed.

Lemma waiting_for_nothing w s : rpc s = Waiting [] -> evt s = ETPending -> sdt s = SdNone -> shutting_down s = true -> queue (cx s) = [] -> efuts s = [] -> cfuts (cx s) = [] -> tasks s = [] -> cbs s = [] ->
  in_run s = true /\ sdt s = SdNone /\ shutting_down s = true /\ nothing_left s /\
  (forall l, run_label l = true -> step w l s = None) /\ (forall fuel, step w (LEvent fuel) s = None) /\ tasks s = [] /\ cbs s = [].
Proof.
  intros H1 H2 H3 H4 H5 H6 H7 H8 H9. split_and!; try done.
  - by rewrite /in_run H1.
  - split; [done|]. intros f. rewrite /awaited H6 H7. by intros [[]|[]].
  - intros [] Hl; try done; cbn [step]; rewrite H1; [done| |done]. by rewrite /wake_step H2.
  - intros fuel. cbn [step]. by rewrite /loop_step /in_loop H1 H2 H5.
Qed.
(** Findings.  A thread is in shutdown() and holds the lock, and the run ends at the same time: the
    loop waits for the lock, and the thread waits until the loop has put the event.  Nothing that can
    happen afterwards ends the run. *)
Theorem C80_locked_refuted : exists (w : world) (s : st), reachable w s /\ in_run s = true /\ shutting_down s = true /\ nothing_left s /\
  forall ls s', steps w s ls s' -> in_run s' = true.
Proof.
  destruct (exec w0 [LRun true; LShutThread; LMain; LMain; LEvent 5; LWake; LMain; LShutPost] s0) as [s|] eqn:E; [|by vm_compute in E].
  exists w0, s. pose proof (exec_reachable w0 _ _ _ s E) as Hr. split; [exact Hr|].
  assert (rpc s = Leaving /\ sdt s = SdPosted /\ shutting_down s = true /\ queue (cx s) = [] /\ efuts s = [] /\ cfuts (cx s) = []) as (H1 & H2 & H3 & H4 & H5 & H6).
  { revert E. clear. vm_compute. by intros [= <-]. }
  split_and!; [by rewrite /in_run H1|done|split; [done|]|].
  - rewrite /awaited H5 H6. by intros f [[]|[]].
  - intros ls s' Hs. destruct (locked w0 s ls s' H1 H2 Hs) as [Er _]. by rewrite /in_run Er.
Qed.
Print Assumptions C80_locked_refuted.

(** shutdown() called in the loop without awaiting what it returns: the flag is set, but the run
    goes on waiting, and will not return before somebody emits an event. *)
Theorem C80_unawaited_refuted : exists (w : world) (s : st), reachable w s /\ in_run s = true /\ sdt s = SdNone /\ shutting_down s = true /\ nothing_left s /\
  (forall l, run_label l = true -> step w l s = None) /\ (forall fuel, step w (LEvent fuel) s = None) /\ tasks s = [] /\ cbs s = [].
Proof.
  destruct (exec w0 [LRun false; LMain; LShutLoop false] s0) as [s|] eqn:E; [|by vm_compute in E].
  exists w0, s. pose proof (exec_reachable w0 _ _ _ s E) as Hr. split; [exact Hr|].
  assert (rpc s = Waiting [] /\ evt s = ETPending /\ sdt s = SdNone /\ shutting_down s = true /\ queue (cx s) = [] /\ efuts s = [] /\ cfuts (cx s) = [] /\ tasks s = [] /\ cbs s = [])
    as (H1 & H2 & H3 & H4 & H5 & H6 & H7 & H8 & H9).
  { revert E. clear. vm_compute. by intros [= <-]. }
  by apply waiting_for_nothing.
Qed.
Print Assumptions C80_unawaited_refuted.

(** And if the service's own handler was unregistered, shutdown() of a thread has the same effect. *)
Theorem C80_unregistered_refuted : exists (w : world) (s : st), reachable w s /\ in_run s = true /\ sdt s = SdNone /\ shutting_down s = true /\ nothing_left s /\
  (forall l, run_label l = true -> step w l s = None) /\ (forall fuel, step w (LEvent fuel) s = None) /\ tasks s = [] /\ cbs s = [].
Proof.
  destruct (exec w0 [LRun false; LMain; LUser [OpUnregister (Gen 2)]; LShutThread; LShutPost; LShutPut; LEvent 5; LWake; LMain; LShutEnd] s0) as [s|] eqn:E; [|by vm_compute in E].
  exists w0, s. pose proof (exec_reachable w0 _ _ _ s E) as Hr. split; [exact Hr|].
  assert (rpc s = Waiting [] /\ evt s = ETPending /\ sdt s = SdNone /\ shutting_down s = true /\ queue (cx s) = [] /\ efuts s = [] /\ cfuts (cx s) = [] /\ tasks s = [] /\ cbs s = [])
    as (H1 & H2 & H3 & H4 & H5 & H6 & H7 & H8 & H9).
  { revert E. clear. vm_compute. by intros [= <-]. }
  by apply waiting_for_nothing.
Qed.
Print Assumptions C80_unregistered_refuted.
