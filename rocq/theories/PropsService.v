(** The properties of running a launch service (C16-C22). *)
From Coq Require Import ssreflect.
From Verif Require Import SubstFacts SpecService ExWorld ExecFacts VisitFacts HandleFacts EventFacts StepFacts MicroSteps OwnFacts ProcFacts LifeFacts ProcLaws TimerLaws ServiceFacts.

(** ** C16 *)
(** The step in which a run returns finds it cancelled, or the service shutting down, its queue
    empty and nothing to wait for. *)
Theorem C16_returns : forall (w : world) l (s s' : st), reachable w s -> step w l s = Some s' -> in_run s = true -> in_run s' = false ->
  hist s' = hist s ++ [OReturn (rcode s)] /\
  (run_cancelled w s \/ (shutting_down s = true /\ queue (cx s) = [] /\ forall f, ~ awaited f s)).
Proof. exact returns. Qed.
Print Assumptions C16_returns.

(** Every future that was ever collected or added is done by then. *)
Theorem C16_all_done : forall (w : world) f (s0 : st) ls l (s s' : st), reachable w s0 -> awaited f s0 -> steps w s0 ls s ->
  step w l s = Some s' -> in_run s = true -> in_run s' = false ->
  run_cancelled w s \/ f_is_done f s = true.
Proof. exact returns_done. Qed.
Print Assumptions C16_all_done.

(** A run with a completion future: it does not end before the future is done, then it does. *)
Definition ex_wait : list label := [LUser [OpAddFuture]; LRun true; LMain; LSigint; LEvent 5; LWake; LMain].
Example C16_example :
  match exec w0 ex_wait s0 with
  | Some s => In 3%nat (cfuts (cx s)) /\ shutting_down s = true /\ length (queue (cx s)) = 0%nat /\ rpc s = Waiting [3%nat] /\
      match step w0 LLeave s with None => True | Some _ => False end /\
      match exec w0 [LUserFut 3 FOk; LWake; LMain; LLeave] s with
      | Some s' => in_run s' = false /\ f_is_done 3 s' = true /\ last (hist s') = Some (OReturn 0)
      | None => False
      end
  | None => False
  end.
Proof. vm_compute. repeat split; by left. Qed.

(** ** C17 *)
(** At the top of its loop a service that is told to shut down when idle, and is not shutting
    down, emits exactly one Shutdown event if there is nothing left to do. *)
Theorem C17_idle : forall (w : world) (s s' : st), step w LMain s = Some s' -> when_idle s = true -> shutting_down s = false -> queue (cx s) = [] ->
  (forall f, awaited f s -> f_is_done f s = true) ->
  hist s' = hist s ++ [OEmit (EvShutdown "idle" false)] /\ queue (cx s') = [EvShutdown "idle" false] /\ shutting_down s' = true /\ in_run s' = true.
Proof. exact idle_shutdown. Qed.
Print Assumptions C17_idle.

(** A service that is not told so never emits a Shutdown event, unless somebody asks for it or
    something fails. *)
Theorem C17_otherwise : forall (w : world) (s : st) ls (s' : st), reachable w s -> steps w s ls s' -> when_idle s = false -> sdt s = SdNone ->
  Forall (fun l => is_run l = false /\ is_request l = false) ls -> failed w ls s = false -> own_shutdowns w ls s = 0%nat.
Proof. exact no_cause. Qed.
Print Assumptions C17_otherwise.

Example C17_example :
  match exec w0 [LRun true] s0 with
  | Some s => when_idle s = true /\ shutting_down s = false /\ own_shutdowns w0 [LMain; LMain; LEvent 5; LWake; LMain; LLeave] s = 1%nat /\
      match exec w0 [LMain; LMain; LEvent 5; LWake; LMain; LLeave] s with Some s' => in_run s' = false | None => False end
  | None => False
  end /\
  match exec w0 [LRun false] s0 with
  | Some s => failed w0 [LMain; LEmit (EvUser 1); LEvent 5; LWake; LMain] s = false /\
      match exec w0 [LMain; LEmit (EvUser 1); LEvent 5; LWake; LMain] s with Some s' => rpc s' = Waiting [] | None => False end
  | None => False
  end.
Proof. vm_compute. by repeat split. Qed.

(** ** C18 *)
(** Whatever happens within a run: unless another thread calls shutdown(), the service emits at
    most one Shutdown event, and none if it is already shutting down. *)
Theorem C18_at_most_one : forall (w : world) (s : st) ls (s' : st), reachable w s -> steps w s ls s' ->
  Forall (fun l => is_run l = false) ls -> Forall (fun l => is_thread l = false) ls ->
  sdt s = SdNone -> (own_shutdowns w ls s <= if shutting_down s then 0 else 1)%nat.
Proof. exact at_most. Qed.
Print Assumptions C18_at_most_one.
(** With other threads it is at most two; and two are possible, because shutdown() decides to
    emit in the calling thread and emits later. *)
Theorem C18_at_most_two : forall (w : world) (s : st) ls (s' : st), reachable w s -> steps w s ls s' ->
  Forall (fun l => is_run l = false) ls -> (own_shutdowns w ls s <= 2)%nat.
Proof. exact at_most_two. Qed.
Print Assumptions C18_at_most_two.
Definition ex_race : list label := [LMain; LShutThread; LShutPost; LSigint; LShutPut; LShutEnd].
Theorem C18_refuted : exists (w : world) (s : st) ls (s' : st), reachable w s /\ steps w s ls s' /\ Forall (fun l => is_run l = false) ls /\
  sdt s = SdNone /\ shutting_down s = false /\ own_shutdowns w ls s = 2%nat.
Proof.
  destruct (exec_then w0 [LRun false] ex_race
    (fun s => sdt s = SdNone /\ shutting_down s = false /\ own_shutdowns w0 ex_race s = 2%nat) (fun s => True))
    as (s1 & s2 & H1 & H2 & (H3 & H4 & H5) & _).
  { vm_compute. by repeat split. }
  assert (Forall (fun l => is_run l = false) ex_race) as HF by (by repeat constructor).
  exists w0, s1, ex_race, s2. exact (conj H1 (conj H2 (conj HF (conj H3 (conj H4 H5))))).
Qed.
Print Assumptions C18_refuted.
(** After a Shutdown event was processed to the end the service emits none, even if other threads
    call shutdown() from then on.  (The service's own handler must not have been unregistered.) *)
Theorem C18_none_after_user : forall (w : world) (s : st) r g (s1 : st) ls (s2 : st), reachable w s -> In svc_handler (handlers (cx s)) ->
  processes w s (EvShutdown r g) (Ok tt) s1 -> sdt s = SdNone -> steps w s1 ls s2 ->
  Forall (fun l => is_run l = false) ls -> own_shutdowns w ls s1 = 0%nat.
Proof. exact none_after_user. Qed.
Print Assumptions C18_none_after_user.
Example C18_example :
  match exec w0 [LEmit (EvShutdown "mine" false); LRun true; LMain] s0 with
  | Some s => List.existsb (fun h => bool_decide (h_id h = Gen 2)) (handlers (cx s)) = true /\ sdt s = SdNone /\
      match step w0 (LEvent 5) s with
      | Some s1 => evt s1 = ETDone (Ok tt) /\ shutting_down s1 = true /\
          own_shutdowns w0 [LSigint; LShutThread; LWake; LMain; LLeave] s1 = 0%nat /\
          match exec w0 [LSigint; LShutThread; LWake; LMain; LLeave] s1 with Some s2 => in_run s2 = false | None => False end
      | None => False
      end
  | None => False
  end /\
  match exec w0 [LRun true] s0 with
  | Some s => own_shutdowns w0 [LMain; LMain; LSigint; LShutLoop true; LSigint; LEvent 5; LWake] s = 1%nat
  | None => False
  end.
Proof. vm_compute. by repeat split. Qed.

(** ** C19 *)
(** The return code of a run: 1 if the service noticed a failure during the run, else 0. *)
Theorem C19_code : forall (w : world) wi (s s1 : st) ls (s2 s3 : st) l, reachable w s -> in_run s = false ->
  step w (LRun wi) s = Some s1 -> steps w s1 ls s2 ->
  Forall (fun l => is_run l = false) ls -> step w l s2 = Some s3 -> in_run s2 = true -> in_run s3 = false ->
  hist s3 = hist s2 ++ [OReturn (if failed w ls s1 then 1 else 0)%Z].
Proof. exact return_code. Qed.
Print Assumptions C19_code.
(** No failure of what the service waits for goes unnoticed: processing an event raised, or a
    future that it is waiting for failed or was cancelled. *)
Theorem C19_noticed : forall (w : world) (s : st) ls l (s' s'' : st), reachable w s -> pending_exn s -> steps w s ls s' ->
  Forall (fun l => is_run l = false) ls ->
  step w l s' = Some s'' -> in_run s' = true -> in_run s'' = false -> hist s'' = hist s' ++ [OReturn 1].
Proof. exact exn_return. Qed.
Print Assumptions C19_noticed.
(** It then shuts down, and goes on until it is idle (C16). *)
Theorem C19_shuts_down : forall (w : world) (s s' : st), step w LWake s = Some s' -> pending_exn s ->
  (forall ws f, rpc s = Waiting ws -> In f ws -> f_get f s <> FCancelled) ->
  shutting_down s' = true /\ rpc s' = AtLoop /\ (shutting_down s = false -> hist s' = hist s ++ [OEmit (EvShutdown "exception" false)]) /\
  (shutting_down s = true -> hist s' = hist s).
Proof. exact exn_shutdown. Qed.
Print Assumptions C19_shuts_down.
(** But a completion future that fails while events are queued is not among those the service is
    waiting for at that moment; it is dropped as done, and the run may return 0. *)
Definition ex_lost : list label := [LEvent 5; LWake; LMain; LMain; LEvent 5; LWake; LMain; LLeave].
Theorem C19_refuted : exists (w : world) f (s : st) ls (s' : st), reachable w s /\ steps w s ls s' /\ Forall (fun l => is_run l = false) ls /\
  in_run s = true /\ awaited f s /\ f_get f s = FExn XRuntime /\ in_run s' = false /\ last (hist s') = Some (OReturn 0).
Proof.
  destruct (exec_then w0 [LUser [OpAddFuture]; LEmit (EvUser 9); LRun true; LMain; LUserFut 3 (FExn XRuntime)] ex_lost
    (fun s => in_run s = true /\ awaited 3 s /\ f_get 3 s = FExn XRuntime) (fun s => in_run s = false /\ last (hist s) = Some (OReturn 0)))
    as (s1 & s2 & H1 & H2 & (H3 & H4 & H5) & H6 & H7).
  { vm_compute. repeat split; right; by left. }
  assert (Forall (fun l => is_run l = false) ex_lost) as HF by (by repeat constructor).
  exists w0, 3%nat, s1, ex_lost, s2. exact (conj H1 (conj H2 (conj HF (conj H3 (conj H4 (conj H5 (conj H6 H7))))))).
Qed.
Print Assumptions C19_refuted.
(** An opaque function raises: return code 1, after the rest of the queue was processed. *)
Example C19_example :
  match exec w1 [LEmit (EvInclude [EAct (User 3) None (AOpaque 2)]); LEmit (EvUser 1); LRun true; LMain; LEvent 6] s0 with
  | Some s => rpc s = Waiting [] /\ evt s = ETDone (Exn XRuntime) /\
      match exec w1 [LWake; LMain; LEvent 5; LWake; LMain; LEvent 5; LWake; LMain; LLeave] s with
      | Some s' => in_run s' = false /\ last (hist s') = Some (OReturn 1) /\ length (queue (cx s')) = 0%nat
      | None => False
      end
  | None => False
  end.
Proof. vm_compute. by repeat split. Qed.

(** ** C20 *)
Theorem C20_shutdown_nothing : forall (w : world) (s : st), reachable w s -> in_run s = false ->
  step w LShutThread s = Some s /\ forall b, step w (LShutLoop b) s = Some s.
Proof. exact idle_thread. Qed.
Print Assumptions C20_shutdown_nothing.
Theorem C20_stay_queued : forall (w : world) (s : st) ls (s' : st), not_running w s -> steps w s ls s' -> Forall (fun l => is_run l = false) ls ->
  in_run s' = false /\ (exists q, queue (cx s') = queue (cx s) ++ q) /\
  forall wi s'', step w (LRun wi) s' = Some s'' -> queue (cx s'') = queue (cx s').
Proof. exact stays_queued. Qed.
Print Assumptions C20_stay_queued.
(** After a run that was cancelled, the task that waits for the next event is left behind in the
    caller's loop: it takes an event although the service is not running. *)
Theorem C20_refuted : exists (w : world) e (s s' : st) ls, reachable w s /\ in_run s = false /\ queue (cx s) = [e] /\
  steps w s ls s' /\ in_run s' = false /\ queue (cx s') = [] /\ Forall (fun l => is_run l = false) ls /\ last (processed (hist s')) = Some e.
Proof.
  destruct (exec_then w0 [LRun false; LMain; LSigterm; LLeave; LEmit (EvUser 5)] [LEvent 5]
    (fun s => in_run s = false /\ queue (cx s) = [EvUser 5]) (fun s => in_run s = false /\ queue (cx s) = [] /\ last (processed (hist s)) = Some (EvUser 5)))
    as (s1 & s2 & H1 & H2 & (H3 & H4) & H5 & H6 & H7).
  { vm_compute. by repeat split. }
  assert (Forall (fun l => is_run l = false) [LEvent 5]) as HF by (by repeat constructor).
  exists w0, (EvUser 5), s1, s2, [LEvent 5]. exact (conj H1 (conj H3 (conj H4 (conj H2 (conj H5 (conj H6 (conj HF H7))))))).
Qed.
Print Assumptions C20_refuted.
Example C20_example :
  match exec w0 [LEmit (EvUser 1); LShutThread; LEmit (EvUser 2); LShutLoop true; LRun false] s0 with
  | Some s => length (queue (cx s)) = 2%nat /\ shutting_down s = false
  | None => False
  end.
Proof. vm_compute. by repeat split. Qed.

(** ** C21 *)
(** From every state in which a run waits (and was not disturbed before, and no thread is inside
    shutdown()), a second run is rejected; afterwards shutdown() does nothing. *)
Theorem C21_rejected : forall (w : world) (s : st) wi ws, rpc s = Waiting ws -> sdt s = SdNone -> loop_thread s = true ->
  exists s', step w (LRun wi) s = Some s' /\ hist s' = hist s ++ [ORejected] /\ rpc s' = rpc s /\ loop_set (cx s') = false /\ shutting_down s' = false /\
    step w LShutThread s' = Some s' /\ forall b, step w (LShutLoop b) s' = Some s'.
Proof. exact rejected. Qed.
Print Assumptions C21_rejected.
(** The run goes on, and shutdown() cannot end it. *)
Example C21_example :
  match exec w0 [LRun false; LMain] s0 with
  | Some s => rpc s = Waiting [] /\ loop_thread s = true /\ sdt s = SdNone
  | None => False
  end /\
  match exec w0 [LRun false; LMain; LRun false; LShutThread; LShutLoop true; LEmit (EvUser 1); LEvent 5; LWake; LMain] s0 with
  | Some s => in_run s = true /\ shutting_down s = false /\ length (queue (cx s)) = 0%nat
  | None => False
  end.
Proof. vm_compute. by repeat split. Qed.

(** ** C22 *)
(** A run that returns and was not cancelled leaves the context marked as shut down (from then on
    C22_stays_shut_down and C22_nothing_starts apply). *)
Theorem C22_return_marks : forall (w : world) l (s s' : st), reachable w s -> step w l s = Some s' -> in_run s = true -> in_run s' = false ->
  ~ run_cancelled w s -> is_shutdown (cx s') = true.
Proof. exact return_shut. Qed.
Print Assumptions C22_return_marks.
(** In whatever is done with the service after such a run, no action starts a process, except
    one whose coroutine was still at work. *)
Theorem C22_later_runs : forall (w : world) a l (s s1 : st) ls (s2 : st), reachable w s -> step w l s = Some s1 -> in_run s = true -> in_run s1 = false ->
  ~ run_cancelled w s -> steps w s1 ls s2 -> ~ active a s1 ->
  is_shutdown (cx s2) = true /\ process_history a (hist s2) = process_history a (hist s1).
Proof. exact later_runs. Qed.
Print Assumptions C22_later_runs.
