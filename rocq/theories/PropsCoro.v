(** The properties of OpaqueCoroutine (C95). *)
From Coq Require Import ssreflect.
From Verif Require Import SubstFacts SpecCoro ExWorld ServiceFacts TimerLaws CoroFacts.

(** ** C95 *)
(** Visiting an OpaqueCoroutine starts a coroutine of the user, collects its task as the future
    the run is to wait for, leaves those of other actions, and registers a handler for Shutdown. *)
Theorem C95_starts : forall (w : world) a n fuel (s s' : st) fs, visit_all w fuel (EAct a None (ACoro n)) s = (s', Ok fs) ->
  exists f h, fs = [f] /\ f = next s /\ coroutine_of a s' f /\ f_get f s' = FPending /\ ufuts s' = f :: ufuts s /\
    (forall b, b <> a -> coros s' !! b = coros s !! b) /\
    cancels_on_shutdown a h /\ In h (handlers (cx s')) /\ In (OReg h) (hist s').
Proof. exact starts. Qed.
Print Assumptions C95_starts.
(** Every Shutdown event that is processed asks the coroutine to cancel itself, unless it has
    ended, or the action was executed again. *)
Theorem C95_cancels : forall (w : world) a h r g f (s s' : st), reachable w s -> cancels_on_shutdown a h -> still_registered h s ->
  processes w s (EvShutdown r g) (Ok tt) s' -> coroutine_of a s f -> coroutine_of a s' f -> f_is_done f s' = false ->
  exists l, hist s' = hist s ++ l /\ In (OCancel f) l.
Proof. exact shutdown_cancels. Qed.
Print Assumptions C95_cancels.
(** That is all its handler does: it asks the coroutine of its own action, at most once per event. *)
Theorem C95_handler : forall (w : world) fuel a h e (s s' : st), cancels_on_shutdown a h -> handle_one w fuel h e s = (s', Ok tt) ->
  coros s' = coros s /\ futs s' = futs s /\ exists l, hist s' = hist s ++ l /\
    (forall f, cancel_requests l = [f] <-> coroutine_of a s f /\ f_is_done f s = false) /\ (length (cancel_requests l) <= 1)%nat.
Proof. exact handler_law. Qed.
Print Assumptions C95_handler.

(** Finding: a coroutine that obeys ends the run at once. When the run notices that what it
    waits for was cancelled, it does not shut anything down, nor wait for anything else: no
    further event is taken from the queue and the return code is 1. *)
Theorem C95_leaves : forall (w : world) (s : st), noticed_cancelled s ->
  exists s1, step w LWake s = Some s1 /\ rpc s1 = Leaving /\ hist s1 = hist s /\ rcode s1 = 1%Z /\ procs s1 = procs s /\ cx s1 = cx s.
Proof. exact leaves. Qed.
Print Assumptions C95_leaves.
Theorem C95_no_more : forall (w : world) (s : st) ls (s' : st), reachable w s -> noticed_cancelled s -> steps w s ls s' ->
  Forall (fun l => is_run l = false) ls -> ~ In LMain ls.
Proof. exact no_more. Qed.
Print Assumptions C95_no_more.
Theorem C95_returns_one : forall (w : world) (s : st) ls l (s' s'' : st), reachable w s -> noticed_cancelled s -> steps w s ls s' ->
  Forall (fun l => is_run l = false) ls -> step w l s' = Some s'' -> in_run s' = true -> in_run s'' = false ->
  hist s'' = hist s' ++ [OReturn 1].
Proof.
  intros w s ls l s' s'' Hr (ws & f & H1 & H2 & H3). apply exn_return; [done|]. exists ws. split; [done|]. right. exists f. auto.
Qed.
Print Assumptions C95_returns_one.
(** So a launch service that is asked to shut down while a process and a coroutine run returns
    1 although nothing failed, and leaves the process running; the SIGINT it has emitted for it
    stays in the queue. *)
Definition ex_co : entity := EAct (User 2) None (ACoro 0).
Definition ex_both : list label :=
  [LEmit (EvInclude [ex_proc (ex_cfg false None 0); ex_co]); LRun false; LMain; LEvent 9; LTask 0; LSpawnOk 0 77; LTask 0;
   LWake; LMain; LEvent 8; LWake; LMain].
Definition ex_stop : list label := [LShutLoop true; LEvent 9; LUserFut 11 FCancelled; LWake; LLeave].
Theorem C95_orderly_refuted : exists (w : world) a (s : st) ls (s' : st), reachable w s /\ steps w s ls s' /\
  Forall (fun l => is_run l = false /\ l <> LSigterm /\ l <> LReport) ls /\ in_run s = true /\ running a s = true /\
  in_run s' = false /\ last (hist s') = Some (OReturn 1) /\ running a s' = true /\ ~ (exists sg, In (OSignal a sg) (hist s')) /\
  queue (cx s') = [EvSignalProcess SIGINT (PMAction a)].
Proof.
  destruct (exec_then w0 ex_both ex_stop (fun s => in_run s = true /\ running (User 1) s = true)
    (fun s => in_run s = false /\ last (hist s) = Some (OReturn 1) /\ running (User 1) s = true /\
       existsb (fun o => match o with OSignal _ _ => true | _ => false end) (hist s) = false /\ queue (cx s) = [EvSignalProcess SIGINT (PMAction (User 1))]))
    as (s1 & s2 & H1 & H2 & (H3 & H4) & H5 & H6 & H7 & H8 & H9).
  { vm_compute. by repeat split. }
  assert (Forall (fun l => is_run l = false /\ l <> LSigterm /\ l <> LReport) ex_stop) as HF by (by repeat constructor).
  assert (~ exists sg, In (OSignal (User 1) sg) (hist s2)) as HS.
  { intros [sg Hin]. assert (existsb (fun o => match o with OSignal _ _ => true | _ => false end) (hist s2) = true) as E; [|congruence].
    apply existsb_exists. by eexists. }
  exists w0, (User 1), s1, ex_stop, s2. exact (conj H1 (conj H2 (conj HF (conj H3 (conj H4 (conj H5 (conj H6 (conj H7 (conj HS H9))))))))).
Qed.
Print Assumptions C95_orderly_refuted.
(** Finding: an action that was executed twice runs two coroutines, and a shutdown asks only
    the second one (once for each of the two handlers). *)
Definition ex_twice : list label := [LEmit (EvInclude [ex_co; ex_co]); LRun false; LMain; LEvent 9; LWake; LMain].
Theorem C95_twice_refuted : exists (w : world) a f f' (s : st) r g (s' : st), reachable w s /\ processes w s (EvShutdown r g) (Ok tt) s' /\
  f <> f' /\ rpc s = Waiting [f; f'] /\ coroutine_of a s f' /\ f_is_done f s' = false /\ f_is_done f' s' = false /\ cancel_requests (hist s') = [f'; f'].
Proof.
  destruct (exec_then w0 (ex_twice ++ [LShutLoop true]) [LEvent 9]
    (fun s => rpc s = Waiting [3; 5]%nat /\ coros s !! User 2 = Some 5%nat /\ head (queue (cx s)) = Some (EvShutdown "LaunchService.shutdown() called" false))
    (fun s => evt s = ETDone (Ok tt) /\ f_is_done 3 s = false /\ f_is_done 5 s = false /\ cancel_requests (hist s) = [5; 5]%nat))
    as (s1 & s2 & H1 & H2 & (H3 & H4 & H5) & H6 & H7 & H8 & H9).
  { vm_compute. by repeat split. }
  inversion H2 as [|? ? s3 ? ? HE HN]; subst. inversion HN; subst.
  exists w0, (User 2), 3%nat, 5%nat, s1, "LaunchService.shutdown() called"%string, false, s2. split_and!; try done. by exists 9%nat.
Qed.
Print Assumptions C95_twice_refuted.

(** ** Cases *)
(** A shutdown that meets the premises of C95_cancels. *)
Example C95_example :
  match exec w0 (ex_both ++ [LShutLoop true]) s0 with
  | Some s => coros s !! User 2 = Some 11%nat /\ existsb (fun h => match h_body h with HCoroCancel (User 2) => true | _ => false end) (handlers (cx s)) = true /\
      match exec w0 [LEvent 9] s with
      | Some s' => evt s' = ETDone (Ok tt) /\ coros s' !! User 2 = Some 11%nat /\ cancel_requests (hist s) = [] /\ cancel_requests (hist s') = [11%nat]
      | None => False
      end
  | None => False
  end.
Proof. vm_compute. by repeat split. Qed.
