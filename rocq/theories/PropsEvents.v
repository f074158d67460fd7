(** The properties of events and event handlers (C05, C06, C09 second part, C10-C13, C15).
    [w] stands for all user code; [reachable w s] says that some schedule of the service
    leads from a new LaunchService to [s]; [processes w s e r s'] that the next step of the
    event task takes [e] from the queue and processes it, ending with [r]. *)
From Verif Require Import ExWorld SpecEvents EventFacts.

(** C05: every handler called for the event (in order; C11 says which) finds the event in
    context.locals.event, and as locals exactly those from before the event plus the event,
    whatever the handlers before it added; afterwards the locals are as before. *)
Theorem C05_locals_isolated : forall (w : world) (s s' : st) e,
  reachable w s -> processes w s e (Ok tt) s' ->
  (exists l, observed s (OProcess e :: l) s' /\
     bodies l = map (fun i => (i, <["event" := LEv e]> (locals (cx s)), Ok (LEv e))) (receivers w e (cx s))) /\
  locals (cx s') = locals (cx s) /\ locals_stack (cx s') = locals_stack (cx s).
Proof. exact C05_isolated. Qed.
Print Assumptions C05_locals_isolated.

(** Two handlers for event 1; the first adds the local x and emits an event. *)
Example C05_example :
  let ha := MkH (User 40) (MFun 1) false (HFun 1) in
  let hb := MkH (User 41) (MFun 1) true (HFun 0) in
  match exec w1 [LUser [OpLocal "z" (LOther 3); OpRegister hb true; OpRegister ha true]; LEmit (EvUser 1); LRun false; LMain] s0 with
  | Some s => match step w1 (LEvent 5) s with
              | Some s' => evt s' = ETDone (Ok tt) /\ locals (cx s') !! "x" = None /\ locals (cx s') !! "event" = None /\
                           locals (cx s') !! "z" = Some (LOther 3) /\
                           map (fun b => (b.1.1, b.1.2 !! "event", b.1.2 !! "z", b.2)) (bodies (hist s'))
                           = [(User 41, Some (LEv (EvUser 1)), Some (LOther 3), Ok (LEv (EvUser 1)));
                              (User 40, Some (LEv (EvUser 1)), Some (LOther 3), Ok (LEv (EvUser 1)))]
              | None => False
              end
  | None => False
  end.
Proof. vm_compute. by repeat split. Qed.

(** C06 (a finding): when a handler raises, the pop that restores the locals is skipped: the
    locals of before stay on the stack, and the local "event" (and any other local there was)
    remains defined ... *)
Theorem C06_locals_leak : forall (w : world) (s s' : st) e x,
  reachable w s -> processes w s e (Exn x) s' ->
  locals_stack (cx s') = locals (cx s) :: locals_stack (cx s) /\
  (forall k, k = "event" \/ is_Some (locals (cx s) !! k) -> is_Some (locals (cx s') !! k)).
Proof. exact C06_leak. Qed.
Print Assumptions C06_locals_leak.

(** ... for ever: no step of the service makes a local disappear. *)
Theorem C06_locals_stay : forall (w : world) (s : st) ls (s' : st) k,
  reachable w s -> steps w s ls s' -> is_Some (locals (cx s) !! k) -> is_Some (locals (cx s') !! k).
Proof. exact leak_stays. Qed.
Print Assumptions C06_locals_stay.

Example C06_example :
  let ha := MkH (User 40) (MFun 1) false (HFun 2) in
  match exec w1 [LUser [OpRegister ha true]; LEmit (EvUser 1); LRun false; LMain; LEvent 5] s0 with
  | Some s' => evt s' = ETDone (Exn XRuntime) /\ locals (cx s') !! "y" = Some (LOther 2) /\
               locals (cx s') !! "event" = Some (LEv (EvUser 1)) /\ length (locals_stack (cx s')) = 1%nat
  | None => False
  end.
Proof. vm_compute. by repeat split. Qed.

(** C09: the emission left to a future by C09_completion stays pending until its callback
    runs, ... *)
Theorem C09_callbacks_kept : forall (w : world) (l : label) (s s' : st),
  reachable w s -> step w l s = Some s' -> (forall i, l <> LCallback i) -> exists new, cbs s' = cbs s ++ new.
Proof. exact C09_kept. Qed.
Print Assumptions C09_callbacks_kept.

(** ... which is possible exactly when the future is done and the loop is running, and emits
    that event once and no other. *)
Theorem C09_callbacks : forall (w : world) i (s s' : st),
  step w (LCallback i) s = Some s' <->
  in_loop s = true /\ exists f e, cbs s !! i = Some (f, e) /\ f_is_done f s = true /\
    s' = emit e (s <| cbs := take i (cbs s) ++ drop (S i) (cbs s) |>).
Proof. exact C09_callback. Qed.
Print Assumptions C09_callbacks.

Example C09_example :
  let h := MkH (User 7) (MAct CComplete (TgtAct (User 1))) false (HFun 0) in
  match exec w1 [LUser [OpRegister h false]; LEmit (EvInclude [EAct (User 1) None (ACoro 0)]); LRun false; LMain; LEvent 9] s0 with
  | Some s => cbs s = [(3%nat, EvComplete (User 1))] /\ step w1 (LCallback 0) s = None /\
              match exec w1 [LUserFut 3 FOk; LCallback 0] s with
              | Some s' => queue (cx s') = [EvComplete (User 1)] /\ cbs s' = []
              | None => False
              end
  | None => False
  end.
Proof. vm_compute. by repeat split. Qed.

(** C10: at any time, the events emitted so far are, in this order, the events processed and
    the events still queued: none is lost, duplicated or reordered. *)
Theorem C10_order : forall (w : world) (s : st),
  reachable w s -> emitted (hist s) = processed (hist s) ++ queue (cx s).
Proof. exact C10_inv. Qed.
Print Assumptions C10_order.

(** C10: handlers are only called for the event taken last from the queue, so each event is
    processed completely before the next. *)
Theorem C10_one_at_a_time : forall (w : world) (s : st), reachable w s -> one_event_at_a_time (hist s).
Proof. exact one_at_a_time. Qed.
Print Assumptions C10_one_at_a_time.

Example C10_example :
  let ha := MkH (User 40) (MFun 1) false (HFun 1) in
  match exec w1 [LUser [OpRegister ha true]; LEmit (EvUser 1); LEmit (EvUser 2); LRun false; LMain; LEvent 5; LWake; LMain; LEvent 5; LWake; LMain] s0 with
  | Some s => processed (hist s) = [EvUser 1; EvUser 2] /\ queue (cx s) = [EvUser 6] /\
              emitted (hist s) = [EvUser 1; EvUser 2; EvUser 6] /\ handled (hist s) = [(User 40, EvUser 1)]
  | None => False
  end.
Proof. vm_compute. by repeat split. Qed.

(** C11: an event processed without exception is handled by exactly the handlers registered
    before that match it, each once per registration, in the order of the deque (C14). *)
Theorem C11_received : forall (w : world) (s s' : st) e,
  reachable w s -> processes w s e (Ok tt) s' ->
  exists l, observed s (OProcess e :: l) s' /\ handled l = map (fun i => (i, e)) (receivers w e (cx s)).
Proof. exact C11_ok. Qed.
Print Assumptions C11_received.

(** C11: if a handler raises, the event was handled by those before it and by it, in that
    order, and the remaining ones do not get the event. *)
Theorem C11_exception : forall (w : world) (s s' : st) e x,
  reachable w s -> processes w s e (Exn x) s' ->
  exists l before i after, observed s (OProcess e :: l) s' /\
    receivers w e (cx s) = before ++ i :: after /\ handled l = map (fun i => (i, e)) (before ++ [i]).
Proof. exact C11_exn. Qed.
Print Assumptions C11_exception.

Example C11_example :
  let h n b := MkH (User n) (MFun 1) false (HFun b) in
  let run bodies := match exec w1 [LUser (map (fun nb => OpRegister (h nb.1 nb.2) false) bodies); LEmit (EvUser 1); LRun false; LMain; LEvent 5] s0 with
    | Some s => (map fst (handled (hist s)), evt s) | None => ([], ETNone) end in
  run [(40, 0); (41, 0); (40, 0)]%nat = ([User 40; User 41; User 40], ETDone (Ok tt)) /\
  run [(40, 0); (41, 2); (42, 0)]%nat = ([User 42; User 41], ETDone (Exn XRuntime)).
Proof. vm_compute. by repeat split. Qed.

(** C12: a handler that is not registered when the processing of an event starts does not
    handle it, even if it is registered in the meantime. *)
Theorem C12_registered_during : forall (w : world) (s : st) e r (s' : st) i,
  reachable w s -> processes w s e r s' -> ~ registered i (cx s) ->
  exists l, observed s (OProcess e :: l) s' /\ times_handled i l = 0%nat.
Proof. exact C12_new. Qed.
Print Assumptions C12_registered_during.

(** C12: a matching handler registered when it starts handles the event, even if it is
    unregistered in the meantime. *)
Theorem C12_unregistered_during : forall (w : world) (s : st) e (s' : st) h,
  reachable w s -> processes w s e (Ok tt) s' -> In h (handlers (cx s)) -> matches w h e = true ->
  exists l, observed s (OProcess e :: l) s' /\ In (h_id h, e) (handled l).
Proof. exact C12_old. Qed.
Print Assumptions C12_unregistered_during.

(** C12: a user's handler stays registered as often as it was registered minus the times it
    was unregistered (explicitly or by handle_once); together with the two theorems above, it
    gets every matching event from its registration until then. *)
Theorem C12_until_unregistered : forall (w : world) (s : st) n, reachable w s ->
  (occurrences (User n) (handlers (cx s)) + unregistrations (User n) (hist s)
   = length (registrations (User n) (hist s)))%nat.
Proof. exact C12_accounted. Qed.
Print Assumptions C12_until_unregistered.

(** Handler 40 registers handler 50 for event 5, handler 42 unregisters 51. *)
Example C12_example :
  let h n b := MkH (User n) (MFun 5) false (HFun b) in
  match exec w1 [LUser [OpRegister (h 40 3) true; OpRegister (h 42 4) true; OpRegister (h 51 0) true]%nat; LEmit (EvUser 5); LRun false; LMain; LEvent 5] s0 with
  | Some s => map fst (handled (hist s)) = [User 40; User 42; User 51] /\
              map h_id (handlers (cx s)) = [Gen 2; Gen 1; User 40; User 42; User 50]
  | None => False
  end.
Proof. vm_compute. by repeat split. Qed.

(** C13: a handle_once handler handles at most as many events as it was registered: ... *)
Theorem C13_at_most_once : forall (w : world) n (s : st), reachable w s ->
  Forall (fun h => h_once h = true) (registrations (User n) (hist s)) ->
  (times_handled (User n) (hist s) <= length (registrations (User n) (hist s)))%nat.
Proof. exact C13_most. Qed.
Print Assumptions C13_at_most_once.

(** ... and if registered once, the first matching event processed is the one it handles. *)
Theorem C13_first_match : forall (w : world) n h (s : st) e (s' : st), reachable w s ->
  h_id h = User n -> h_once h = true -> registered (User n) (cx s) ->
  registrations (User n) (hist s') = [h] -> matches w h e = true -> processes w s e (Ok tt) s' ->
  times_handled (User n) (hist s) = 0%nat /\ times_handled (User n) (hist s') = 1%nat /\
  ~ registered (User n) (cx s').
Proof. exact C13_first. Qed.
Print Assumptions C13_first_match.

Example C13_example :
  let h := MkH (User 40) (MFun 1) true (HFun 1) in
  match exec w1 [LUser [OpRegister h true]; LEmit (EvUser 2); LEmit (EvUser 1); LEmit (EvUser 1); LRun false;
                 LMain; LEvent 5; LWake; LMain; LEvent 5; LWake; LMain; LEvent 5] s0 with
  | Some s => map fst (handled (hist s)) = [User 40] /\ registrations (User 40) (hist s) = [h] /\
              processed (hist s) = [EvUser 2; EvUser 1; EvUser 1] /\ evt s = ETDone (Ok tt)
  | None => False
  end.
Proof. vm_compute. by repeat split. Qed.

(** C11: what [matches], by which [receivers] is defined, means. *)
Theorem C11_matching : forall (w : world) h e, matches w h e = true <-> stands_for w (h_match h) e.
Proof. exact stands_for_iff. Qed.
Print Assumptions C11_matching.

(** C15: a handler of a kind of action events with a target matches exactly the events of
    that kind whose action is the target. *)
Theorem C15_target_matching : forall (w : world) i c t o b e,
  matches w (MkH i (MAct c t) o b) e = true <-> exists a, is_event_of c a e /\ is_target w t a.
Proof. exact C15_target. Qed.
Print Assumptions C15_target_matching.

(** C15: OnProcessIO calls the callback of the stream of the event, and nothing else. *)
Theorem C15_io_callback : forall (w : world) fo fe fi e s,
  run_body w (HIO fo fe fi) e s =
  match stream_callback fo fe fi e with Some f => call_user w f s | None => (s, Ok []) end.
Proof. exact C15_io. Qed.
Print Assumptions C15_io_callback.

Example C15_example :
  let d := mkPdet "p" ["x"] None ∅ None in
  let m c t e := matches w0 (MkH (User 1) (MAct c t) false HNone) e in
  m CExit (TgtAct (User 3)) (EvExited (User 3) d 0) = true /\ m CExit (TgtAct (User 3)) (EvExited (User 4) d 0) = false /\
  m CStart TgtAny (EvExited (User 4) d 0) = false /\ m CIO TgtAny (EvStdin (User 4) "x") = true /\
  m CComplete (TgtFun 4) (EvComplete (User 4)) = true /\ m CComplete (TgtFun 4) (EvComplete (User 5)) = false.
Proof. vm_compute. by repeat split. Qed.
