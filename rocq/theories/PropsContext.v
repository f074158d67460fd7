(** Properties of LaunchContext: C03, C04, C14. *)
From Verif Require Import SpecContext CtxFacts.

(** C03: a pop restores exactly what was current at the matching push, whatever
    (balanced) operations happened in between on this and the other stores. *)
Theorem C03_pop_restores : forall (k : store) (c : ctx) (mid : list cop),
  balanced k mid ->
  exists c', do_cop (pop_of k) (history (push_of k :: mid) c) = (c', Ok tt)
             /\ content k c' = content k c.
Proof. exact lifo_ex. Qed.
Print Assumptions C03_pop_restores.

(** C03: in a context where every push has been popped again, one more pop raises
    and changes nothing. *)
Theorem C03_unmatched_pop_raises : forall (k : store) (nonint : bool) (e : dict string) (os : list cop),
  balanced k os ->
  do_cop (pop_of k) (history os (new_ctx nonint e)) = (history os (new_ctx nonint e), Exn XRuntime).
Proof. exact pop_unmatched. Qed.
Print Assumptions C03_unmatched_pop_raises.

(** C03: the three stores do not interfere: the content of a store depends only on
    the operations on that store. *)
Theorem C03_stores_independent : forall (k : store) (os : list cop) (c : ctx),
  content k (history os c) = content k (history (List.filter (touches k) os) c).
Proof. exact no_interference_content. Qed.
Print Assumptions C03_stores_independent.

Example C03_example :
  balanced StLC [CSetLC "a" "2"; CPushEnv; CPushLC; CDelLC "a"; CPopEnv; CPopLC; CSetLC "b" "3"; CPushEnv].
Proof. exact balanced_example. Qed.
Example C03_example_value :
  lc (history [CSetLC "a" "1"; CPushLC; CSetLC "a" "2"; CPushLC; CDelLC "a"; CPopLC] (new_ctx false ∅))
  !! "a" = Some "2".
Proof. vm_compute. reflexivity. Qed.

(** C04: after any history whose pops are matched, reading context.locals shows
    for every key the newest local extension that has not been popped, else the
    newest global; reads in between (which fill the cache) make no difference. *)
Theorem C04_locals_never_stale :
  forall (nonint : bool) (e : dict string) (os : list cop) (key : string),
  (forall p q, os = p ++ q -> pops StLocals p <= pushes StLocals p)%nat ->
  (get_combined_locals (history os (new_ctx nonint e))).2 !! key = visible key os.
Proof. exact locals_visible_new. Qed.
Print Assumptions C04_locals_never_stale.

(** C04: a global extension is permanent: pushes and pops do not undo it. *)
Theorem C04_globals_permanent :
  forall (nonint : bool) (e : dict string) (os : list cop) (key : string),
  globals (history os (new_ctx nonint e)) !! key = last_global key (rev os).
Proof. exact globals_last_new. Qed.
Print Assumptions C04_globals_permanent.

Example C04_example :
  let os := [CGlobals {["x" := LOther 1]}; CRead; CPushLocals; CLocals {["x" := LOther 2]}; CRead;
             CGlobals {["x" := LOther 3]}; CRead; CPopLocals; CRead] in
  visible "x" os = Some (LOther 3) /\ visible "x" (take 7 os) = Some (LOther 2)
  /\ (get_combined_locals (history os (new_ctx false ∅))).2 !! "x" = Some (LOther 3).
Proof. vm_compute. repeat split. Qed.

(** C14: unregistering removes exactly one registration, the first in handling
    order, and keeps all others in order. *)
Theorem C14_unregister_removes_first : forall (c c' : ctx) (h : handler),
  unregister_event_handler (h_id h) c = (c', Ok tt) ->
  exists before x after,
    handlers c = before ++ x :: after /\ handlers c' = before ++ after
    /\ h_id x = h_id h /\ Forall (fun y => h_id y <> h_id h) before
    /\ c' = c <| handlers := before ++ after |>.
Proof. exact unregister_first. Qed.
Print Assumptions C14_unregister_removes_first.

(** C14: it fails, changing nothing, exactly if the handler is not registered. *)
Theorem C14_unregister_raises_iff : forall (c : ctx) (h : handler),
  (exists c', unregister_event_handler (h_id h) c = (c', Ok tt)) /\ occurrences (h_id h) (handlers c) <> O
  \/ unregister_event_handler (h_id h) c = (c, Exn XValue) /\ occurrences (h_id h) (handlers c) = O.
Proof. exact unregister_iff. Qed.
Print Assumptions C14_unregister_raises_iff.

(** C14: register followed by unregister is the identity if the handler was not
    registered before (whether prepended or appended). *)
Theorem C14_register_unregister : forall (c : ctx) (h : handler) (append : bool),
  occurrences (h_id h) (handlers c) = O ->
  unregister_event_handler (h_id h) (register_event_handler h append c) = (c, Ok tt).
Proof. exact register_unregister. Qed.
Print Assumptions C14_register_unregister.

(** C14: registering puts the handler first, or last with append=True. *)
Theorem C14_register_position : forall (c : ctx) (h : handler),
  handlers (register_event_handler h false c) = h :: handlers c
  /\ handlers (register_event_handler h true c) = handlers c ++ [h].
Proof. exact register_position. Qed.
Print Assumptions C14_register_position.

Example C14_example :
  let h1 := MkH (User 1) MShutdown false HNone in
  let h2 := MkH (User 2) MShutdown false HNone in
  let c := register_event_handler h1 false (register_event_handler h2 false
             (register_event_handler h1 true (new_ctx false ∅))) in
  occurrences (User 1) (handlers c) = 2%nat /\
  handlers (unregister_event_handler (User 1) c).1 = [h2; h1].
Proof. vm_compute. repeat split. Qed.
