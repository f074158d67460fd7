(** C101: what ThisLaunchFile and ThisLaunchFileDir give. *)
From Verif Require Import ExWorld SpecThisFile ThisFileFacts.

(** C101: wherever a visit has got to, ThisLaunchFile and ThisLaunchFileDir give the file, and its
    directory, of the include that was begun last, wherever in the visit that was and whether or not
    it has ended; if none was begun, they give what they gave at the beginning. *)
Theorem C101_where : forall (w : world) (e : entity) (s : st) (seen : list (entity * bool)) (x : entity) (s' : st),
  tame w -> remembers (cx s) -> visit_at w e s seen x s' -> no_timers seen ->
  match last_include seen with
  | Some src => is_at w src s'
  | None => this_file w s' = this_file w s /\ this_dir w s' = this_dir w s
  end.
Proof. intros w e s seen x s' Hw. exact (where_lemma w Hw e s seen x s'). Qed.
Print Assumptions C101_where.

(** C101: in particular the entities of an included launch file see that file, as long as no include
    of its own has begun; and so do the values of the arguments that the include was given, which are
    evaluated there. *)
Theorem C101_inside : forall (w : world) a c src args (s : st) (seen : list (entity * bool)) (x : entity) (s' : st),
  tame w -> remembers (cx s) -> visit_at w (EAct a c (AInclude src args)) s seen x s' -> no_timers seen ->
  seen <> [] -> last_include (tl seen) = None -> is_at w src s'.
Proof.
  intros w a c src args s seen x s' Hw HR V N Hs Hl. pose proof (where_lemma w Hw _ _ _ _ _ HR V N) as M.
  inversion V; subst; [exfalso; apply Hs; reflexivity|]. cbn [tl] in Hl. cbn [last_include] in M. rewrite Hl in M. exact M.
Qed.
Print Assumptions C101_inside.

(** C101: after a file was included, it is not the including file that is given, but the one whose
    inclusion was begun last. *)
Theorem C101_after : forall (w : world) a c src args (s : st) (t : vtree) (fs : list nat) (s' : st),
  tame w -> remembers (cx s) -> visit_run w (EAct a c (AInclude src args)) s t fs s' -> no_timers (outcomes t) ->
  t <> VNode (EAct a c (AInclude src args)) [] ->
  exists src', last_include (outcomes t) = Some src' /\ is_at w src' s'.
Proof. intros w a c src args s t fs s'. apply after_file. Qed.
Print Assumptions C101_after.

(** C101: the entities that an event handler returns know no launch file where none is known to the
    context in which the event is handled, until an include among them begins. *)
Theorem C101_handler : forall (w : world) h ev (s s1 : st) before x after ts fs (s2 : st) seen y (s3 : st),
  tame w -> handle w h ev s = (s1, Ok (before ++ x :: after)) -> visit_runs w before s1 ts fs s2 ->
  visit_at w x s2 seen y s3 -> no_timers (flat_map outcomes ts ++ seen) ->
  match last_include (flat_map outcomes ts ++ seen) with
  | Some src => is_at w src s3
  | None => (remembers (cx s) -> this_file w s3 = this_file w s /\ this_dir w s3 = this_dir w s) /\
            (outside (cx s) -> this_file w s3 = Exn XSubst /\ this_dir w s3 = Exn XSubst)
  end.
Proof. intros. eapply handler_file; eassumption. Qed.
Print Assumptions C101_handler.

(** C101: the entities of a timer, however much later they come to be visited, begin with the file
    that was given when the timer was executed. *)
Theorem C101_timer : forall (w : world) fuel fuel' a a' p b c (s s1 : st) r (s2 s3 : st) l t1 t2 f d,
  remembers (cx s) -> this_file w s = Ok f -> this_dir w s = Ok d ->
  (forall t, timers s !! a = Some t -> t_canceled t = false) ->
  exec_action w fuel a (ATimer p b c) s = (s1, Ok r) ->
  timers s1 !! a = Some t1 -> timers s2 !! a = Some t2 -> t_locals t2 = t_locals t1 ->
  (get_local "event" (cx s2)).2 = Ok (LEv (EvTimer a)) -> exec_action w fuel' a' ITimerHandle s2 = (s3, Ok l) ->
  this_file w s3 = Ok f /\ this_dir w s3 = Ok d.
Proof. intros w fuel fuel' a a' p b c s s1 r s2 s3 l t1 t2 f d. exact (timer_file w fuel fuel' a a' p b c s s1 r s2 s3 l t1 t2 f d). Qed.
Print Assumptions C101_timer.

(** ** Concrete cases
    File 1 is /a/main.py, file 2 is /b/part.py. The first logs its own path, includes the second, in a
    group with a scope of its own, with its own directory as an argument, and then logs its path
    again; it also registers a handler of event 5 that logs the path, and has a timer that does. *)
Definition say (n : nat) : entity := EAct (User n) None (ALog [SThisFile]).
Definition h101 : handler := MkH (User 90) (MFun 5) false (HEntities [EAct (User 17) None (ALog [SText "event"]); say 16; EAct (User 18) None (ALog [SText "done"])]).
Definition part : entity := EAct (User 12) None (AInclude 2 [([SText "dir"], [SThisDir])]).
Definition w101 : world := mkWorld
  (w_yaml w0) (w_sfun w0) (w_rand w0) (w_cond w0) (w_match w0) (w_tgt w0) (w_pmatch w0) (w_fun w0)
  (fun n _ _ =>
    if Nat.eqb n 1 then Ok [EAct (User 19) None (ARegister h101); say 11; EAct (User 10) None (AGroup true true [] [part]); say 13]
    else Ok [say 14; EAct (User 15) None (ALog [SLaunchConfig [SText "dir"] None])])
  (fun n => [SText (if Nat.eqb n 1 then "/a/main.py" else "/b/part.py")]) (fun p => p)
  (fun p => if String.eqb p "/a/main.py" then "/a" else "/b") (w_shlex w0) (w_rematch w0) (w_output_ok w0).
Definition main101 : entity := EAct (User 1) None (AInclude 1 []).
Definition told (s : st) : list string := omap (fun o => match o with OLog x => Some x | _ => None end) (hist s).

(** C101 (refuted): it is not so that a launch file sees itself throughout: after an include it sees
    the included file. It is not so either that the arguments of an include are evaluated where they
    are written: the directory that was to be the one of /a/main.py is the one of /b/part.py. *)
Theorem C101_after_refuted :
  (visit_all w101 12 main101 s0).2 = Ok [] /\
  told (visit_all w101 12 main101 s0).1 = ["/a/main.py"; "/b/part.py"; "/b"; "/b/part.py"].
Proof. split; vm_compute; reflexivity. Qed.
Print Assumptions C101_after_refuted.

(** C101 (refuted): it is not so that the handlers that a launch file registers see that file: an
    event is handled in a context that knows none, so that ThisLaunchFile raises, and the run fails. *)
Theorem C101_handler_refuted :
  match exec w101 ([LEmit (EvInclude [main101]); LRun false; LMain; LEvent 12; LEmit (EvUser 5)] ++ ex_event) s0 with
  | Some s => told s = ["/a/main.py"; "/b/part.py"; "/b"; "/b/part.py"; "event"] /\ outside (cx s)
  | None => False
  end.
Proof. vm_compute. split; [reflexivity|]. intros k [->| ->]; split; reflexivity. Qed.
Print Assumptions C101_handler_refuted.

(** The hypotheses of the theorems are met: on the way from the include of file 2 to the first entity
    of that file ... *)
Example C101_example : tame w101 /\ remembers (cx s0) /\
  exists seen s', visit_at w101 part s0 seen (say 14) s' /\ no_timers seen /\ length seen = 3 /\
  last_include (tl seen) = None /\ last_include seen = Some 2 /\ this_file w101 s' = Ok "/b/part.py".
Proof.
  split; [intros f c ops r [= <- _] k v [[]|[]]|]. split; [intros d H; discriminate H|].
  eexists _, _. split.
  - eapply (va_below _ 12 _ _ [_]); [vm_compute; reflexivity| |].
    + eapply vr_cons; [|apply vr_nil]. eapply (vr_node _ 12); [vm_compute; reflexivity|apply vr_nil].
    + eapply (va_below _ 12 _ _ []); [vm_compute; reflexivity|apply vr_nil|]. apply va_here.
  - split; [|repeat split; vm_compute; reflexivity]. intros a c b H. vm_compute in H.
    repeat (destruct H as [H|H]; [discriminate H|]). exact H.
Qed.
(** ... and with a timer that is executed in file 2 and fires later, when no file is known. *)
Definition s101 : st := (visit_all w101 12 part (s0 <| cx ::= fun c => c <| loop_set := true |> |>)).1.
Definition s102 : st := (exec_action w101 3 (User 30) (ATimer (FS [SText "1"]) [say 31] (BV true)) s101).1.
Definition s103 : st := s0 <| timers := timers s102 |> <| cx ::= extend_locals {["event" := LEv (EvTimer (User 30))]} |>.
Example C101_timer_example :
  remembers (cx s101) /\ this_file w101 s101 = Ok "/b/part.py" /\ timers s101 !! User 30 = None /\
  (exec_action w101 3 (User 30) (ATimer (FS [SText "1"]) [say 31] (BV true)) s101).2 = Ok [] /\
  is_Some (timers s102 !! User 30) /\ timers s103 = timers s102 /\
  (get_local "event" (cx s103)).2 = Ok (LEv (EvTimer (User 30))) /\ outside (cx s103) /\
  (exec_action w101 3 (Gen 0) ITimerHandle s103).2 = Ok [say 31] /\
  this_file w101 (exec_action w101 3 (Gen 0) ITimerHandle s103).1 = Ok "/b/part.py".
Proof.
  split; [intros d; vm_compute; intros [= <-]; reflexivity|]. do 3 (split; [vm_compute; reflexivity|]).
  split; [vm_compute; eexists; reflexivity|]. do 2 (split; [vm_compute; reflexivity|]).
  split; [intros k [->| ->]; split; vm_compute; reflexivity|]. split; vm_compute; reflexivity.
Qed.
