(** C104: the scopes that are open when an exception is raised are never closed. *)
From Coq Require Import ssreflect.
From Verif Require Import ExWorld VisitFacts SpecEvents SpecOpen OpenFacts OpenEvents.

(** C104: when the visit of a launch description raises, what every group with a scope around the entity that raised has
    saved is still saved, innermost first, and nothing was restored: the stacks are what they were before and, on
    top, the configurations and the environment with which each of these groups was begun. *)
Theorem C104_open : forall (w : world) (n : nat) (e : entity) (s : st) (x : exn) (s' : st),
  clean_world w -> clean_sources s -> numbered s -> clean e ->
  visit_all w n e s = (s', Exn x) ->
  exists open, stops w e s open x s' /\
    lc_stack (cx s') = map lc open ++ lc_stack (cx s) /\ env_stack (cx s') = map env open ++ env_stack (cx s).
Proof. intros w n e s x s' HW Hs Hw Hc. exact (scopes_open w HW n e s x s' Hw Hs Hc). Qed.
Print Assumptions C104_open.

(** C104: so a group with a scope that raises leaves the configurations and the environment of before on the stacks, where
    a group that returns puts them back into place. *)
Theorem C104_group : forall (w : world) (n : nat) a c fw cfgs body (s : st) (x : exn) (s' : st),
  clean_world w -> clean_sources s -> numbered s -> Forall clean body -> cond_holds w c (cx s) ->
  visit_all w n (EAct a c (AGroup true fw cfgs body)) s = (s', Exn x) ->
  exists ls es, length ls = length es /\
    lc_stack (cx s') = ls ++ lc (after_cond w c (cx s)) :: lc_stack (cx s) /\
    env_stack (cx s') = es ++ env (after_cond w c (cx s)) :: env_stack (cx s).
Proof.
  intros w n a c fw cfgs body s x s' HW Hs Hw Hb Hcond E.
  destruct (scopes_open w HW n _ s x s' Hw Hs (cl_group a c true fw cfgs body Hb) E) as (open & Hst & HL & HE).
  inversion Hst as [fuel e0 s0 x0 s1 E1|fuel e0 s0 before k after s1 ts fs s2 open' x0 s3 E1 Hr Hk]; subst.
  - exfalso. revert E1. rewrite visit_one_act. apply cond_holds_result in Hcond. cbv zeta.
    destruct (cond_result w c (cx s)) as [c1 r1]. simpl in Hcond. subst r1. done.
  - apply visit_one_group in E1 as (b & _ & _ & Hq). apply same_but_queue_lc in Hq as (Hlc & Henv & _).
    assert (after_cond w c (cx s) = (cond_result w c (cx s)).1) as Ha by (by destruct c).
    exists (map lc open'), (map env open'). simpl in HL, HE. rewrite !map_app -!app_assoc /= in HL HE.
    rewrite Ha -Hlc -Henv HL HE !map_length. done.
Qed.
Print Assumptions C104_group.

(** C104: so, in whatever history: an event that is processed to the end leaves no scope open ... *)
Theorem C104_event_returns : forall (w : world) (s : st) (e : event) (s' : st),
  clean_world w -> reachable w s ->
  brings_clean w s e ->
  processes w s e (Ok tt) s' ->
  lc_stack (cx s') = lc_stack (cx s) /\ env_stack (cx s') = env_stack (cx s).
Proof.
  intros w s e s' HW Hr Hc Hp. destruct (event_ends w HW s e (Ok tt) s' Hr Hc Hp) as (s2 & (_ & _ & HS) & ->). exact HS.
Qed.
Print Assumptions C104_event_returns.

(** C104: ... and one whose processing raises leaves open just the scopes around the entity that raised: none, if it was
    not the visit of an entity that raised. *)
Theorem C104_event : forall (w : world) (s : st) (e : event) (x : exn) (s' : st),
  clean_world w -> reachable w s ->
  brings_clean w s e ->
  processes w s e (Exn x) s' ->
  exists open, (open <> [] -> exists ent s1 s2, stops w ent s1 open x s2 /\ cx s' = cx s2) /\
    lc_stack (cx s') = map lc open ++ lc_stack (cx s) /\ env_stack (cx s') = map env open ++ env_stack (cx s).
Proof.
  intros w s e x s' HW Hr Hc Hp. destruct (event_ends w HW s e (Exn x) s' Hr Hc Hp) as (s2 & (open & Hst & HL & HE) & ->).
  exists open. split; [|done]. intros H. destruct (Hst H) as (ent & s1 & H1). by exists ent, s1, s2.
Qed.
Print Assumptions C104_event.

(** A group within a group that raises: two scopes stay open, and a message outside would tell of the inner one. *)
Definition inner_group : entity := EAct (User 2) None (AGroup true true []
  [EAct (User 3) None (ASetLC [SText "x"] [SText "inner"]); EAct (User 4) None (ALog [SLaunchConfig [SText "missing"] None])]).
Definition outer_group : entity := EAct (User 1) None (AGroup true true [([SText "x"], [SText "outer"])] [inner_group]).
Example C104_example : clean_world w0 /\ clean_sources s0 /\ numbered s0 /\ clean outer_group /\ cond_holds w0 None (cx s0) /\
  exists s', visit_all w0 5 outer_group s0 = (s', Exn XSubst) /\ map (fun d => d !! "x") (lc_stack (cx s')) = [Some "outer"; None].
Proof.
  split; [split; intros; simplify_eq/=; constructor|].
  split; [by intros src loc ld|]. split; [by intros f _|].
  split; [repeat constructor|].
  split; [done|]. eexists. split; vm_compute; reflexivity.
Qed.

(** C104 (refuted): it is not so that what is set within a group with a scope is never seen outside: if the group raises,
    the handlers that are called at shutdown see it. *)
Definition tells : handler := MkH (User 40) MShutdown false (HEntity (EAct (User 9) None (ALog [SLaunchConfig [SText "x"] (Some [SText "none"])]))).
Theorem C104_outside_refuted : exists s,
  exec w0 [LUser [OpRegister tells true]; LEmit (EvInclude [outer_group]); LRun false; LMain; LEvent 9; LWake; LMain; LEvent 9] s0 = Some s /\
  In (OLog "inner") (log s).
Proof. eexists. split; [vm_compute; reflexivity|]. vm_compute. tauto. Qed.
Print Assumptions C104_outside_refuted.

(** The events of C104_event: the include of the two groups, which raises, and the shutdown that follows, which does not. *)
Example C104_event_example : exists s1 s2 s3,
  exec w0 [LUser [OpRegister tells true]; LEmit (EvInclude [outer_group]); LRun false; LMain] s0 = Some s1 /\
  brings_clean w0 s1 (EvInclude [outer_group]) /\
  step w0 (LEvent 9) s1 = Some s2 /\ evt s2 = ETDone (Exn XSubst) /\ length (lc_stack (cx s2)) = 2 /\
  exec w0 [LWake; LMain; LEvent 9] s2 = Some s3 /\ evt s3 = ETDone (Ok tt) /\ lc_stack (cx s3) = lc_stack (cx s2).
Proof.
  eexists _, _, _. split; [vm_compute; reflexivity|]. split.
  { intros before h after Hs Hm. left. assert (In h (before ++ h :: after)) as Hh by (apply in_or_app; right; by left).
    rewrite -Hs in Hh. clear Hs. simpl in Hh. assert (Forall clean [outer_group]) as Hc by (repeat constructor).
    repeat (destruct Hh as [<-|Hh]; [first [discriminate Hm|right; split; [reflexivity|]; by exists [outer_group]]|]). destruct Hh. }
  split; [vm_compute; reflexivity|]. split; [vm_compute; reflexivity|]. split; [vm_compute; reflexivity|].
  split; [vm_compute; reflexivity|]. split; vm_compute; reflexivity.
Qed.
