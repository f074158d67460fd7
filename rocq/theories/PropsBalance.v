(** C105: what a launch file can ask for changes only when an event is processed, and scopes are balanced over histories. *)
From Coq Require Import ssreflect.
From Verif Require Import ExWorld VisitFacts EventFacts SpecBalance BalanceFacts.

(** C105: between events nothing that a launch file can ask for changes: whatever signals arrive, processes and timers do,
    and shutdowns and runs are begun or end. Only names of AnonName may be added. *)
Theorem C105_between : forall (w : world) (l : label) (s s' : st),
  step w l s = Some s' -> (forall n, l <> LEvent n) -> (forall ops, l <> LUser ops) -> as_before (cx s) (cx s').
Proof. intros w l s s' E HE HU. exact (between w l s s' HE HU E). Qed.
Print Assumptions C105_between.

(** C105: and these only by a task, which is where the period of a timer is evaluated. *)
Theorem C105_configurations : forall (w : world) (l : label) (s s' : st),
  step w l s = Some s' -> (forall n, l <> LEvent n) -> (forall ops, l <> LUser ops) -> (forall i, l <> LTask i) -> lc (cx s') = lc (cx s).
Proof. intros w l s s' E HE HU HT. exact (between_lc w l s s' HE HU HT E). Qed.
Print Assumptions C105_configurations.

(** C105: if the launch descriptions that handlers bring have no Push and Pop actions of their own, then in no history of
    any length, with whatever other steps in between and whatever is raised, a scope is closed that was open before:
    what was on the stacks stays there. The stacks of the configurations and of the environment grow together. *)
Theorem C105_grows : forall (w : world) (s : st) (ls : list label) (s' : st),
  clean_world w -> reachable w s -> steps w s ls s' -> without_raw w s ls ->
  exists lcs envs, length lcs = length envs /\
    lc_stack (cx s') = lcs ++ lc_stack (cx s) /\ env_stack (cx s') = envs ++ env_stack (cx s).
Proof. intros w s ls s' HW Hr Hs Hc. exact (run_grows w HW s ls s' Hs Hr Hc). Qed.
Print Assumptions C105_grows.

(** C105: and if no event raises, no scope stays open. *)
Theorem C105_balanced : forall (w : world) (s : st) (ls : list label) (s' : st),
  clean_world w -> reachable w s -> steps w s ls s' -> without_raw w s ls -> all_return w s ls ->
  lc_stack (cx s') = lc_stack (cx s) /\ env_stack (cx s') = env_stack (cx s).
Proof. intros w s ls s' HW Hr Hs Hc Ha. exact (run_balanced w HW s ls s' Hs Hr Hc Ha). Qed.
Print Assumptions C105_balanced.

(** C105: nor does a local variable that was set for an event, by whatever it brings, outlast it: in a history without code of
    the user between the events, and of which no event raises, the locals at the end are those of the beginning. *)
Theorem C105_locals : forall (w : world) (s : st) (ls : list label) (s' : st),
  reachable w s -> steps w s ls s' -> all_return w s ls -> (forall ops, ~ In (LUser ops) ls) ->
  locals (cx s') = locals (cx s) /\ locals_stack (cx s') = locals_stack (cx s).
Proof. intros w s ls s' Hr Hs Ha HU. exact (run_locals w s ls s' Hs Hr Ha HU). Qed.
Print Assumptions C105_locals.

(** C105: ResetEnvironment, wherever and whenever it is visited, brings back the environment with which the service was
    created: nothing in the history changes what is remembered of it. *)
Theorem C105_reset_environment : forall (w : world) (ni : bool) (e : dict string) (ls : list label) (s : st) (n : nat) a c (s' : st) fs,
  steps w (init ni e) ls s -> cond_holds w c (cx s) -> visit_all w n (EAct a c AResetEnv) s = (s', Ok fs) -> env (cx s') = e.
Proof. intros w ni e ls s n a c s' fs. exact (resets w ni e ls s n a c s' fs). Qed.
Print Assumptions C105_reset_environment.
(** Code of the user has set a variable before. *)
Example C105_reset_example : exists s s' fs, steps w0 (init false {["HOME" := "/root"]}) [LUser [OpSetEnv "A" "1"; OpDelEnv "HOME"]] s /\
  env (cx s) !! "A" = Some "1" /\ visit_all w0 3 (EAct (User 1) None AResetEnv) s = (s', Ok fs) /\ env (cx s') = {["HOME" := "/root"]}.
Proof.
  eexists _, _, _. split; [econstructor; [vm_compute; reflexivity|constructor]|]. split; [vm_compute; reflexivity|].
  split; vm_compute; reflexivity.
Qed.

(** A whole run of a description with a group in a group, and a timer with another one. *)
Definition groups : entity := EAct (User 1) None (AGroup true true [([SText "x"], [SText "outer"])]
  [EAct (User 2) None (AGroup true true [] [EAct (User 3) None (ASetLC [SText "x"] [SText "inner"])])]).
Definition later : entity := EAct (User 4) None (ATimer (FV (FFin 1)) [groups] (BV false)).
Definition whole : list label :=
  [LEmit (EvInclude [groups; later]); LRun true; LMain; LEvent 9; LWake; LMain; LTask 0; LTick 2; LTask 0; LEvent 9; LWake; LMain].
Definition upto1 : list label := [LEmit (EvInclude [groups; later]); LRun true; LMain].
Definition upto2 : list label := [LEmit (EvInclude [groups; later]); LRun true; LMain; LEvent 9; LWake; LMain; LTask 0; LTick 2; LTask 0].
Lemma only_events before n after : whole = before ++ LEvent n :: after -> n = 9 /\ (before = upto1 \/ before = upto2).
Proof.
  unfold whole, upto1, upto2. do 12 (destruct before as [|? before]; [intros H; simplify_eq/=; auto|]).
  intros H. apply (f_equal length) in H. revert H. simpl. rewrite app_length /=. lia.
Qed.
Lemma steps_exec w s ls s' : steps w s ls s' -> exec w ls s = Some s'.
Proof. induction 1 as [|s l s1 ls s2 E _ IH]; [done|]. simpl. by rewrite E. Qed.
Lemma brings_each w s e : (forall i h, nth_error (handlers (cx s)) i = Some h -> matches w h e = true ->
  clean_handler e h \/ (h_body h = HEntity (anon ITimerHandle) /\ Forall (fun g => matches w g e = false) (firstn i (handlers (cx s))) /\
   exists a, e = EvTimer a /\ forall t, timers s !! a = Some t -> Forall clean (t_body t))) -> brings_clean w s e.
Proof.
  intros H before h after E. specialize (H (length before) h). rewrite E in H. rewrite nth_error_app2 in H; [lia|]. rewrite Nat.sub_diag in H.
  rewrite firstn_app Nat.sub_diag firstn_all /= app_nil_r in H. by apply H.
Qed.
Definition view (s : st) : option event * list handler * option (list entity) :=
  (head (queue (cx s)), handlers (cx s), option_map t_body (timers s !! User 4)).
Lemma at_first : exists hs, option_map view (exec w0 upto1 s0) = Some (Some (EvInclude [groups; later]), hs, None) /\
  forall i h, nth_error hs i = Some h -> matches w0 h (EvInclude [groups; later]) = true -> h_body h = HEntity (anon IInclude).
Proof.
  eexists. split; [vm_compute; reflexivity|]. intros i h Hi Hm.
  repeat (destruct i as [|i]; [injection Hi as <-; first [discriminate Hm|reflexivity]|]). by destruct i.
Qed.
Lemma at_second : exists h0 hs, option_map view (exec w0 upto2 s0) = Some (Some (EvTimer (User 4)), h0 :: hs, Some [groups]) /\
  h_body h0 = HEntity (anon ITimerHandle) /\ Forall (fun h => matches w0 h (EvTimer (User 4)) = false) hs.
Proof. eexists _, _. split; [vm_compute; reflexivity|]. split; [reflexivity|]. repeat constructor. Qed.
Lemma both_return : option_map evt (exec w0 (upto1 ++ [LEvent 9]) s0) = Some (ETDone (Ok tt)) /\
  option_map evt (exec w0 (upto2 ++ [LEvent 9]) s0) = Some (ETDone (Ok tt)).
Proof. split; vm_compute; reflexivity. Qed.
Lemma at_end : option_map (fun s => (existsb (fun e => match e with EvTimer (User 4) => true | _ => false end) (processed (hist s)), lc_stack (cx s))) (exec w0 whole s0) = Some (true, []).
Proof. vm_compute. reflexivity. Qed.
Lemma exec_snoc w ls l s s1 s2 : exec w ls s = Some s1 -> step w l s1 = Some s2 -> exec w (ls ++ [l]) s = Some s2.
Proof. revert s. induction ls as [|x ls IH]; intros s; simpl; [intros [= ->] ->; done|]. destruct (step w x s); [apply IH|done]. Qed.
Example C105_example : clean_world w0 /\ reachable w0 s0 /\ without_raw w0 s0 whole /\ all_return w0 s0 whole /\
  (forall ops, ~ In (LUser ops) whole) /\
  exists s', steps w0 s0 whole s' /\ In (EvTimer (User 4)) (processed (hist s')) /\ lc_stack (cx s') = [].
Proof.
  split; [split; intros; simplify_eq/=; constructor|]. split; [by exists false, {["HOME" := "/root"]}, []; constructor|].
  assert (clean groups) as Hg by (repeat constructor). assert (Forall clean [groups; later]) as Hc by (repeat constructor).
  split; [|split; [|split]].
  - intros before n after s1 e (_ & [->| ->])%only_events Hs%steps_exec He.
    + destruct at_first as (hs & E & Hh). rewrite Hs in E. clear Hs. injection E as Eq Eh _. rewrite Eq in He. injection He as <-.
      apply brings_each. intros i h Hi Hm. left. rewrite Eh in Hi. unfold clean_handler. rewrite (Hh i h Hi Hm). right.
      split; [reflexivity|]. exists [groups; later]. split; [reflexivity|exact Hc].
    + destruct at_second as (h0 & hs & E & Hb & Hf). rewrite Hs in E. clear Hs. injection E as Eq Eh Et. rewrite Eq in He. injection He as <-.
      apply brings_each. intros i h Hi Hm. right. rewrite Eh in Hi |- *. destruct i as [|i]; simpl in Hi.
      * injection Hi as <-. split; [exact Hb|]. split; [constructor|]. exists (User 4). split; [reflexivity|]. intros t Ht. rewrite Ht in Et.
        injection Et as ->. constructor; [exact Hg|constructor].
      * apply nth_error_In in Hi. rewrite ->List.Forall_forall in Hf. apply Hf in Hi. rewrite Hi in Hm. discriminate Hm.
  - destruct both_return as [B1 B2].
    intros before n after s1 s2 (-> & [->| ->])%only_events Hs%steps_exec E; pose proof (exec_snoc _ _ _ _ _ _ Hs E) as HE; clear Hs E.
    + rewrite HE in B1. clear HE. injection B1 as B1. exact B1.
    + rewrite HE in B2. clear HE. injection B2 as B2. exact B2.
  - intros ops H. simpl in H. repeat (destruct H as [H|H]; [discriminate H|]). exact H.
  - pose proof at_end as H. destruct (exec w0 whole s0) as [s'|] eqn:E; [|discriminate H]. apply exec_steps in E. exists s'. split; [exact E|]. clear E.
    injection H as H1 H2. split; [|exact H2]. apply existsb_exists in H1 as (e & He & H1). destruct e; try discriminate H1. destruct a as [m|m]; try discriminate H1.
    do 4 (destruct m as [|m]; [discriminate H1|]). destruct m as [|m]; [exact He|discriminate H1].
Qed.

(** C105 (refuted): it is not so that between events the launch configurations do not change at all: the period of a timer
    is evaluated later, in a task of its own, and an AnonName in it adds a launch configuration then. *)
Theorem C105_same_refuted : exists s s',
  exec w0 [LEmit (EvInclude [EAct (User 1) None (ATimer (FS [SAnonName [SText "a"]]) [] (BV true))]); LRun false; LMain; LEvent 9] s0 = Some s /\
  step w0 (LTask 0) s = Some s' /\ lc (cx s) !! "anona" = None /\ is_Some (lc (cx s') !! "anona").
Proof. eexists _, _. split; [vm_compute; reflexivity|]. split; [vm_compute; reflexivity|]. split; vm_compute; [reflexivity|by eexists]. Qed.
Print Assumptions C105_same_refuted.
