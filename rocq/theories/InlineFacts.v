(** Lemmas for C103: what is observed does not influence what happens. *)
From Coq Require Import ssreflect.
From Verif Require Import StrFacts SubstFacts ArgsFacts ExecFacts VisitFacts ActionFacts SpecInline.

Definition lg (o : list obs) (s : st) : st := s <| log := o |>.
Definition par {A} (m : st -> st * res A) : Prop := forall s o o', exists d s' r,
  m (lg o s) = (lg (d ++ o) s', r) /\ m (lg o' s) = (lg (d ++ o') s', r).
Definition parf (f : st -> st) : Prop := forall s o o', exists d s',
  f (lg o s) = lg (d ++ o) s' /\ f (lg o' s) = lg (d ++ o') s'.
Lemma lg_log s : lg (log s) s = s.
Proof. by destruct s. Qed.
Lemma par_ret {A} (a : A) : par (retS a).
Proof. intros s o o'. by exists [], s, (Ok a). Qed.
Lemma par_raise {A} e : par (@raiseS st A e).
Proof. intros s o o'. by exists [], s, (Exn e). Qed.
Lemma par_lift {A} (r : res A) : par (@liftS st A r).
Proof. intros s o o'. by exists [], s, r. Qed.
Lemma par_same {A} (f : st -> res A) : (forall s o, f (lg o s) = f s) -> par (fun s => (s, f s)).
Proof. intros H s o o'. exists [], s, (f s). by rewrite !H. Qed.
Lemma par_mod f : parf f -> par (modS f).
Proof. intros H s o o'. destruct (H s o o') as (d & s' & E & E'). exists d, s', (Ok tt). by rewrite /modS E E'. Qed.
Lemma par_bind {A B} (m : st -> st * res A) (k : A -> st -> st * res B) : par m -> (forall a, par (k a)) -> par (bindS m k).
Proof.
  intros H1 H2 s o o'. rewrite /bindS. destruct (H1 s o o') as (d & s1 & r & E & E'). rewrite E E'. destruct r as [a|e|].
  - destruct (H2 a s1 (d ++ o) (d ++ o')) as (d2 & s2 & r2 & E2 & E2'). exists (d2 ++ d), s2, r2. by rewrite E2 E2' -!app_assoc.
  - by exists d, s1, (Exn e).
  - by exists d, s1, OutOfFuel.
Qed.
Lemma par_on_ctx {A} (m : ctx -> ctx * res A) : par (on_ctx m).
Proof. intros s o o'. rewrite /on_ctx. change (cx (lg o s)) with (cx s). change (cx (lg o' s)) with (cx s). destruct (m (cx s)) as [c r]. by exists [], (s <| cx := c |>), r. Qed.
Lemma parf_comp f g : parf f -> parf g -> parf (fun s => g (f s)).
Proof.
  intros H1 H2 s o o'. destruct (H1 s o o') as (d & s1 & E & E'). destruct (H2 s1 (d ++ o) (d ++ o')) as (d2 & s2 & E2 & E2').
  exists (d2 ++ d), s2. by rewrite E E' E2 E2' -!app_assoc.
Qed.
Ltac gl s := repeat match goal with |- context [?f (lg ?o s)] => lazymatch f with lg _ => fail | _ => idtac end; progress change (f (lg o s)) with (f s) end.
Ltac wit0 := match goal with
  | |- exists d s' r, ?t = (lg (d ++ ?o) s', r) /\ _ => match t with context [lg o ?s] => let t' := eval pattern (lg o s) in t in
     match t' with ?f _ => first [ exists [], (f s).1, (f s).2; (split; reflexivity) | eexists [_], (f s).1, (f s).2; (split; reflexivity) | eexists [_; _], (f s).1, (f s).2; (split; reflexivity) ] end end
  | |- exists d s', ?t = lg (d ++ ?o) s' /\ _ => match t with context [lg o ?s] => let t' := eval pattern (lg o s) in t in
     match t' with ?f _ => first [ exists [], (f s); (split; reflexivity) | eexists [_], (f s); (split; reflexivity) | eexists [_; _], (f s); (split; reflexivity) ] end end
  end.
Ltac pf := intros ?s ?o ?o'; wit0.
Ltac wrap := match goal with |- exists d s' r, ?m (lg ?o ?s) = _ /\ _ => let H := fresh in assert (par m) as H; [|apply H] end.
Ltac relg := match goal with |- exists d s' r, ?m ?X = (lg (d ++ ?o) s', r) /\ ?m' ?X' = (lg (d ++ ?o') s', r) =>
  match X with context [lg o ?s] => let t := eval pattern (lg o s) in X in match t with ?f _ => change X with (lg o (f s)); change X' with (lg o' (f s)) end end end.
Lemma par_set_result f : par (set_result f).
Proof. intros s o o'. rewrite /set_result. gl s. destruct (futs s !! f) as [[]|]; wit0. Qed.
Lemma par_fresh : par fresh.
Proof. intros s o o'. rewrite /fresh. wit0. Qed.
Lemma par_need_loop {A} (m : st -> st * res A) : par m -> par (need_loop m).
Proof. intros H s o o'. rewrite /need_loop. gl s. destruct (loop_set (cx s)); [apply H|]. wit0. Qed.
Lemma par_unregister i : par (unregister i).
Proof.
  intros s o o'. rewrite /unregister. destruct (par_on_ctx (unregister_event_handler i) s o o') as (d & s' & r & E & E'). rewrite E E'.
  destruct r as [u|e|]; [exists (OUnreg i :: d), s', (Ok u)|exists d, s', (Exn e)|exists d, s', OutOfFuel]; done.
Qed.
Lemma par_register h : par (register_noted h).
Proof. rewrite /register_noted. apply par_mod. pf. Qed.
Lemma parf_emit e : parf (emit e).
Proof. pf. Qed.
Lemma parf_timer_cancel a : parf (timer_cancel a).
Proof.
  intros s o o'. rewrite /timer_cancel. gl s. destruct (timers s !! a) as [t|]; [|wit0].
  destruct (t_canceled_fut t) as [f|]; [|wit0].
  cbv zeta. set (g := upd_timer a (fun t => t <| t_canceled := true |>)). change (g (lg o s)) with (lg o (g s)). change (g (lg o' s)) with (lg o' (g s)).
  generalize (g s). clear. intros s. rewrite /f_is_done /f_get. gl s. destruct (f_done _); [wit0|].
  destruct (par_set_result f s o o') as (d & s' & r & -> & ->). by exists d, s'.
Qed.

Section exec.
Context (w : world).
Notation P := par.
Lemma P_perform l : P (perform_st w l).
Proof. apply par_on_ctx. Qed.
Ltac pr := repeat first
  [ apply par_ret | apply par_raise | apply P_perform | apply par_on_ctx
  | apply par_set_result | apply par_fresh | apply par_unregister | apply par_register | apply par_mod; [solve [pf | apply parf_emit | apply parf_timer_cancel]]
  | lazymatch goal with |- P (bindS _ _) => idtac end; apply par_bind; [|intros ?] ].
Lemma parf_ops ops : parf (apply_ops ops).
Proof.
  rewrite /apply_ops. induction ops as [|o ops IH]; [pf|]. simpl. apply (parf_comp (apply_op o)); [|exact IH].
  destruct o; simpl; try solve [pf]; try solve [apply parf_emit | apply parf_timer_cancel].
  intros s o1 o2. simpl. match goal with |- context [unregister ?i] => destruct (par_unregister i s o1 o2) as (d & s' & r & -> & ->) end. by exists d, s'.
Qed.
Lemma P_call_user f : P (call_user w f).
Proof.
  intros s o o'. rewrite /call_user. gl s. destruct (w_fun w f (cx s)) as [ops x].
  destruct (parf_ops ops (s <| cx ::= (fun c => c <| nonce ::= S |>) |>) o o') as (d & s' & E & E'). exists d, s', x.
  split; [by rewrite -E|by rewrite -E'].
Qed.
Lemma P_eval_cfgs l acc : P (eval_cfgs w l acc).
Proof. revert acc. induction l as [|[k v] l IH]; intros acc; simpl; pr. apply IH. Qed.
Lemma P_eval_env l acc : P (eval_env w l acc).
Proof. revert acc. induction l as [|[k v] l IH]; intros acc; simpl; pr. apply IH. Qed.
Lemma P_get_ld src : P (get_launch_description w src).
Proof.
  rewrite /get_launch_description. apply par_bind.
  - intros s o o'. gl s. destruct (srcs s !! src) as [[[l|] x]|]; [wit0|..].
    all: wrap; pr.
  - intros loc s o o'. gl s. destruct (srcs s !! src) as [[l [x|]]|]; [wit0|..].
    all: destruct (w_load w src loc _) eqn:E; wit0.
Qed.
Lemma P_event_of_locals : P event_of_locals.
Proof. rewrite /event_of_locals. pr. destruct a; pr. Qed.
Lemma P_include fuel src args : P (exec_include w fuel src args).
Proof.
  rewrite /exec_include. apply par_bind; [apply P_get_ld|]. intros [loc ld]. pr. by apply par_same.
Qed.
Lemma par_after {A} (g : st -> st) (m : st -> st * res A) : parf g -> P m -> P (fun s => m (g s)).
Proof.
  intros Hg Hm s o o'. destruct (Hg s o o') as (d & s1 & -> & ->). destruct (Hm s1 (d ++ o) (d ++ o')) as (d2 & s2 & r & -> & ->).
  exists (d2 ++ d), s2, r. by rewrite -!app_assoc.
Qed.
Lemma P_exec_timer a p b c : P (exec_timer w a p b c).
Proof.
  rewrite /exec_timer. apply par_need_loop. intros s o o'. cbn [new_future].
  repeat match goal with |- context [timers ?x !! a] => progress change (timers x) with (timers s) end.
  set (canc := match timers s !! a with Some t => _ | None => _ end). cbv zeta.
  gl s. repeat match goal with |- context [next (lg ?x s <| futs ::= ?h |> <| next ::= S |>)] => change (next (lg x s <| futs ::= h |> <| next ::= S |>)) with (S (next s)) end.
  destruct canc.
  - match goal with |- exists d s' r, (let '(_, _) := set_result ?f ?X in _) = _ /\ (let '(_, _) := set_result ?f' ?X' in _) = _ =>
      match X with context [lg o s] => let t := eval pattern (lg o s) in X in match t with ?g _ => change X with (lg o (g s)); change X' with (lg o' (g s)); generalize (g s) end end end.
    intros s2. destruct (par_set_result (next s) s2 o o') as (d & s' & r & E & E').
    rewrite E E'. eexists d, s', _. done.
  - relg. wrap. pr.
    + intros s4 o4 o4'. gl s4. destruct (timer_installed (cx s4)); [wit0|]. wrap. pr.
    + destruct a4; pr.
Qed.
Lemma P_exec_coro a : P (exec_coro a).
Proof.
  rewrite /exec_coro. apply par_need_loop. intros s o o'. cbn [new_future]. cbv zeta. gl s. relg. wrap. pr.
Qed.
Lemma P_prepare_executable c : P (prepare_executable w c).
Proof.
  rewrite /prepare_executable. pr.
  - destruct (p_prefix c); pr. destruct a; pr.
  - destruct a0; pr.
  - destruct (p_name c); pr. destruct a1; pr.
  - intros s o o'. gl s. wrap. pr.
    + destruct (p_cwd c); pr.
    + destruct (p_env c); [apply P_eval_env|by apply par_same].
    + destruct (p_addenv c); [apply P_eval_env|pr].
Qed.
Lemma P_prepare_proc a : P (prepare_proc w a).
Proof.
  intros s o o'. rewrite /prepare_proc. gl s. destruct (procs s !! a) as [p|]; [|wit0].
  wrap. apply par_bind; [apply P_prepare_executable|intros d]. pr.
Qed.
Lemma P_unregister_all hs : P (unregister_all hs).
Proof. induction hs as [|h hs IH]; simpl; pr. exact IH. Qed.
Lemma P_guard hs m : P m -> P (guard_handlers hs m).
Proof.
  intros Hm s o o'. rewrite /guard_handlers. destruct (Hm s o o') as (d & s1 & r & -> & ->). destruct r as [u|e|]; [by exists d, s1, (Ok u)| |by exists d, s1, OutOfFuel].
  destruct (P_unregister_all hs s1 (d ++ o) (d ++ o')) as (d2 & s2 & r2 & -> & ->). destruct r2; eexists (d2 ++ d), s2, _; by rewrite -!app_assoc.
Qed.
Lemma P_start_proc a out : P (start_proc w a out).
Proof.
  rewrite /start_proc. apply par_need_loop. intros s o o'. cbn [new_future]. cbv zeta. gl s.
  repeat match goal with |- context [next (upd_proc a ?g (lg ?x s <| futs ::= ?h |> <| next ::= S |>))] => change (next (upd_proc a g (lg x s <| futs ::= h |> <| next ::= S |>))) with (S (next s)) end.
  relg. wrap. pr. destruct (w_output_ok w a0); pr.
Qed.
Lemma P_exec_proc a c oe : P (exec_proc w a c oe).
Proof.
  rewrite /exec_proc. apply par_bind; [apply par_mod; pf|]. intros _.
  apply par_bind; [apply P_prepare_proc|]. intros _ s o o'. gl s.
  destruct (procs s !! a) as [p|]; [|wit0]. destruct (x_executed p); [wit0|]. cbv zeta.
  set (g := upd_proc a (fun p => p <| x_executed := true |>)). change (g (lg o s)) with (lg o (g s)). change (g (lg o' s)) with (lg o' (g s)). generalize (g s). clear. intros s. gl s.
  destruct (is_shutdown _); [wit0|].
  match goal with |- context [register_all ?hs _] => set (h := hs) end.
  apply (par_after (fun s => register_all h (s <| next ::= (fun n => (n + 6)%nat) |>)) (guard_handlers h (start_proc w a (p_output (x_cfg p))) ;;; retS [])).
  - intros s1 o1 o1'. exists (rev (map OReg h)), (register_all h (s1 <| next ::= (fun n => (n + 6)%nat) |>)). done.
  - pr. apply P_guard, P_start_proc.
Qed.
Lemma P_shutdown_process a b : P (shutdown_process a b).
Proof.
  rewrite /shutdown_process. intros s0 o0 o0'. cbv zeta.
  change (obs1 (OAsked a) (lg o0 s0)) with (lg (OAsked a :: o0) s0). change (obs1 (OAsked a) (lg o0' s0)) with (lg (OAsked a :: o0') s0).
  match goal with |- exists d s' r, ?X = _ /\ _ => let t := eval pattern (lg (OAsked a :: o0) s0) in X in match t with ?f _ => assert (P f) as H end end.
  2:{ destruct (H s0 (OAsked a :: o0) (OAsked a :: o0')) as (d & s' & r & E & E'). exists (d ++ [OAsked a]), s', r. rewrite -!app_assoc. done. }
  clear. intros s o o'. cbv beta. gl s.
  destruct (procs s !! a) as [p|]; [|wit0]. destruct (x_shutdown p) as [sf|]; [|wit0]. rewrite /f_is_done /f_get. gl s. destruct (f_done _); [wit0|].
  destruct (x_completed p) as [cf|]; [|wrap; pr].
  destruct (f_done _); [wrap; pr|].
  destruct (x_det p) as [d|]; [destruct (x_transport p) as [tr|]|]; wrap; pr.
Qed.
Lemma P_matches m a : P (fun s => (s, pm_matches w m a s)).
Proof. by apply par_same. Qed.
Lemma P_exec_proc_shutdown a : P (exec_proc_shutdown w a).
Proof.
  rewrite /exec_proc_shutdown. apply par_bind; [apply P_event_of_locals|]. intros e. destruct e; try apply par_raise.
  apply par_bind; [apply P_matches|]. intros []; [apply P_shutdown_process|apply par_ret].
Qed.
Lemma P_exec_proc_signal a : P (exec_proc_signal w a).
Proof.
  rewrite /exec_proc_signal. apply par_bind; [apply P_event_of_locals|]. intros e. destruct e; try apply par_raise.
  apply par_bind; [apply P_matches|]. intros []; [|apply par_ret]. intros s0 o o'. gl s0.
  destruct (procs s0 !! a) as [p|]; [|wit0]. destruct (x_det p), (x_transport p); try wit0. rewrite /f_is_done /f_get. gl s0. destruct (f_done _); wit0.
Qed.
Lemma P_exec_test a c oe t : P (exec_test w a c oe t).
Proof.
  rewrite /exec_test. apply par_bind; [apply P_exec_proc|]. intros l. destruct t; [|apply par_ret]. destruct (no_timeout _); [apply par_ret|].
  pr.
Qed.
Lemma P_exec_action fuel a k : P (exec_action w fuel a k).
Proof.
  destruct k; simpl; try lazymatch goal with |- P (bindS _ _) => pr | |- P (retS _) => pr | _ => idtac end.
  - rewrite /exec_set. pr.
  - rewrite /exec_unset. pr.
  - rewrite /exec_reset_lc. destruct cfgs; pr. apply P_eval_cfgs.
  - rewrite /exec_set. pr.
  - rewrite /exec_unset. pr.
  - rewrite /exec_append_env. pr.
  - rewrite /exec_declare. apply par_bind.
    + intros s o o'. gl s. destruct (lc (cx s) !! n); [wit0|]. destruct default; [|wit0]. wrap. pr.
    + intros _. destruct choices; pr. intros s o o'. gl s. destruct (lc (cx s) !! n); [|wit0]. destruct (existsb _ _); wit0.
  - apply P_include.
  - apply P_call_user.
  - apply P_exec_timer.
  - apply P_exec_proc.
  - apply P_exec_coro.
  - apply P_exec_test.
  - apply P_event_of_locals.
  - destruct a0; pr.
  - rewrite /exec_timer_handle. apply par_bind; [apply P_event_of_locals|]. intros e. destruct e; try apply par_raise.
    intros s o o'. gl s. destruct (timers s !! _); wit0.
  - apply P_exec_proc_shutdown.
  - apply P_exec_proc_signal.
  - destruct t; pr.
  - apply P_shutdown_process.
Qed.
Lemma parf_complete e a : parf (complete_action w e a).
Proof.
  intros s o o'. rewrite /complete_action. gl s. destruct (would_handle_event _ _ _); [|wit0].
  change (get_future e (lg o s)) with (get_future e s). change (get_future e (lg o' s)) with (get_future e s).
  destruct (get_future e s); [wit0|]. apply parf_emit.
Qed.
Lemma P_visit_one fuel e : P (visit_one w fuel e).
Proof.
  rewrite /visit_one. destruct e as [l|a c k]; [intros s o o'; by exists [OVisit (ELaunch l)], s, (Ok l)|].
  apply (par_after (obs1 (OVisit (EAct a c k)))); [pf|]. apply par_bind; [destruct c; pr|]. intros []; [|pr].
  intros s o o'. destruct (P_exec_action fuel a k (obs1 (OExecuted a) s) (OExecuted a :: o) (OExecuted a :: o')) as (d & s1 & r & E & E').
  change (obs1 (OExecuted a) (lg o s)) with (lg (OExecuted a :: o) (obs1 (OExecuted a) s)).
  change (obs1 (OExecuted a) (lg o' s)) with (lg (OExecuted a :: o') (obs1 (OExecuted a) s)). rewrite E E'.
  destruct (parf_complete (EAct a c k) a s1 (OExecDone a :: d ++ OExecuted a :: o) (OExecDone a :: d ++ OExecuted a :: o')) as (d2 & s2 & E2 & E2').
  exists (d2 ++ OExecDone a :: d ++ [OExecuted a]), s2, r. rewrite -!app_assoc /= -!app_assoc /=. split; [by rewrite -E2|by rewrite -E2'].
Qed.
Lemma P_visit_all fuel e : P (visit_all w fuel e).
Proof.
  revert e. induction fuel as [|n IH]; intros e; [intros s o o'; simpl; wit0|]. cbn [visit_all].
  apply (par_bind (visit_one w n e)); [apply P_visit_one|]. intros subs. apply par_bind.
  - induction subs as [|x l IHl]; [pr|]. apply par_bind; [apply IH|]. intros a. apply par_bind; [exact IHl|]. intros b. pr.
  - intros fs. apply par_same. intros s o. done.
Qed.
End exec.
