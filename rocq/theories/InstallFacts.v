(** The handler all timers share is there as soon as a timer has been executed. *)
From Coq Require Import ssreflect.
From Verif Require Import SubstFacts SpecEvents ExecFacts VisitFacts HandleFacts StepFacts MicroSteps OwnFacts ProcFacts NameFacts LifeFacts TimerSteps StayFacts.

Definition timer1 (o : obs) : bool := match o with OTimer _ => true | _ => false end.
Definition inst1 (s s' : st) : Prop :=
  (timer_installed (cx s') = timer_installed (cx s) /\ forall a, In (OTimer a) (log s') -> In (OTimer a) (log s)) \/
  installs (cx s) (cx s').
Lemma inst_same s s' l : timer_installed (cx s') = timer_installed (cx s) -> log s' = l ++ log s ->
  Forall (fun o => timer1 o = false) l -> inst1 s s'.
Proof.
  intros Hi E Hl. left. split; [done|]. intros a. rewrite E. intros [H|H]%in_app_or; [|done].
  rewrite List.Forall_forall in Hl. by apply Hl in H.
Qed.
Section inst.
Context (w : world).
Lemma on_ctx_inst {A} (m : ctx -> ctx * res A) s s' r : frames m -> on_ctx m s = (s', r) -> timer_installed (cx s') = timer_installed (cx s).
Proof.
  intros Hm. rewrite /on_ctx. destruct (m (cx s)) as [c x] eqn:E. intros [= <- _]. apply sframe_inst. by eapply Hm.
Qed.
Lemma inst_task i s s' : own s -> task_step w i s = Some s' -> inst1 s s'.
Proof.
  intros Ho. rewrite /task_step. destruct (tasks s !! i) as [[]|]; try done.
  - rewrite /timer_init. destruct (timers s !! a); [|done].
    destruct (on_ctx _ s) as [s1 r] eqn:E. pose proof (on_ctx_inst _ _ _ _ (perform_fval_frame w _) E) as EH. apply on_ctx_log in E.
    destruct (t_canceled_fut t), r; try done; intros [= <-].
    + eapply (inst_same _ _ [_]); [by rewrite /= EH|by rewrite /= E|by repeat constructor].
    + by apply (inst_same _ _ []); [rewrite /= EH| |constructor].
    + by apply (inst_same _ _ []); [rewrite /= EH| |constructor].
  - rewrite /timer_wake. destruct (_ || _); [|done]. destruct (timers s !! a); [|done].
    destruct (t_canceled_fut t) as [fx|], (t_completed t) as [fc|]; try done. intros [= <-].
    destruct (f_is_done fx s).
    + apply (inst_same _ _ []); [| |constructor]; rewrite ?task_res_log ?task_res_cx; by rewrite set_result_only.
    + apply (inst_same _ _ [OEmit (EvTimer a); OFire a (now s)]); [| |by repeat constructor]; rewrite ?task_res_log ?task_res_cx; by rewrite set_result_only.
  - rewrite /proc_init. destruct (procs s !! a); [|done]. destruct (x_det p); [|by intros [= <-]; apply (inst_same _ _ []); [| |constructor]].
    set (x := match lc (cx s) !! _ with Some _ => _ | None => _ end). assert (log x.1 = log s /\ timer_installed (cx x.1) = timer_installed (cx s)) as [Ex Eh].
    { rewrite /x. destruct (lc (cx s) !! _); [|done]. destruct (on_ctx _ _) eqn:E. split; [by apply on_ctx_log in E|].
      simpl. eapply (on_ctx_inst _ s); [|exact E]. apply evaluate_expression_frame. }
    destruct x as [s1 []]; simpl in Ex, Eh; intros [= <-]; by apply (inst_same _ _ []); [rewrite /= Eh| |constructor].
  - intros [= <-]. by apply (inst_same _ _ [OEmit (EvStarted a d); OLife (EvStarted a d)]); [| |repeat constructor].
  - destruct rc as [rc|]; [|done]. rewrite /proc_exited. destruct (procs s !! a); [|done].
    set (sx := emit _ _). assert (forall s0, log sx = log s0 -> cx sx = cx s0 -> inst1 s s0) as HE.
    { intros s0 E E'. apply (inst_same _ _ [OEmit (EvExited a d rc); OLife (EvExited a d rc)]); [by rewrite -E'|by rewrite -E|by repeat constructor]. }
    assert (own sx) as Hox by (by apply own_emit, own_obs).
    assert (forall s0, log (proc_again i a s0) = log s0 /\ cx (proc_again i a s0) = cx s0) as HA. { intros s0. rewrite /proc_again. by destruct (loop_set _). }
    match goal with |- (if ?b then _ else _) = _ -> _ => destruct b end.
    + destruct (p_delay _); [destruct (Qle_bool _ _)|]; intros [= <-]; apply HE; try done; symmetry; apply (HA (upd_proc a (fun p => p <| x_retries ::= Z.succ |>) sx)).
    + intros [= <-]. destruct (cleanup_spec a sx Hox) as ((_ & _ & E1 & E2 & _) & _). apply HE; rewrite ?task_res_log ?task_res_cx; by symmetry.
  - rewrite /proc_delay. destruct (procs s !! a); [|done]. destruct (match x_shutdown p with Some _ => _ | None => _ end).
    + intros [= <-]. destruct (cleanup_spec a s Ho) as ((_ & _ & E1 & E2 & _) & _). apply (inst_same _ _ []); [| |constructor]; rewrite ?task_res_log ?task_res_cx; by rewrite ?E1 ?E2.
    + destruct (Qle_bool _ _); [|done]. intros [= <-]. apply (inst_same _ _ []); [| |constructor]; rewrite /proc_again; by destruct (loop_set _).
Qed.
Lemma lines_notimer l : lines l -> Forall (fun o => timer1 o = false) l.
Proof. intros H. eapply Forall_impl; [exact H|]. by intros []. Qed.
Lemma aside_notimer l : Forall (fun o => aside o = true) l -> Forall (fun o => timer1 o = false) l.
Proof. intros H. eapply Forall_impl; [exact H|]. by intros []. Qed.
Lemma shutdown_process_inst a sg s : timer_installed (cx (shutdown_process a sg s).1) = timer_installed (cx s).
Proof.
  rewrite /shutdown_process /=. destruct (procs s !! a) as [p|]; [|done]. destruct (x_shutdown p) as [sf|]; [|done].
  destruct (f_is_done sf _); [done|]. pose proof (set_result_only sf (obs1 (OAsked a) s)) as E.
  rewrite /bindS. destruct (set_result sf (obs1 (OAsked a) s)) as [s1 r]. simpl in E.
  destruct (x_completed p) as [cf|].
  2: { destruct r; simpl; by rewrite E. }
  destruct (f_is_done cf _); [destruct r; simpl; by rewrite E|].
  destruct (x_det p) as [d|], (x_transport p) as [f|]; try done.
  destruct r; simpl; by rewrite E.
Qed.
Lemma inst_micro s s' : own s -> micro w s s' -> inst1 s s'.
Proof.
  intros Ho H. destruct H.
  - destruct (ut_log _ _ H) as (l & El & Hl). eapply inst_same; [apply (ut_inst _ _ H)|exact El|by apply aside_notimer].
  - destruct (timer_cancel_sameP a s) as (_ & _ & E1 & E2 & _). by apply (inst_same _ _ []); [rewrite E2|rewrite E1|constructor].
  - by right.
  - by apply (inst_same _ _ []); [| |repeat constructor].
  - by apply (inst_same _ _ []); [| |repeat constructor].
  - destruct (O_prepare_executable w _ _ _ _ H0) as (c & n & pc & _ & _ & _ & (_ & Hh & _) & ->). by apply (inst_same _ _ []); [by rewrite /= Hh| |repeat constructor].
  - by apply (inst_same _ _ []); [| |repeat constructor].
  - by apply (inst_same _ _ []); [| |repeat constructor].
  - apply (inst_same _ _ []); [by destruct H8 as (_ & ? & _)| |constructor]; done.
  - pose proof (shutdown_process_inst a sg s) as EI.
    destruct (shutdown_process_case a sg s Ho) as [? Es|p sf ???? Es|p sf cf t1 t2 d f|p sf cf ?????? HU].
    + apply (inst_same _ _ [OAsked a]); [done|by rewrite Es|by repeat constructor].
    + apply (inst_same _ _ [OAsked a]); [done|by rewrite Es|by repeat constructor].
    + eapply (inst_same _ _ [_; _]); [done|match goal with HH : log (shutdown_process _ _ _).1 = _ |- _ => exact HH end|by repeat constructor].
    + destruct (ut_log _ _ HU) as (l & El & Hl). apply (inst_same _ _ (l ++ [OAsked a])); [done|by rewrite El -app_assoc|].
      apply Forall_app. split; [by apply aside_notimer|by repeat constructor].
  - by apply (inst_same _ _ [OSignal a sg]); [| |repeat constructor].
  - destruct (proc_io_buffers a e s) as [g l Hg Hl ->| ->]; [|by apply (inst_same _ _ []); [| |constructor]]. apply (inst_same _ _ l); [done|done|by apply lines_notimer].
  - destruct (proc_flush_buffers a s) as [g l Hg Hl ->| ->]; [|by apply (inst_same _ _ []); [| |constructor]]. apply (inst_same _ _ l); [done|done|by apply lines_notimer].
  - by eapply inst_task.
  - revert H. rewrite /spawn_ok. destruct (tasks s !! i) as [[]|]; try done. intros [= <-]. by apply (inst_same _ _ [OSpawn a pid]); [| |repeat constructor].
  - revert H. rewrite /spawn_fail. destruct (tasks s !! i) as [[]|]; try done. intros [= <-].
    destruct (cleanup_spec a s Ho) as ((_ & _ & E1 & E2 & _) & _). apply (inst_same _ _ []); [| |constructor]; rewrite ?task_res_log ?task_res_cx; by rewrite ?E1 ?E2.
  - revert H. rewrite /proc_exit. destruct (tasks s !! i) as [[| | | |b f d [|]|b f d [|]| |]|]; try done; intros [= <-];
    (apply (inst_same _ _ [OReap b rc]); [| |by repeat constructor]); by rewrite /= set_result_only.
Qed.
Definition installed (s : st) : Prop :=
  (timer_installed (cx s) = true -> exists n, gone (timers_handler n) s) /\
  forall a, In (OTimer a) (log s) -> timer_installed (cx s) = true.
Lemma installed_micro s s' : own s -> micro w s s' -> installed s -> installed s'.
Proof.
  intros Ho H [I1 I2]. pose proof (stay_micro w s s' Ho H) as (S1 & S2 & _). destruct (inst_micro s s' Ho H) as [[E1 E2]|(Hk & E1 & _ & E2)].
  - split.
    + rewrite E1. intros Hi. destruct (I1 Hi) as (n & [Hn|Hn]); exists n; [by apply S1|right; by apply S2].
    + intros a Ha. rewrite E1. apply (I2 a). by apply E2.
  - split; [|done]. intros _. destruct E2 as [E2|(n & Hn)].
    + destruct (I1 E2) as (n & [Hn|Hn]); exists n; [by apply S1|right; by apply S2].
    + exists n. by left.
Qed.
Lemma installed_reachable s : reachable w s -> installed s.
Proof.
  intros H. cut (own s /\ installed s); [by intros []|]. revert s H. apply micro_reachable.
  - intros n e. split; [apply own_init|]. by split.
  - intros s s' H [Ho Hi]. split; [by eapply own_micro|by eapply installed_micro].
Qed.
(** Once a timer has been executed, the handler of timers is registered, unless somebody
    unregistered it. *)
Lemma timer_handled s a : reachable w s -> In (OTimer a) (hist s) ->
  exists n, In (timers_handler n) (handlers (cx s)) \/ In (OUnreg (Gen n)) (hist s).
Proof.
  intros Hr Ha%in_rev. destruct (installed_reachable s Hr) as [I1 I2]. destruct (I1 (I2 a Ha)) as (n & [H|H]); exists n; [by left|right].
  rewrite /hist. by apply -> in_rev.
Qed.
End inst.
