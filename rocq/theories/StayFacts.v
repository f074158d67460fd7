(** A handler that was registered stays registered until it is unregistered. *)
From Coq Require Import ssreflect.
From Verif Require Import SubstFacts SpecEvents ExecFacts VisitFacts HandleFacts StepFacts MicroSteps OwnFacts ProcFacts NameFacts LifeFacts.

Definition gone (h : handler) (s : st) : Prop := In h (handlers (cx s)) \/ In (OUnreg (h_id h)) (log s).
Definition stay1 (s s' : st) : Prop :=
  (forall h, In h (handlers (cx s)) -> gone h s') /\ (forall o, In o (log s) -> In o (log s')) /\
  (forall h, In (OReg h) (log s') -> In (OReg h) (log s) \/ gone h s').
#[global] Instance stay1_pre : PreOrder stay1.
Proof.
  split.
  - intros s. split_and!; [by left|done|by left].
  - intros s s1 s2 (A1 & B1 & C1) (A2 & B2 & C2). split_and!; [|auto|].
    + intros h Hh. destruct (A1 h Hh) as [H|H]; [by apply A2|right; by apply B2].
    + intros h Hh. destruct (C2 h Hh) as [H|H]; [|by right]. destruct (C1 h H) as [H1|[H1|H1]]; [by left|right; by apply A2|right; right; by apply B2].
Qed.
Definition noreg1 (o : obs) : bool := match o with OReg _ => false | _ => true end.
Lemma stay_same s s' l : (forall h, In h (handlers (cx s)) -> In h (handlers (cx s'))) -> log s' = l ++ log s ->
  Forall (fun o => noreg1 o = true) l -> stay1 s s'.
Proof.
  intros Hh E Hl. split_and!.
  - intros h H. left. by apply Hh.
  - intros o Ho. rewrite E. apply in_or_app. by right.
  - intros h. rewrite E. intros [H|H]%in_app_or; [|by left]. rewrite List.Forall_forall in Hl. by apply Hl in H.
Qed.
Lemma stay_untouched s s' : untouched s s' -> stay1 s s'.
Proof.
  intros U. split_and!.
  - apply (ut_stay _ _ U).
  - destruct (ut_log _ _ U) as (l & E & _). intros o Ho. rewrite E. apply in_or_app. by right.
  - intros h Hh. destruct (ut_reg _ _ U h Hh) as [H|H]; [by left|right; by left].
Qed.
Section stay.
Context (w : world).
Lemma on_ctx_handlers {A} (m : ctx -> ctx * res A) s s' r : frames m -> on_ctx m s = (s', r) -> handlers (cx s') = handlers (cx s).
Proof.
  intros Hm. rewrite /on_ctx. destruct (m (cx s)) as [c x] eqn:E. intros [= <- _]. apply sframe_handlers. by eapply Hm.
Qed.
Lemma task_res_cx i r : cx (task_res i r) = cx r.1.
Proof. by destruct r as [s1 [x|e|]]. Qed.
Lemma stay_task i s s' : own s -> task_step w i s = Some s' -> stay1 s s'.
Proof.
  intros Ho. rewrite /task_step. destruct (tasks s !! i) as [[]|]; try done.
  - rewrite /timer_init. destruct (timers s !! a); [|done].
    destruct (on_ctx _ s) as [s1 r] eqn:E. pose proof (on_ctx_handlers _ _ _ _ (perform_fval_frame w _) E) as EH. apply on_ctx_log in E.
    destruct (t_canceled_fut t), r; try done; intros [= <-].
    + eapply (stay_same _ _ [_]); [by rewrite /= EH|by rewrite /= E|by repeat constructor].
    + by apply (stay_same _ _ []); [rewrite /= EH| |constructor].
    + by apply (stay_same _ _ []); [rewrite /= EH| |constructor].
  - rewrite /timer_wake. destruct (_ || _); [|done]. destruct (timers s !! a); [|done].
    destruct (t_canceled_fut t) as [fx|], (t_completed t) as [fc|]; try done. intros [= <-].
    destruct (f_is_done fx s).
    + apply (stay_same _ _ []); [| |constructor]; rewrite ?task_res_log ?task_res_cx; by rewrite set_result_only.
    + apply (stay_same _ _ [OEmit (EvTimer a); OFire a (now s)]); [| |by repeat constructor]; rewrite ?task_res_log ?task_res_cx; by rewrite set_result_only.
  - rewrite /proc_init. destruct (procs s !! a); [|done]. destruct (x_det p); [|by intros [= <-]; apply (stay_same _ _ []); [| |constructor]].
    set (x := match lc (cx s) !! _ with Some _ => _ | None => _ end). assert (log x.1 = log s /\ handlers (cx x.1) = handlers (cx s)) as [Ex Eh].
    { rewrite /x. destruct (lc (cx s) !! _); [|done]. destruct (on_ctx _ _) eqn:E. split; [by apply on_ctx_log in E|].
      simpl. eapply (on_ctx_handlers _ s); [|exact E]. apply evaluate_expression_frame. }
    destruct x as [s1 []]; simpl in Ex, Eh; intros [= <-]; by apply (stay_same _ _ []); [rewrite /= Eh| |constructor].
  - intros [= <-]. by apply (stay_same _ _ [OEmit (EvStarted a d); OLife (EvStarted a d)]); [| |repeat constructor].
  - destruct rc as [rc|]; [|done]. rewrite /proc_exited. destruct (procs s !! a); [|done].
    set (sx := emit _ _). assert (forall s0, log sx = log s0 -> cx sx = cx s0 -> stay1 s s0) as HE.
    { intros s0 E E'. apply (stay_same _ _ [OEmit (EvExited a d rc); OLife (EvExited a d rc)]); [by rewrite -E'|by rewrite -E|by repeat constructor]. }
    assert (own sx) as Hox by (by apply own_emit, own_obs).
    assert (forall s0, log (proc_again i a s0) = log s0 /\ cx (proc_again i a s0) = cx s0) as HA. { intros s0. rewrite /proc_again. by destruct (loop_set _). }
    match goal with |- (if ?b then _ else _) = _ -> _ => destruct b end.
    + destruct (p_delay _); [destruct (Qle_bool _ _)|]; intros [= <-]; apply HE; try done; symmetry; apply (HA (upd_proc a (fun p => p <| x_retries ::= Z.succ |>) sx)).
    + intros [= <-]. destruct (cleanup_spec a sx Hox) as ((_ & _ & E1 & E2 & _) & _). apply HE; rewrite ?task_res_log ?task_res_cx; by symmetry.
  - rewrite /proc_delay. destruct (procs s !! a); [|done]. destruct (match x_shutdown p with Some _ => _ | None => _ end).
    + intros [= <-]. destruct (cleanup_spec a s Ho) as ((_ & _ & E1 & E2 & _) & _). apply (stay_same _ _ []); [| |constructor]; rewrite ?task_res_log ?task_res_cx; by rewrite ?E1 ?E2.
    + destruct (Qle_bool _ _); [|done]. intros [= <-]. apply (stay_same _ _ []); [| |constructor]; rewrite /proc_again; by destruct (loop_set _).
Qed.
Lemma lines_noreg l : lines l -> Forall (fun o => noreg1 o = true) l.
Proof. intros H. eapply Forall_impl; [exact H|]. by intros []. Qed.
Lemma stay_micro s s' : own s -> micro w s s' -> stay1 s s'.
Proof.
  intros Ho H. destruct H.
  - by apply stay_untouched.
  - destruct (timer_cancel_sameP a s) as (_ & _ & E1 & E2 & _). by apply (stay_same _ _ []); [rewrite E2|rewrite E1|constructor].
  - apply (stay_same _ _ [OTimer a]); [by destruct H2| |repeat constructor]; done.
  - by apply (stay_same _ _ []); [| |repeat constructor].
  - by apply (stay_same _ _ []); [| |repeat constructor].
  - destruct (O_prepare_executable w _ _ _ _ H0) as (c & n & pc & _ & _ & _ & [Hh _] & ->). by apply (stay_same _ _ []); [by rewrite /= Hh| |repeat constructor].
  - by apply (stay_same _ _ []); [| |repeat constructor].
  - by apply (stay_same _ _ []); [| |repeat constructor].
  - apply (stay_same _ _ []); [by destruct H8| |constructor]; done.
  - destruct (shutdown_process_case a sg s Ho) as [? Es|p sf ???? Es|p sf cf t1 t2 d f|p sf cf ?????? HU].
    + rewrite Es. by apply (stay_same _ _ [OAsked a]); [| |repeat constructor].
    + rewrite Es. by apply (stay_same _ _ [OAsked a]); [| |repeat constructor].
    + eapply (stay_same _ _ [_; _]); [|match goal with HH : log (shutdown_process _ _ _).1 = _ |- _ => exact HH end|by repeat constructor].
      match goal with HH : handlers _ = handlers _ |- _ => by rewrite HH end.
    + etrans; [|apply (stay_untouched _ _ HU)]. by apply (stay_same _ _ [OAsked a]); [| |repeat constructor].
  - by apply (stay_same _ _ [OSignal a sg]); [| |repeat constructor].
  - destruct (proc_io_buffers a e s) as [g l Hg Hl ->| ->]; [|done]. apply (stay_same _ _ l); [done|done|by apply lines_noreg].
  - destruct (proc_flush_buffers a s) as [g l Hg Hl ->| ->]; [|done]. apply (stay_same _ _ l); [done|done|by apply lines_noreg].
  - by eapply stay_task.
  - revert H. rewrite /spawn_ok. destruct (tasks s !! i) as [[]|]; try done. intros [= <-]. by apply (stay_same _ _ [OSpawn a pid]); [| |repeat constructor].
  - revert H. rewrite /spawn_fail. destruct (tasks s !! i) as [[]|]; try done. intros [= <-].
    destruct (cleanup_spec a s Ho) as ((_ & _ & E1 & E2 & _) & _). apply (stay_same _ _ []); [| |constructor]; rewrite ?task_res_log ?task_res_cx; by rewrite ?E1 ?E2.
  - revert H. rewrite /proc_exit. destruct (tasks s !! i) as [[| | | |b f d [|]|b f d [|]| |]|]; try done; intros [= <-];
    (apply (stay_same _ _ [OReap b rc]); [| |by repeat constructor]); by rewrite /= set_result_only.
Qed.
Lemma stay_steps s ls s' : own s -> steps w s ls s' -> stay1 s s'.
Proof.
  intros Ho H. apply (micro_steps w (fun s1 => own s1 /\ stay1 s s1)) in H; [by destruct H| |by split].
  intros s1 s2 Hm [Ho1 H1]. split; [by eapply own_micro|]. etrans; [exact H1|by apply stay_micro].
Qed.
Lemma noted_reachable s h : reachable w s -> In (OReg h) (log s) -> gone h s.
Proof.
  intros (n & e & ls & H) Hh. destruct (stay_steps _ _ _ (own_init n e) H) as (_ & _ & HC). by destruct (HC h Hh).
Qed.
End stay.
