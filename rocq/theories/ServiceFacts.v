(** Proofs about running a launch service (C16-C22). *)
From Coq Require Import ssreflect.
From Verif Require Import SubstFacts SpecService ExWorld ExecFacts VisitFacts HandleFacts EventFacts StepFacts MicroSteps LifeFacts.

(** ** Steps that are not steps of the service *)
(** The fields of the service, except those that processing an event changes. *)
Definition sv (s : st) := (rpc s, rcode s, when_idle s, sigint_seen s, sdt s, loop_thread s, loop_set (cx s)).
(** All fields of the service. *)
Definition svf (s : st) := (sv s, evt s, shutting_down s, is_shutdown (cx s), efuts s).
Definition misc (s s' : st) : Prop := svf s' = svf s /\ exists l, cfuts (cx s') = cfuts (cx s) ++ l.
#[global] Instance misc_refl : Reflexive misc.
Proof. intros s. split; [done|]. exists []. by rewrite app_nil_r. Qed.
#[global] Instance misc_trans : Transitive misc.
Proof. intros a b c [H1 [l1 E1]] [H2 [l2 E2]]. split; [congruence|]. exists (l1 ++ l2). by rewrite E2 E1 app_assoc. Qed.
Lemma misc_same s s' : svf s' = svf s -> cfuts (cx s') = cfuts (cx s) -> misc s s'.
Proof. intros H E. split; [done|]. exists []. by rewrite app_nil_r. Qed.
Lemma sv_inv s s' : sv s' = sv s -> rpc s' = rpc s /\ rcode s' = rcode s /\ when_idle s' = when_idle s /\ sigint_seen s' = sigint_seen s /\
  sdt s' = sdt s /\ loop_thread s' = loop_thread s /\ loop_set (cx s') = loop_set (cx s).
Proof. rewrite /sv. intros H. by injection H. Qed.
Lemma svf_inv s s' : svf s' = svf s -> sv s' = sv s /\ evt s' = evt s /\ shutting_down s' = shutting_down s /\ is_shutdown (cx s') = is_shutdown (cx s) /\ efuts s' = efuts s.
Proof. rewrite /svf. intros H. injection H as H1 H2 H3 H4 H5 H6 H7 H8 H9 H10 H11. split_and!; try done. rewrite /sv. congruence. Qed.
Ltac svi H := apply sv_inv in H; destruct H as (?&?&?&?&?&?&?).
Ltac svfi H := apply svf_inv in H; destruct H as (H&?&?&?&?); svi H.
Ltac ms := apply misc_same; done.
Lemma misc_gframe w q b s s' : gframe w q b s s' -> misc s s'.
Proof.
  intros HF. destruct HF as [_ _ S _ [F1 F2] E _ (l & C & _) _ _ _ _ _ _ _ _]. destruct S as (_ & _ & S1 & S2 & S3 & S4 & S5 & S6 & S7 & S8 & _).
  split; [|by exists l]. rewrite /svf /sv. congruence.
Qed.
Section misc.
Context (w : world).
Lemma misc_set_result f s s' r : set_result f s = (s', r) -> misc s s'.
Proof. intros E. eapply (misc_gframe w inner true). by eapply (set_result_frame (nb:=true)). Qed.
Lemma misc_cancel a s : misc s (timer_cancel a s).
Proof. apply (misc_gframe w inner true), timer_cancel_frame. Qed.
Lemma misc_cleanup a s s' r : cleanup a s = (s', r) -> misc s s'.
Proof.
  rewrite /cleanup. destruct (procs s !! a) as [p|]; [|by intros [= <- _]].
  set (s1 := match x_sigterm p with Some t => _ | None => _ end).
  set (s2 := match x_sigkill p with Some t => _ | None => _ end).
  set (s3 := match x_transport p with Some t => _ | None => _ end).
  assert (misc s s3) as H3.
  { trans s1; [rewrite /s1; destruct (x_sigterm p); [apply misc_cancel|done]|].
    trans s2; [rewrite /s2; destruct (x_sigkill p); [apply misc_cancel|done]|].
    rewrite /s3. destruct (x_transport p); [ms|done]. }
  destruct (x_completed p); [|by intros [= <- _]]. intros E. etrans; [exact H3|by eapply misc_set_result].
Qed.
Lemma misc_task_res i s s1 r : misc s s1 -> misc s (task_res i (s1, r)).
Proof. intros H. etrans; [exact H|]. destruct r; ms. Qed.
Lemma misc_on_ctx {A} (m : ctx -> ctx * res A) s s' r : frames m -> on_ctx m s = (s', r) -> misc s s'.
Proof. intros Hm E. eapply (misc_gframe w inner true). by eapply (pres_on_ctx (nb:=true) m Hm). Qed.
Lemma misc_again i a s : misc s (proc_again i a s).
Proof. rewrite /proc_again. case_match; ms. Qed.
Lemma misc_task i s s' : task_step w i s = Some s' -> misc s s'.
Proof.
  rewrite /task_step. destruct (tasks s !! i) as [t|]; [|done]. destruct t as [a|a f dl|a|a d|a f d rc|a f d rc|a dl|]; try done.
  - rewrite /timer_init. destruct (timers s !! a) as [t|]; [|done]. destruct (on_ctx _ s) as [s1 r] eqn:E.
    assert (misc s s1) as H1. { eapply misc_on_ctx; [apply (perform_fval_frame w (t_period t))|exact E]. }
    intros H. etrans; [exact H1|]. destruct (t_canceled_fut t), r as [p| |]; simplify_eq; ms.
  - rewrite /timer_wake. case_match; [|done]. destruct (timers s !! a) as [t|]; [|done].
    destruct (t_canceled_fut t) as [fx|], (t_completed t) as [fc|]; try done. intros [= <-].
    set (s1 := if f_is_done fx s then _ else _). assert (misc s s1) as H1. { rewrite /s1. destruct (f_is_done fx s); ms. }
    destruct (set_result fc s1) as [s2 r] eqn:E. apply misc_task_res. etrans; [exact H1|by eapply misc_set_result].
  - rewrite /proc_init. destruct (procs s !! a) as [p|]; [|done]. destruct (x_det p) as [d|]; [|intros [= <-]; ms].
    destruct (lc (cx s) !! "emulate_tty") as [v|].
    + destruct (on_ctx _ s) as [s1 r] eqn:E.
      assert (misc s s1) as H1. { eapply misc_on_ctx; [apply (evaluate_frame w (CIf [SText v]))|exact E]. }
      destruct r; intros [= <-]; (etrans; [exact H1|ms]).
    + intros [= <-]. ms.
  - intros [= <-]. ms.
  - destruct rc; [|done]. rewrite /proc_exited. destruct (procs s !! a) as [p|]; [|done].
    set (s1 := emit _ _). assert (misc s s1) as H1 by ms. destruct (negb _ && _ && _ && _).
    + set (s2 := upd_proc a _ s1). assert (misc s s2) as H2 by ms.
      destruct (p_delay (x_cfg p)) as [dl|]; [case_match|]; intros [= <-]; (etrans; [exact H2|]); [apply misc_again|ms|apply misc_again].
    + intros [= <-]. destruct (cleanup a s1) as [s2 r] eqn:E. apply misc_task_res. etrans; [exact H1|by eapply misc_cleanup].
  - rewrite /proc_delay. destruct (procs s !! a) as [p|]; [|done].
    set (sd := match x_shutdown p with Some f => _ | None => _ end). destruct sd.
    + intros [= <-]. destruct (cleanup a s) as [s2 r] eqn:E. apply misc_task_res. by eapply misc_cleanup.
    + destruct (Qle_bool dl (now s)); [|done]. intros [= <-]. apply misc_again.
Qed.
Definition foreign (l : label) : bool :=
  match l with LEmit _ | LUser _ | LUserFut _ _ | LTask _ | LCallback _ | LTick _ | LSpawnOk _ _ | LSpawnFail _ | LOutput _ _ _ | LExit _ _ => true | _ => false end.
Lemma misc_step l s s' : wfu s -> foreign l = true -> step w l s = Some s' -> misc s s'.
Proof.
  intros Hw Hf. destruct l; try done; cbn [step]; rewrite /loop_step.
  all: try match goal with |- (if in_loop ?x then _ else _) = _ -> _ => destruct (in_loop x) eqn:Hil; [|done] end.
  - intros [= <-]. ms.
  - intros [= <-]. eapply (misc_gframe w inner true). apply (apply_ops_frame w); apply Hw.
  - destruct (_ && _ && _); [|done]. intros [= <-]. ms.
  - apply misc_task.
  - destruct (cbs s !! i) as [[f e]|]; [|done]. destruct (f_is_done f s); [|done]. intros [= <-]. ms.
  - destruct (Qle_bool 0 d); [|done]. intros [= <-]. ms.
  - rewrite /spawn_ok. destruct (tasks s !! i) as [[]|]; try done. rewrite /new_future. intros [= <-]. ms.
  - rewrite /spawn_fail. destruct (tasks s !! i) as [[]|]; try done. intros [= <-].
    destruct (cleanup a s) as [s2 r] eqn:E. apply misc_task_res. by eapply misc_cleanup.
  - destruct (pipes s !! i) as [[[? ?] ?]|]; [|done]. intros [= <-]. ms.
  - rewrite /proc_exit. destruct (tasks s !! i) as [[]|]; try done; destruct rc0; try done; intros [= <-].
    all: destruct (set_result complete s) as [s2 r] eqn:E; (etrans; [by eapply misc_set_result|]); ms.
Qed.
(** Processing an event. *)
Lemma event_step fuel s s' : wfu s -> step w (LEvent fuel) s = Some s' ->
  exists r, sv s' = sv s /\ evt s = ETPending /\ evt s' = ETDone r /\ in_loop s = true /\
    ((shutting_down s' = shutting_down s /\ is_shutdown (cx s') = is_shutdown (cx s)) \/ (shutting_down s' = true /\ is_shutdown (cx s') = true)) /\
    (exists l, efuts s' = efuts s ++ l) /\ exists l, cfuts (cx s') = cfuts (cx s) ++ l.
Proof.
  intros Hw H. destruct (step_cases w _ s s' Hw H) as [(_ & Hne & _)|[(i & f & e & Hl & _)|(fu & e & q & s2 & r & _ & Hi & He & Hq & E & Hr & ->)]]; [by destruct (Hne fuel)|done|].
  pose proof (H_process_event w fu e _ _ _ E) as HF. specialize (HF (proj1 (deq_wfu s e q Hw))).
  destruct HF as [_ _ S F (l & E1) _ (l2 & C & _) _ _ _ _ _ _]. destruct S as (_ & _ & S1 & S2 & S3 & S4 & S5 & S6 & S7 & S8 & _).
  exists r. simpl in *. split_and!; try done; [|by eexists|by eexists].
  rewrite /sv /=. congruence.
Qed.
End misc.

(** ** Invariants of the service *)
Lemma wake_inv ws s s' : wake_step ws s = Some s' ->
  (existsb (fun f => is_cancelled f s) ws = true /\ s' = s <| rcode := 1%Z |> <| rpc := Leaving |>) \/
  (existsb (fun f => is_cancelled f s) ws = false /\
     (match evt s with ETDone (Exn _) => true | _ => false end || existsb (fun f => has_exn f s) ws = true) /\
     s' = (svc_shutdown "exception" false s) <| rcode := 1%Z |> <| rpc := AtLoop |>) \/
  (existsb (fun f => is_cancelled f s) ws = false /\
     (match evt s with ETDone (Exn _) => true | _ => false end || existsb (fun f => has_exn f s) ws = false) /\
     s' = s <| rpc := AtLoop |>).
Proof.
  rewrite /wake_step. case_match; [|done]. intros E. injection E as <-.
  destruct (existsb (fun f => is_cancelled f s) ws); [by left|right].
  destruct (match evt s with ETDone (Exn _) => true | _ => false end || existsb (fun f => has_exn f s) ws); [left|right]; done.
Qed.

Section inv.
Context (w : world).
Record svok (s : st) : Prop := {
  so_idle : rpc s = Idle -> loop_thread s = false /\ sdt s = SdNone /\ loop_set (cx s) = false;
  so_flag : shutting_down s = true -> is_shutdown (cx s) = true;
  so_rc : rcode s = 0%Z \/ rcode s = 1%Z }.
Lemma svok_of s s' : rpc s' = rpc s -> loop_thread s' = loop_thread s -> sdt s' = sdt s -> loop_set (cx s') = loop_set (cx s) -> rcode s' = rcode s ->
  (shutting_down s' = true -> is_shutdown (cx s') = true) -> svok s -> svok s'.
Proof. intros E1 E2 E3 E4 E5 H [A B C]. constructor; [by rewrite E1 E2 E3 E4|done|by rewrite E5]. Qed.
Lemma svok_svf s s' : svf s' = svf s -> svok s -> svok s'.
Proof. intros H HO. svfi H. apply (svok_of s); try done. intros Hs. destruct HO as [_ HB _]. enough (shutting_down s = true) as Ht by (specialize (HB Ht); congruence). congruence. Qed.
Lemma svc_shutdown_sv r g s : sv (svc_shutdown r g s) = sv s /\ shutting_down (svc_shutdown r g s) = true /\ is_shutdown (cx (svc_shutdown r g s)) = true /\
  efuts (svc_shutdown r g s) = efuts s /\ cfuts (cx (svc_shutdown r g s)) = cfuts (cx s) /\ evt (svc_shutdown r g s) = evt s.
Proof. rewrite /svc_shutdown. by destruct (shutting_down s). Qed.
Lemma svok_shutdown r g s : svok s -> svok (svc_shutdown r g s).
Proof.
  destruct (svc_shutdown_sv r g s) as (H & H1 & H2 & _). svi H. by apply svok_of.
Qed.
Lemma svok_init n e : svok (init n e).
Proof. constructor; [done|done|by left]. Qed.
Ltac so := constructor; simpl; try done; first [by left|by right|idtac].
Lemma svok_step l s s' : wfu s -> svok s -> step w l s = Some s' -> svok s'.
Proof.
  intros Hw HO H. destruct (foreign l) eqn:Hf. { destruct (misc_step w l s s' Hw Hf H) as [HM _]. by eapply svok_svf. }
  pose proof HO as [A B C]. destruct l; try done; cbn [step] in H.
  - revert H. rewrite /run_step. destruct (sdt s) eqn:Es; try done. destruct (loop_thread s).
    + destruct (in_loop s); [|done]. intros [= <-]. so.
    + destruct (rpc s); try done. intros [= <-]. so.
  - destruct (rpc s) eqn:Er; try done. injection H as <-. rewrite /main_step. set (s1 := prune s).
    assert (svok s1) as [A1 B1 C1] by (constructor; [by rewrite /= Er|done|done]).
    destruct (negb _ && _ && _); [by apply svok_shutdown|]. destruct (shutting_down s1 && _); so.
  - destruct (rpc s) as [| |ws|] eqn:Er; try done. apply wake_inv in H as [[_ ->]|[(_ & _ & ->)|(_ & _ & ->)]]; [so| |so]. destruct (svc_shutdown_sv "exception" false s) as (_ & H1 & H2 & _). so.
  - destruct (rpc s), (sdt s) eqn:Es; try done. injection H as <-. so.
  - destruct (event_step w fuel s s' Hw H) as (r & Hsv & _ & _ & _ & Hfl & _). svi Hsv. apply (svok_of s); try done.
    destruct Hfl as [[F1 F2]|[F1 F2]]; [by rewrite F1 F2|done].
  - destruct (rpc s) eqn:Er; try done. destruct (unretrieved s); [|done]. injection H as <-. so. by rewrite Er.
  - destruct (rpc s) eqn:Er; try done. injection H as <-. destruct (sigint_seen s); [done|].
    destruct (svc_shutdown_sv "ctrl-c (SIGINT)" true s) as (HS & H1 & H2 & _). svi HS. by apply (svok_of s).
  - destruct (rpc s) eqn:Er; try done. injection H as <-. so.
  - destruct (sdt s) eqn:Es; try done. destruct (loop_thread s) eqn:El; [|by injection H as <-].
    assert (rpc s <> Idle) as Hni. { intros E. by destruct (A E). }
    destruct (shutting_down s) eqn:Ed; injection H as <-; so. by rewrite Ed.
  - destruct (sdt s) eqn:Es; try done. injection H as <-. so. intros E. by destruct (A E) as (_ & ? & _).
  - destruct (sdt s) eqn:Es; try done. rewrite /loop_step in H. destruct (in_loop s); [|done]. injection H as <-. so. intros E. by destruct (A E) as (_ & ? & _).
  - destruct (sdt s) eqn:Es; try done. injection H as <-. so. intros E. by destruct (A E) as (_ & ? & _).
  - destruct (sdt s) eqn:Es; try done. rewrite /loop_step in H. destruct (in_loop s); [|done].
    destruct (loop_thread s) eqn:El; [|by injection H as <-].
    destruct awaited; injection H as <-; [by apply svok_shutdown|]. so. intros E. by destruct (A E).
Qed.
Lemma reachable_ind' (P : st -> Prop) : (forall n e, P (init n e)) -> (forall l s s', reachable w s -> P s -> step w l s = Some s' -> P s') ->
  forall s, reachable w s -> P s.
Proof.
  intros H0 HS s (n & e & ls & H). assert (reachable w (init n e)) as Hr by (exists n, e, []; constructor).
  specialize (H0 n e). revert Hr H0. generalize (init n e) H. clear n e H. intros s0 H. induction H as [|s l s1 ls s2 H1 _ IH]; [done|].
  intros Hr HP. apply IH; [by eapply reachable_step|by eapply HS].
Qed.
Lemma svok_reachable s : reachable w s -> svok s.
Proof. revert s. apply reachable_ind'; [apply svok_init|]. intros l s s' Hr. apply svok_step. by eapply reachable_wfu. Qed.

(** ** Futures *)
Lemma step_futs l s s' : wfu s -> step w l s = Some s' -> futs_le s s'.
Proof.
  intros Hw H. destruct (step_cases w _ s s' Hw H) as [(HT & _)|[(i & f & e & _ & _ & _ & _ & ->)|(fu & e & q & s2 & r & _ & Hi & He & Hq & E & Hr & ->)]].
  - apply HT.
  - by apply futs_le_same.
  - pose proof (H_process_event w fu e _ _ _ E) as HF. specialize (HF (proj1 (deq_wfu s e q Hw))). apply HF.
Qed.
Lemma done_le f s s' : futs_le s s' -> f_is_done f s = true -> f_is_done f s' = true.
Proof.
  intros (_ & H & _). rewrite /f_is_done /f_get. destruct (futs s !! f) as [x|] eqn:E; [|done]. simpl. intros Hd.
  destruct (H f x E) as (x' & E' & Hx). by rewrite E' /= (Hx Hd).
Qed.
Lemma prune_awaited f s : awaited f s -> awaited f (prune s) \/ f_is_done f s = true.
Proof.
  destruct (f_is_done f s) eqn:E; [by right|]. intros [H|H]; left; [left|right]; apply filter_In; by rewrite E.
Qed.
Lemma awaited_misc f s s' : misc s s' -> awaited f s -> awaited f s'.
Proof.
  intros [H [l E]] [Hf|Hf]; svfi H; [left; congruence|right]. rewrite E. apply in_or_app. by left.
Qed.
Lemma awaited_step f l s s' : wfu s -> step w l s = Some s' -> awaited f s -> awaited f s' \/ f_is_done f s' = true.
Proof.
  intros Hw H Ha. destruct (foreign l) eqn:Hf. { left. eapply awaited_misc; [|exact Ha]. by eapply misc_step. }
  destruct l; try done; cbn [step] in H.
  - left. revert H. rewrite /run_step. destruct (sdt s), (loop_thread s), (in_loop s), (rpc s); try done; by intros [= <-].
  - destruct (rpc s); try done. injection H as <-. destruct (prune_awaited f s Ha) as [Hp|Hd].
    + left. rewrite /main_step. destruct (negb _ && _ && _). { destruct (svc_shutdown_sv "idle" false (prune s)) as (_ & _ & _ & E1 & E2 & _). rewrite /awaited E1 E2. exact Hp. }
      destruct (shutting_down _ && _); exact Hp.
    + right. rewrite /main_step. destruct (negb _ && _ && _); [rewrite /svc_shutdown; by destruct (shutting_down (prune s))|]. destruct (shutting_down _ && _); exact Hd.
  - left. destruct (rpc s); try done. apply wake_inv in H as [[_ ->]|[(_ & _ & ->)|(_ & _ & ->)]]; [exact Ha| |exact Ha]. destruct (svc_shutdown_sv "exception" false s) as (_ & _ & _ & E1 & E2 & _).
    rewrite /awaited /= E1 E2. exact Ha.
  - left. destruct (rpc s), (sdt s); try done. by injection H as <-.
  - left. destruct (event_step w fuel s s' Hw H) as (r & _ & _ & _ & _ & _ & [l1 E1] & [l2 E2]). destruct Ha as [Ha|Ha]; [left; rewrite E1|right; rewrite E2]; apply in_or_app; by left.
  - left. destruct (rpc s); try done. destruct (unretrieved s); [|done]. by injection H as <-.
  - left. destruct (rpc s); try done. injection H as <-. destruct (sigint_seen s); [exact Ha|]. destruct (svc_shutdown_sv "ctrl-c (SIGINT)" true s) as (_ & _ & _ & E1 & E2 & _).
    rewrite /awaited /= E1 E2. exact Ha.
  - left. destruct (rpc s); try done. by injection H as <-.
  - left. destruct (sdt s); try done. destruct (loop_thread s), (shutting_down s); by injection H as <-.
  - left. destruct (sdt s); try done. by injection H as <-.
  - left. destruct (sdt s); try done. rewrite /loop_step in H. destruct (in_loop s); [|done]. by injection H as <-.
  - left. destruct (sdt s); try done. by injection H as <-.
  - left. destruct (sdt s); try done. rewrite /loop_step in H. destruct (in_loop s); [|done]. destruct (loop_thread s); [|by injection H as <-].
    destruct awaited; injection H as <-; [|exact Ha]. destruct (svc_shutdown_sv "LaunchService.shutdown() called" false s) as (_ & _ & _ & E1 & E2 & _).
    rewrite /SpecService.awaited /= E1 E2. exact Ha.
Qed.
Lemma awaited_steps f s ls s' : reachable w s -> steps w s ls s' -> awaited f s \/ f_is_done f s = true -> awaited f s' \/ f_is_done f s' = true.
Proof.
  intros Hr H. induction H as [|s l s1 ls s2 H1 _ IH]; [done|]. intros Ha. pose proof (reachable_wfu w s Hr) as Hw.
  apply IH; [by eapply reachable_step|]. destruct Ha as [Ha|Hd]; [by eapply awaited_step|right]. eapply done_le; [|exact Hd]. by eapply step_futs.
Qed.

(** ** C16 *)
Definition quiescent (s : st) : Prop := shutting_down s = true /\ queue (cx s) = [] /\ efuts s = [] /\ cfuts (cx s) = [] /\ evt s = ETNone.
Lemma is_idle_true s : is_idle s = true -> queue (cx s) = [] /\ efuts s = [] /\ cfuts (cx s) = [].
Proof. rewrite /is_idle. by destruct (efuts s), (cfuts (cx s)), (queue (cx s)). Qed.
Lemma leaving_step l s s' : reachable w s -> (rpc s = Leaving -> run_cancelled w s \/ quiescent s) -> step w l s = Some s' ->
  rpc s' = Leaving -> run_cancelled w s' \/ quiescent s'.
Proof.
  intros Hr IH H Hl. pose proof (reachable_wfu w s Hr) as Hw.
  assert (rpc s = Leaving \/ rpc s <> Leaving) as [Er|Er] by (destruct (rpc s); by auto).
  - assert (forall wi, l <> LRun wi) as Hnr.
    { intros wi ->. revert H. cbn [step]. rewrite /run_step /in_loop Er. by destruct (sdt s), (loop_thread s). }
    destruct (IH Er) as [Hc|Hq]; [left; by eapply rc_later|right].
    destruct l; revert H; cbn [step]; rewrite /loop_step /in_loop ?Er; try done.
    + by destruct (Hnr when_idle).
    + destruct (sdt s); try done. intros [= <-]. done.
    + destruct (sdt s); try done. destruct (loop_thread s), (shutting_down s) eqn:Ed; intros [= <-]; destruct Hq as (H1 & H2 & H3 & H4 & H5); try done; congruence.
    + destruct (sdt s); try done. by intros [= <-].
    + by destruct (sdt s).
    + destruct (sdt s); try done. intros [= <-]. destruct Hq as (H1 & H2 & H3 & H4 & H5). done.
    + by destruct (sdt s).
    + destruct (Qle_bool 0 d); [|done]. by intros [= <-].
  - destruct (foreign l) eqn:Hf.
    { destruct (misc_step w l s s' Hw Hf H) as [HM _]. svfi HM. congruence. }
    destruct l; try done.
    + exfalso. revert H. cbn [step]. rewrite /run_step. destruct (sdt s), (loop_thread s), (in_loop s), (rpc s) eqn:Er'; try done; intros [= <-]; simpl in Hl; congruence.
    + cbn [step] in H. destruct (rpc s) eqn:Er'; try done. injection H as <-. revert Hl. rewrite /main_step.
      destruct (negb _ && _ && _). { destruct (svc_shutdown_sv "idle" false (prune s)) as (E & _). svi E. intros ?. simpl in *. congruence. }
      destruct (shutting_down (prune s)) eqn:Ed; [|done]. destruct (is_idle (prune s)) eqn:Ei; [|done]. intros _. right.
      apply is_idle_true in Ei as (H1 & H2 & H3). done.
    + pose proof H as H0. cbn [step] in H. destruct (rpc s) as [| |ws|] eqn:Er'; try done. apply wake_inv in H as [[Ec ->]|[(_ & _ & ->)|(_ & _ & ->)]]; [|done|done].
      left. apply (rc_now w s LWake); [done|exact H0|]. right. split; [done|]. apply existsb_exists in Ec as (f & Hin & Hc). exists ws, f. split_and!; try done.
      revert Hc. rewrite /is_cancelled. by destruct (f_get f s).
    + exfalso. cbn [step] in H. destruct (rpc s), (sdt s); try done.
    + exfalso. destruct (event_step w fuel s s' Hw H) as (r & HM & _). svi HM. congruence.
    + exfalso. cbn [step] in H. destruct (rpc s) eqn:Er'; try done. destruct (unretrieved s); [|done]. injection H as <-. simpl in Hl. congruence.
    + exfalso. cbn [step] in H. destruct (rpc s) eqn:Er'; try done. injection H as <-. destruct (sigint_seen s); [congruence|].
      destruct (svc_shutdown_sv "ctrl-c (SIGINT)" true s) as (E & _). svi E. simpl in *. congruence.
    + left. apply (rc_now w s LSigterm); [done|exact H|by left].
    + exfalso. cbn [step] in H. destruct (sdt s), (loop_thread s), (shutting_down s); try done; injection H as <-; simpl in Hl; congruence.
    + exfalso. cbn [step] in H. destruct (sdt s); try done; injection H as <-; simpl in Hl; congruence.
    + exfalso. cbn [step] in H. rewrite /loop_step in H. destruct (sdt s), (in_loop s); try done; injection H as <-; simpl in Hl; congruence.
    + exfalso. cbn [step] in H. destruct (sdt s); try done; injection H as <-; simpl in Hl; congruence.
    + exfalso. cbn [step] in H. rewrite /loop_step in H. destruct (sdt s), (in_loop s); try done. destruct (loop_thread s); [|injection H as <-; congruence].
      destruct awaited; injection H as <-; [|simpl in Hl; congruence].
      destruct (svc_shutdown_sv "LaunchService.shutdown() called" false s) as (E & _). svi E. congruence.
Qed.
Lemma leaving s : reachable w s -> rpc s = Leaving -> run_cancelled w s \/ quiescent s.
Proof. revert s. apply (reachable_ind' (fun s => rpc s = Leaving -> run_cancelled w s \/ quiescent s)); [done|]. intros l s s' Hr IH H. exact (leaving_step l s s' Hr IH H). Qed.

(** The run returns in this step. *)
Lemma returns_inv l s s' : reachable w s -> step w l s = Some s' -> in_run s = true -> in_run s' = false ->
  l = LLeave /\ rpc s = Leaving /\ hist s' = hist s ++ [OReturn (rcode s)] /\ s' = obs1 (OReturn (rcode s)) ((finally_run s) <| rpc := Idle |>).
Proof.
  intros Hr H H1 H2. pose proof (reachable_wfu w s Hr) as Hw.
  assert (rpc s <> Idle) as Hi by (intros E; by rewrite /in_run E in H1).
  assert (rpc s' = Idle) as Hi' by (revert H2; rewrite /in_run; by destruct (rpc s')).
  destruct (foreign l) eqn:Hf. { destruct (misc_step w l s s' Hw Hf H) as [HM _]. svfi HM. congruence. }
  assert (forall r g, rpc (svc_shutdown r g s) = rpc s) as HS. { intros r g. destruct (svc_shutdown_sv r g s) as (E & _). by svi E. }
  destruct l; try done; cbn [step] in H.
  - exfalso. revert H. rewrite /run_step. destruct (sdt s), (loop_thread s), (in_loop s), (rpc s) eqn:Er'; try done; intros [= <-]; simpl in Hi'; congruence.
  - exfalso. destruct (rpc s) eqn:Er; try done. injection H as <-. revert Hi'. rewrite /main_step.
    destruct (negb _ && _ && _). { destruct (svc_shutdown_sv "idle" false (prune s)) as (E & _). svi E. simpl in *. congruence. }
    by destruct (shutting_down _ && _).
  - exfalso. destruct (rpc s) as [| |ws|] eqn:Er; try done. by apply wake_inv in H as [[_ ->]|[(_ & _ & ->)|(_ & _ & ->)]].
  - destruct (rpc s), (sdt s) eqn:Es; try done. by injection H as <-.
  - exfalso. destruct (event_step w fuel s s' Hw H) as (r & HM & _). svi HM. congruence.
  - exfalso. destruct (rpc s) eqn:Er'; try done. destruct (unretrieved s); [|done]. injection H as <-. simpl in Hi'. congruence.
  - exfalso. destruct (rpc s) eqn:Er'; try done. injection H as <-. destruct (sigint_seen s); [congruence|]. simpl in Hi'. rewrite HS in Hi'. congruence.
  - exfalso. destruct (rpc s) eqn:Er'; try done. by injection H as <-.
  - exfalso. destruct (sdt s), (loop_thread s), (shutting_down s); try done; injection H as <-; simpl in Hi'; congruence.
  - exfalso. destruct (sdt s); try done; injection H as <-; simpl in Hi'; congruence.
  - exfalso. rewrite /loop_step in H. destruct (sdt s), (in_loop s); try done; injection H as <-; simpl in Hi'; congruence.
  - exfalso. destruct (sdt s); try done; injection H as <-; simpl in Hi'; congruence.
  - exfalso. rewrite /loop_step in H. destruct (sdt s), (in_loop s); try done. destruct (loop_thread s); [|injection H as <-; congruence].
    destruct awaited; injection H as <-; [rewrite HS in Hi'|simpl in Hi']; congruence.
Qed.
Lemma returns l s s' : reachable w s -> step w l s = Some s' -> in_run s = true -> in_run s' = false ->
  hist s' = hist s ++ [OReturn (rcode s)] /\
  (run_cancelled w s \/ (shutting_down s = true /\ queue (cx s) = [] /\ forall f, ~ awaited f s)).
Proof.
  intros Hr H H1 H2. destruct (returns_inv l s s' Hr H H1 H2) as (_ & Hl & Hh & _). split; [done|].
  destruct (leaving s Hr Hl) as [?|(E1 & E2 & E3 & E4 & _)]; [by left|right]. split_and!; [done|done|]. intros f [Hf|Hf]; [by rewrite E3 in Hf|by rewrite E4 in Hf].
Qed.
Lemma returns_done f s0 ls l s s' : reachable w s0 -> awaited f s0 -> steps w s0 ls s -> step w l s = Some s' -> in_run s = true -> in_run s' = false ->
  run_cancelled w s \/ f_is_done f s = true.
Proof.
  intros Hr Ha Hs H H1 H2. assert (reachable w s) as Hr2 by (by eapply reachable_steps).
  destruct (returns l s s' Hr2 H H1 H2) as [_ [?|(_ & _ & Hn)]]; [by left|right].
  destruct (awaited_steps f s0 ls s Hr Hs (or_introl Ha)) as [Hf|Hf]; [|done]. by destruct (Hn f).
Qed.

(** ** C17 *)
Lemma all_done_prune s : (forall f, awaited f s -> f_is_done f s = true) -> queue (cx s) = [] -> is_idle (prune s) = true.
Proof.
  intros Ha Hq. assert (forall l, (forall f, In f l -> f_is_done f s = true) -> List.filter (fun f => negb (f_is_done f s)) l = []) as HL.
  { induction l as [|f l IH]; [done|]. intros H. simpl. rewrite (H f (or_introl eq_refl)) /=. apply IH. intros g Hg. apply H. by right. }
  rewrite /is_idle /= (HL (efuts s)); [intros f Hf; apply Ha; by left|]. rewrite (HL (cfuts (cx s))); [intros f Hf; apply Ha; by right|]. by rewrite Hq.
Qed.
Lemma idle_shutdown s s' : step w LMain s = Some s' -> when_idle s = true -> shutting_down s = false -> queue (cx s) = [] ->
  (forall f, awaited f s -> f_is_done f s = true) ->
  hist s' = hist s ++ [OEmit (EvShutdown "idle" false)] /\ queue (cx s') = [EvShutdown "idle" false] /\ shutting_down s' = true /\ in_run s' = true.
Proof.
  cbn [step]. intros H Hi Hs Hq Ha. destruct (rpc s) eqn:Er; try done. injection H as <-. rewrite /main_step (_ : is_idle (prune s) = true); [by apply all_done_prune|].
  rewrite /= Hs Hi /= /svc_shutdown /= Hs /in_run /= Er. by rewrite /hist /= Hq.
Qed.
(** What one step may do to the number of Shutdown events. *)
Lemma shutdowns_obs o s : shutdowns (obs1 o s) = (shutdowns s + if is_shut o then 1 else 0)%nat.
Proof. rewrite /shutdowns /hist /= List.filter_app app_length /=. by destruct (is_shut o). Qed.
Lemma shutdowns_svc r g s : shutdowns (svc_shutdown r g s) = (shutdowns s + if shutting_down s then 0 else 1)%nat.
Proof. rewrite /svc_shutdown. destruct (shutting_down s); [by rewrite Nat.add_0_r|]. by rewrite /shutdowns /hist /= List.filter_app app_length. Qed.
Lemma shutdowns_log s s' : log s' = log s -> shutdowns s' = shutdowns s.
Proof. rewrite /shutdowns /hist. by intros ->. Qed.
(** A counting argument. *)
Lemma budget (P : st -> Prop) (B : st -> nat) (ok : label -> bool) ls s s' :
  (forall l s s', reachable w s -> P s -> ok l = true -> step w l s = Some s' -> P s' /\ ((if own l then shutdowns s' - shutdowns s else 0) + B s' <= B s)%nat) ->
  reachable w s -> P s -> steps w s ls s' -> Forall (fun l => ok l = true) ls -> (own_shutdowns w ls s <= B s)%nat.
Proof.
  intros HB Hr HP H. induction H as [|s l s1 ls s2 H1 _ IH]; [simpl; lia|]. intros Hok. inversion Hok as [|? ? Hl Hls]; subst.
  destruct (HB l s s1 Hr HP Hl H1) as [HP1 HB1]. cbn [own_shutdowns]. rewrite H1.
  specialize (IH ltac:(by eapply reachable_step) HP1 Hls). lia.
Qed.

Lemma in_run_eq s s' : rpc s' = rpc s -> in_run s' = in_run s.
Proof. by rewrite /in_run => ->. Qed.
(** The number of Shutdown events the service may still emit in this run. *)
Definition left2 (th : bool) (s : st) : nat :=
  if in_run s then
    ((if shutting_down s then 0 else 1) +
     match sdt s with SdDecided | SdPosted => 1 | SdNone => if shutting_down s || negb th then 0 else 1 | SdPut => 0 end)%nat
  else 0%nat.
Definition cost (l : label) (s s' : st) : nat := if own l then (shutdowns s' - shutdowns s)%nat else 0%nat.
Lemma left2_svc th r g s s' : in_run s' = in_run s -> sdt s' = sdt s -> shutting_down s' = true -> in_run s = true ->
  shutdowns s' = shutdowns (svc_shutdown r g s) -> (shutdowns s' - shutdowns s + left2 th s' <= left2 th s)%nat.
Proof. intros E1 E2 E3 E4 E5. rewrite E5 shutdowns_svc /left2 E1 E2 E3 E4. destruct (shutting_down s), (sdt s), th; simpl; lia. Qed.
Lemma left2_same th s s' : in_run s' = in_run s -> sdt s' = sdt s -> (shutting_down s' = shutting_down s \/ shutting_down s' = true) -> shutdowns s' = shutdowns s ->
  (shutdowns s' - shutdowns s + left2 th s' <= left2 th s)%nat.
Proof. intros E1 E2 [E3|E3] E4; rewrite E4 /left2 E1 E2 E3; destruct (in_run s), (shutting_down s), (sdt s), th; simpl; lia. Qed.
Lemma left2_foreign th s s' : in_run s' = in_run s -> sdt s' = sdt s -> (shutting_down s' = shutting_down s \/ shutting_down s' = true) ->
  (0 + left2 th s' <= left2 th s)%nat.
Proof. intros E1 E2 [E3|E3]; rewrite /left2 E1 E2 E3; destruct (in_run s), (shutting_down s), (sdt s), th; simpl; lia. Qed.
Lemma left2_step th l s s' : th || negb (is_thread l) = true -> reachable w s -> is_run l = false -> step w l s = Some s' -> (cost l s s' + left2 th s' <= left2 th s)%nat.
Proof.
  intros Hth Hr Hl H. pose proof (reachable_wfu w s Hr) as Hw. pose proof (svok_reachable s Hr) as [A B _]. rewrite /cost.
  destruct (foreign l) eqn:Hf.
  { destruct (misc_step w l s s' Hw Hf H) as [HM _]. svfi HM. assert (own l = false) as -> by (by destruct l).
    apply left2_foreign; [by apply in_run_eq|done|by left]. }
  assert (forall r g, in_run (svc_shutdown r g s) = in_run s) as HR. { intros r g. destruct (svc_shutdown_sv r g s) as (E & _). svi E. by apply in_run_eq. }
  assert (forall r g, sdt (svc_shutdown r g s) = sdt s) as HS. { intros r g. destruct (svc_shutdown_sv r g s) as (E & _). by svi E. }
  assert (forall r g, shutting_down (svc_shutdown r g s) = true) as HF. { intros r g. by destruct (svc_shutdown_sv r g s) as (_ & ? & _). }
  destruct l; try done; cbn [step] in H; cbn [own].
  - destruct (rpc s) eqn:Er; try done. injection H as <-. rewrite /main_step. destruct (negb _ && _ && _).
    + apply (left2_svc th "idle" false (prune s)); rewrite ?/in_run /= ?Er //; destruct (svc_shutdown_sv "idle" false (prune s)) as (E & ? & _); svi E; try done.
      rewrite H0. simpl. by rewrite Er.
    + destruct (shutting_down (prune s) && _); apply left2_same; rewrite ?/in_run /= ?Er //; by left.
  - destruct (rpc s) as [| |ws|] eqn:Er; try done. apply wake_inv in H as [[_ ->]|[(_ & _ & ->)|(_ & _ & ->)]].
    + apply left2_same; rewrite ?/in_run /= ?Er //; by left.
    + apply (left2_svc th "exception" false); rewrite ?/in_run /= ?Er //. by destruct (shutting_down s).
    + apply left2_same; rewrite ?/in_run /= ?Er //; by left.
  - destruct (rpc s) eqn:Er, (sdt s) eqn:Es; try done. injection H as <-. rewrite /left2 /in_run /=. lia.
  - destruct (event_step w fuel s s' Hw H) as (r & HM & _ & _ & _ & Hfl & _). svi HM. apply left2_foreign; [by apply in_run_eq|done|].
    destruct Hfl as [[? _]|[? _]]; [by left|by right].
  - destruct (rpc s) eqn:Er'; try done. destruct (unretrieved s); [|done]. injection H as <-. apply left2_foreign; [done|done|by left].
  - destruct (rpc s) eqn:Er'; try done. injection H as <-. destruct (sigint_seen s); [apply left2_same; try done; by left|].
    apply (left2_svc th "ctrl-c (SIGINT)" true); first [apply HR|apply HS|apply HF|by rewrite /in_run Er'|done].
  - destruct (rpc s) eqn:Er'; try done. injection H as <-. apply left2_foreign; rewrite /in_run /= ?Er' //. by left.
  - destruct (sdt s) eqn:Es; try done. destruct (loop_thread s) eqn:El; [|injection H as <-; apply left2_same; try done; by left].
    destruct (shutting_down s) eqn:Ed; injection H as <-; [apply left2_same; try done; by right|].
    rewrite (shutdowns_log s) // /left2 /= Es Ed. rewrite (_ : in_run (s <| sdt := SdDecided |>) = in_run s) //. destruct th; [|done]. destruct (in_run s); simpl; lia.
  - destruct (sdt s) eqn:Es; try done. injection H as <-.
    rewrite (shutdowns_log s) // /left2 /= Es. rewrite (_ : in_run (s <| sdt := SdPosted |>) = in_run s) //. destruct (in_run s); lia.
  - destruct (sdt s) eqn:Es; try done. rewrite /loop_step in H. destruct (in_loop s); [|done]. injection H as <-.
    assert (in_run s = true) as Hi. { rewrite /in_run. destruct (rpc s); try done. by destruct (A eq_refl) as (_ & ? & _). }
    rewrite /left2 /= Es. rewrite (_ : in_run (_ <| sdt := SdPut |>) = in_run s) // Hi.
    rewrite (_ : shutdowns _ = (shutdowns s + 1)%nat); [by rewrite /shutdowns /hist /= List.filter_app app_length|].
    destruct (shutting_down s); lia.
  - destruct (sdt s) eqn:Es; try done. injection H as <-. rewrite (shutdowns_log s) // /left2 /= Es. rewrite (_ : in_run (_ <| sdt := SdNone |>) = in_run s) //.
    destruct (in_run s), (shutting_down s), th; simpl; lia.
  - destruct (sdt s) eqn:Es; try done. rewrite /loop_step in H. destruct (in_loop s); [|done].
    destruct (loop_thread s) eqn:El; [|injection H as <-; apply left2_same; try done; by left].
    destruct awaited; injection H as <-; [|apply left2_same; try done; by right].
    apply (left2_svc th "LaunchService.shutdown() called" false); try done; [by rewrite HS Es|]. rewrite /in_run. destruct (rpc s) eqn:E; try done. by destruct (A eq_refl).
Qed.
Lemma at_most_two s ls s' : reachable w s -> steps w s ls s' -> Forall (fun l => is_run l = false) ls -> (own_shutdowns w ls s <= 2)%nat.
Proof.
  intros Hr Hs Hl. trans (left2 true s).
  - apply (budget (fun _ => True) (left2 true) (fun l => negb (is_run l)) ls s s'); try done.
    + intros l x x' Hx _ Ho H. split; [done|]. apply left2_step; try done. by destruct (is_run l).
    + eapply List.Forall_impl; [|exact Hl]. by intros l ->.
  - rewrite /left2. destruct (in_run s), (shutting_down s), (sdt s); simpl; lia.
Qed.
Lemma sdt_kept l s s' : reachable w s -> is_thread l = false -> step w l s = Some s' -> sdt s = SdNone -> sdt s' = SdNone.
Proof.
  intros Hr Hl H Hn. pose proof (reachable_wfu w s Hr) as Hw. 
  destruct (foreign l) eqn:Hf. { destruct (misc_step w l s s' Hw Hf H) as [HM _]. svfi HM. congruence. }
  assert (forall r g x, sdt (svc_shutdown r g x) = sdt x) as HS. { intros r g x. destruct (svc_shutdown_sv r g x) as (E & _). by svi E. }
  destruct l; try done; cbn [step] in H; rewrite ?Hn // in H.
  - revert H. rewrite /run_step. destruct (sdt s) eqn:E, (loop_thread s), (in_loop s), (rpc s); try done; by intros [= <-].
  - destruct (rpc s) eqn:Er; try done. injection H as <-. rewrite /main_step. destruct (negb _ && _ && _); [by rewrite HS|]. by destruct (_ && _).
  - destruct (rpc s) as [| |ws|] eqn:Er; try done. apply wake_inv in H as [[_ ->]|[(_ & _ & ->)|(_ & _ & ->)]]; try done. simpl. by rewrite HS.
  - destruct (rpc s) eqn:Er; try done. by injection H as <-.
  - destruct (event_step w fuel s s' Hw H) as (r & HM & _). svi HM. congruence.
  - destruct (rpc s) eqn:Er'; try done. destruct (unretrieved s); [|done]. by injection H as <-.
  - destruct (rpc s) eqn:Er'; try done. injection H as <-. destruct (sigint_seen s); [done|]. simpl. by rewrite HS.
  - destruct (rpc s) eqn:Er'; try done. by injection H as <-.
  - rewrite /loop_step in H. destruct (in_loop s), (loop_thread s), awaited; try done; injection H as <-; rewrite ?HS //.
Qed.
Lemma at_most s ls s' : reachable w s -> steps w s ls s' -> Forall (fun l => is_run l = false) ls -> Forall (fun l => is_thread l = false) ls ->
  sdt s = SdNone -> (own_shutdowns w ls s <= if shutting_down s then 0 else 1)%nat.
Proof.
  intros Hr Hs Hl Ht Hn. trans (left2 false s).
  - apply (budget (fun s => sdt s = SdNone) (left2 false) (fun l => negb (is_run l) && negb (is_thread l)) ls s s'); try done.
    + intros l x x' Hx Hxn Ho H. apply andb_prop in Ho as [H1 H2]. split; [eapply sdt_kept; try done; by destruct (is_thread l)|].
      apply left2_step; try done. by destruct (is_run l).
    + clear -Hl Ht. induction Hl as [|l ls H _ IH]; [done|]. inversion Ht; subst. constructor; [by rewrite H H2|by apply IH].
  - rewrite /left2 Hn. destruct (in_run s), (shutting_down s); simpl; lia.
Qed.
Lemma none_after s ls s' : reachable w s -> steps w s ls s' -> Forall (fun l => is_run l = false) ls ->
  sdt s = SdNone -> shutting_down s = true -> own_shutdowns w ls s = 0%nat.
Proof.
  intros Hr Hs Hl Hn Hd. enough (own_shutdowns w ls s <= left2 true s)%nat as H. { revert H. rewrite /left2 Hn Hd /=. destruct (in_run s); simpl; lia. }
  apply (budget (fun _ => True) (left2 true) (fun l => negb (is_run l)) ls s s'); try done.
  + intros l x x' Hx _ Ho H. split; [done|]. apply left2_step; try done. by destruct (is_run l).
  + eapply List.Forall_impl; [|exact Hl]. by intros l ->.
Qed.

(** ** C17, the other direction *)
Lemma when_idle_kept l s s' : reachable w s -> is_run l = false -> step w l s = Some s' -> when_idle s' = when_idle s.
Proof.
  intros Hr Hl H. pose proof (reachable_wfu w s Hr) as Hw.
  destruct (foreign l) eqn:Hf. { destruct (misc_step w l s s' Hw Hf H) as [HM _]. by svfi HM. }
  assert (forall r g x, when_idle (svc_shutdown r g x) = when_idle x) as HS. { intros r g x. destruct (svc_shutdown_sv r g x) as (E & _). by svi E. }
  destruct l; try done; cbn [step] in H.
  - destruct (rpc s) eqn:Er; try done. injection H as <-. rewrite /main_step. destruct (negb _ && _ && _); [by rewrite HS|]. by destruct (_ && _).
  - destruct (rpc s) as [| |ws|] eqn:Er; try done. apply wake_inv in H as [[_ ->]|[(_ & _ & ->)|(_ & _ & ->)]]; try done. simpl. by rewrite HS.
  - destruct (rpc s), (sdt s); try done. by injection H as <-.
  - destruct (event_step w fuel s s' Hw H) as (r & HM & _). by svi HM.
  - destruct (rpc s) eqn:Er'; try done. destruct (unretrieved s); [|done]. by injection H as <-.
  - destruct (rpc s) eqn:Er'; try done. injection H as <-. destruct (sigint_seen s); [done|]. simpl. by rewrite HS.
  - destruct (rpc s) eqn:Er'; try done. by injection H as <-.
  - destruct (sdt s), (loop_thread s), (shutting_down s); try done; by injection H as <-.
  - destruct (sdt s); try done. by injection H as <-.
  - rewrite /loop_step in H. destruct (sdt s), (in_loop s); try done. by injection H as <-.
  - destruct (sdt s); try done. by injection H as <-.
  - rewrite /loop_step in H. destruct (sdt s), (in_loop s), (loop_thread s), awaited; try done; injection H as <-; rewrite ?HS //.
Qed.
Lemma no_cause s ls s' : reachable w s -> steps w s ls s' -> when_idle s = false -> sdt s = SdNone ->
  Forall (fun l => is_run l = false /\ is_request l = false) ls -> failed w ls s = false -> own_shutdowns w ls s = 0%nat.
Proof.
  intros Hr H. induction H as [|s l s1 ls s2 H1 _ IH]; [done|]. intros Hi Hn Hok Hfl. inversion Hok as [|? ? [Hl1 Hl2] Hls]; subst.
  cbn [failed own_shutdowns] in *. rewrite -> H1 in *. apply orb_false_elim in Hfl as [Hf1 Hf2].
  assert (own_shutdowns w ls s1 = 0%nat) as ->.
  { apply IH; [by eapply reachable_step|by rewrite (when_idle_kept l s s1 Hr Hl1 H1)| |done|done]. eapply sdt_kept; [exact Hr| |exact H1|exact Hn]. by destruct l. }
  rewrite Nat.add_0_r. destruct l; try done; cbn [own].
  - cbn [step] in H1. destruct (rpc s) eqn:Er; try done. injection H1 as <-. rewrite /main_step /= Hi andb_false_r /=. 
    rewrite (shutdowns_log s); [|lia]. by destruct (_ && _).
  - cbn [step] in H1. destruct (rpc s) as [| |ws|] eqn:Er; try done. cbn [failure] in Hf1. rewrite Er in Hf1. apply orb_false_elim in Hf1 as [Ha Hb].
    apply wake_inv in H1 as [[Hc ->]|[(_ & Hc & ->)|(_ & _ & ->)]]; [rewrite (shutdowns_log s) //; lia| |rewrite (shutdowns_log s) //; lia].
    exfalso. rewrite Ha /= in Hc. apply existsb_exists in Hc as (f & Hin & Hx). assert (existsb (fun f => match f_get f s with FExn _ | FCancelled => true | _ => false end) ws = true) as Ht; [|congruence].
    apply existsb_exists. exists f. split; [done|]. revert Hx. rewrite /has_exn. by destruct (f_get f s).
  - cbn [step] in H1. by rewrite Hn in H1.
  - cbn [step] in H1. by rewrite Hn in H1.
  - cbn [step] in H1. by rewrite Hn in H1.
Qed.

(** ** C18, a Shutdown event of the user *)
Lemma handle_svc fuel e s s' : handle_one w fuel svc_handler e s = (s', Ok tt) -> shutting_down s' = true.
Proof.
  rewrite handle_one_eq /handle /base_handle /svc_handler /= /bindS /modS /retS /= /on_ctx. destruct (pop_locals _) as [c r]. intros E. by simplify_eq/=.
Qed.
Lemma list_svc fuel hs e s s' : wf s -> (shutting_down s = true \/ In svc_handler hs) -> matches w svc_handler e = true ->
  handle_list w fuel hs e s = (s', Ok tt) -> shutting_down s' = true.
Proof.
  intros Hw Hs Hm. revert s Hw Hs. induction hs as [|x hs IH]; intros s Hw Hs; cbn [handle_list].
  { intros [= <-]. by destruct Hs. }
  intros [(s1 & [] & E1 & E2)|[(y & _ & ?)|[_ ?]]]%bindS_inv; [|done..].
  assert (wf s1 /\ (shutting_down s = true -> shutting_down s1 = true)) as [Hw1 Hs1].
  { destruct (matches w x e); [|by injection E1 as ->]. pose proof (H_handle_one w fuel x e _ _ _ E1 Hw) as HF. split; [by eapply wf_hframe|].
    intros H. destruct (hf_flags _ _ _ HF) as [[-> _]|[? _]]; done. }
  apply (IH s1); [done| |done]. destruct Hs as [Hs|[->|Hs]]; [left; by apply Hs1|left|by right]. rewrite Hm in E1. by eapply handle_svc.
Qed.
Lemma shutdown_processed s r g s' : reachable w s -> In svc_handler (handlers (cx s)) -> processes w s (EvShutdown r g) (Ok tt) s' -> shutting_down s' = true.
Proof.
  intros Hr Hin Hp. pose proof (reachable_wfu w s Hr) as Hw. destruct (processes_inv _ _ _ _ _ Hw Hp) as (fuel & q & s2 & Hq & E & _ & ->).
  simpl. eapply (list_svc fuel (handlers (cx s))); [|by right| |exact E]; [by apply deq_wf|done].
Qed.
Lemma none_after_user s r g s1 ls s2 : reachable w s -> In svc_handler (handlers (cx s)) -> processes w s (EvShutdown r g) (Ok tt) s1 ->
  sdt s = SdNone -> steps w s1 ls s2 -> Forall (fun l => is_run l = false) ls -> own_shutdowns w ls s1 = 0%nat.
Proof.
  intros Hr Hin Hp Hn Hs Hls. destruct Hp as (fuel & Hst & Hq). pose proof (reachable_step w _ s s1 Hr Hst) as Hr1.
  eapply none_after; [exact Hr1|exact Hs|exact Hls|exact (sdt_kept (LEvent fuel) s s1 Hr eq_refl Hst Hn)|]. eapply shutdown_processed; [exact Hr|exact Hin|exists fuel; by split].
Qed.

(** ** C19 *)
Lemma rcode_step l s s' : reachable w s -> is_run l = false -> step w l s = Some s' -> rcode s' = if failure l s then 1%Z else rcode s.
Proof.
  intros Hr Hl H. pose proof (reachable_wfu w s Hr) as Hw.
  destruct (foreign l) eqn:Hf. { destruct (misc_step w l s s' Hw Hf H) as [HM _]. svfi HM. by destruct l. }
  assert (forall r g x, rcode (svc_shutdown r g x) = rcode x) as HS. { intros r g x. destruct (svc_shutdown_sv r g x) as (E & _). by svi E. }
  destruct l; try done; cbn [step] in H; cbn [failure].
  - destruct (rpc s) eqn:Er; try done. injection H as <-. rewrite /main_step. destruct (negb _ && _ && _); [by rewrite HS|]. by destruct (_ && _).
  - destruct (rpc s) as [| |ws|] eqn:Er; try done.
    set (p := fun f => match f_get f s with FExn _ | FCancelled => true | _ => false end).
    assert (existsb p ws = existsb (fun f => is_cancelled f s) ws || existsb (fun f => has_exn f s) ws) as ->.
    { clear. induction ws as [|f ws IH]; [done|]. simpl. rewrite IH {1}/p /is_cancelled /has_exn. destruct (f_get f s); simpl; try done. by rewrite orb_true_r. }
    apply wake_inv in H as [[-> ->]|[(-> & E & ->)|(-> & E & ->)]].
    + by rewrite /= orb_true_r.
    + by rewrite /= E.
    + by rewrite /= E.
  - destruct (rpc s), (sdt s); try done. by injection H as <-.
  - destruct (event_step w fuel s s' Hw H) as (r & HM & _). by svi HM.
  - destruct (rpc s) eqn:Er'; try done. destruct (unretrieved s); [|done]. by injection H as <-.
  - destruct (rpc s) eqn:Er'; try done. injection H as <-. destruct (sigint_seen s); [done|]. simpl. by rewrite HS.
  - destruct (rpc s) eqn:Er'; try done. by injection H as <-.
  - destruct (sdt s), (loop_thread s), (shutting_down s); try done; by injection H as <-.
  - destruct (sdt s); try done. by injection H as <-.
  - rewrite /loop_step in H. destruct (sdt s), (in_loop s); try done. by injection H as <-.
  - destruct (sdt s); try done. by injection H as <-.
  - rewrite /loop_step in H. destruct (sdt s), (in_loop s), (loop_thread s), awaited; try done; injection H as <-; rewrite ?HS //.
Qed.
Lemma rcode_steps s ls s' : reachable w s -> steps w s ls s' -> Forall (fun l => is_run l = false) ls -> rcode s' = if failed w ls s then 1%Z else rcode s.
Proof.
  intros Hr H. induction H as [|s l s1 ls s2 H1 _ IH]; [done|]. intros Hok. inversion Hok as [|? ? Hl Hls]; subst.
  cbn [failed]. rewrite H1 IH; [by eapply reachable_step|done|]. rewrite (rcode_step l s s1 Hr Hl H1). destruct (failure l s); simpl; [|done]. by destruct (failed w ls s1).
Qed.
Lemma return_code wi s s1 ls s2 s3 l : reachable w s -> in_run s = false -> step w (LRun wi) s = Some s1 -> steps w s1 ls s2 ->
  Forall (fun l => is_run l = false) ls -> step w l s2 = Some s3 -> in_run s2 = true -> in_run s3 = false ->
  hist s3 = hist s2 ++ [OReturn (if failed w ls s1 then 1 else 0)%Z].
Proof.
  intros Hr Hi H1 Hs Hls H3 Hi2 Hi3. assert (reachable w s1) as Hr1 by (by eapply reachable_step). assert (reachable w s2) as Hr2 by (by eapply reachable_steps).
  destruct (returns l s2 s3 Hr2 H3 Hi2 Hi3) as [-> _]. rewrite (rcode_steps s1 ls s2 Hr1 Hs Hls). enough (rcode s1 = 0%Z) as -> by done.
  revert H1 Hi. cbn [step]. rewrite /run_step. destruct (svok_reachable s Hr) as [A _ _]. rewrite /in_run. destruct (rpc s) eqn:Er; try done.
  destruct (A eq_refl) as (-> & -> & _). by intros [= <-].
Qed.
Lemma f_get_le s s' f : futs_le s s' -> f_is_done f s = true -> f_get f s' = f_get f s.
Proof.
  intros (_ & H & _). rewrite /f_is_done /f_get. destruct (futs s !! f) as [x|] eqn:E; [|done]. simpl. intros Hd.
  destruct (H f x E) as (x' & E' & Hx). by rewrite E' /= (Hx Hd).
Qed.
Lemma pending_exn_step l s s' : reachable w s -> is_run l = false -> step w l s = Some s' ->
  rcode s = 1%Z \/ pending_exn s -> rcode s' = 1%Z \/ pending_exn s'.
Proof.
  intros Hr Hl H [Hc|(ws & Ew & He)].
  { left. rewrite (rcode_step l s s' Hr Hl H). by destruct (failure l s). }
  pose proof (reachable_wfu w s Hr) as Hw. pose proof (step_futs l s s' Hw H) as HFu.
  assert (rpc s' = rpc s -> evt s' = evt s -> pending_exn s') as Keep.
  { intros E1 E2. exists ws. split; [congruence|]. destruct He as [[e He]|(f & Hin & Hf)]; [left; exists e; congruence|right].
    exists f. split; [done|]. rewrite (f_get_le s s' f HFu) //. rewrite /f_is_done. by destruct Hf as [->|[e ->]]. }
  destruct (foreign l) eqn:Hf. { right. destruct (misc_step w l s s' Hw Hf H) as [HM _]. svfi HM. by apply Keep. }
  assert (forall r g, rpc (svc_shutdown r g s) = rpc s /\ evt (svc_shutdown r g s) = evt s) as HS. { intros r g. destruct (svc_shutdown_sv r g s) as (E & _ & _ & _ & _ & ?). by svi E. }
  destruct l; try done; cbn [step] in H.
  - by rewrite Ew in H.
  - rewrite Ew in H. left. apply wake_inv in H as [[_ ->]|[(_ & _ & ->)|(Ec & E & ->)]]; [done|done|]. exfalso. apply orb_false_elim in E as [E1 E2].
    destruct He as [[e He]|(f & Hin & [Hf'|[e Hf']])]; [by rewrite He in E1|..].
    + assert (existsb (fun f => is_cancelled f s) ws = true) as Ht; [|congruence]. apply existsb_exists. exists f. by rewrite /is_cancelled Hf'.
    + assert (existsb (fun f => has_exn f s) ws = true) as Ht; [|congruence]. apply existsb_exists. exists f. by rewrite /has_exn Hf'.
  - by rewrite Ew in H.
  - right. destruct (event_step w fuel s s' Hw H) as (r & HM & Hp & Hd & _). svi HM. destruct He as [[e He]|He]; [congruence|].
    exists ws. split; [congruence|]. right. destruct He as (f & Hin & Hf'). exists f. split; [done|].
    rewrite (f_get_le s s' f HFu) //. rewrite /f_is_done. by destruct Hf' as [->|[e ->]].
  - right. rewrite Ew in H. destruct (unretrieved s); [|done]. injection H as <-. by apply Keep.
  - right. rewrite Ew in H. injection H as <-. destruct (HS "ctrl-c (SIGINT)" true) as [E1 E2]. destruct (sigint_seen s); by apply Keep.
  - left. rewrite Ew in H. by injection H as <-.
  - right. destruct (sdt s), (loop_thread s), (shutting_down s); try done; injection H as <-; by apply Keep.
  - right. destruct (sdt s); try done. injection H as <-. by apply Keep.
  - right. rewrite /loop_step in H. destruct (sdt s), (in_loop s); try done. injection H as <-. by apply Keep.
  - right. destruct (sdt s); try done. injection H as <-. by apply Keep.
  - right. rewrite /loop_step in H. destruct (HS "LaunchService.shutdown() called" false) as [E1 E2].
    destruct (sdt s), (in_loop s), (loop_thread s), awaited; try done; injection H as <-; by apply Keep.
Qed.
Lemma exn_return s ls l s' s'' : reachable w s -> pending_exn s -> steps w s ls s' -> Forall (fun l => is_run l = false) ls ->
  step w l s' = Some s'' -> in_run s' = true -> in_run s'' = false -> hist s'' = hist s' ++ [OReturn 1].
Proof.
  intros Hr Hp Hs Hls H Hi Hi'. assert (reachable w s') as Hr' by (by eapply reachable_steps).
  destruct (returns_inv l s' s'' Hr' H Hi Hi') as (_ & Hl & -> & _). enough (rcode s' = 1%Z) as -> by done.
  assert (rcode s' = 1%Z \/ pending_exn s') as [?|(ws & E & _)]; [|done|congruence].
  clear Hr' H Hi Hi' Hl. assert (rcode s = 1%Z \/ pending_exn s) as Hq by (by right). clear Hp.
  induction Hs as [|s l1 s1 ls s2 H1 _ IH]; [done|]. inversion Hls; subst. apply IH; [by eapply reachable_step|done|by eapply pending_exn_step].
Qed.
(** After the exception the service shuts down, and goes on. *)
Lemma exn_shutdown s s' : step w LWake s = Some s' -> pending_exn s -> (forall ws f, rpc s = Waiting ws -> In f ws -> f_get f s <> FCancelled) ->
  shutting_down s' = true /\ rpc s' = AtLoop /\ (shutting_down s = false -> hist s' = hist s ++ [OEmit (EvShutdown "exception" false)]) /\
  (shutting_down s = true -> hist s' = hist s).
Proof.
  cbn [step]. intros H (ws & Ew & He) Hn. rewrite Ew in H. apply wake_inv in H as [[Hc _]|[(_ & _ & ->)|(_ & E & _)]].
  - exfalso. apply existsb_exists in Hc as (f & Hin & Hc). apply (Hn ws f Ew Hin). revert Hc. rewrite /is_cancelled. by destruct (f_get f s).
  - rewrite /svc_shutdown. by destruct (shutting_down s).
  - exfalso. apply orb_false_elim in E as [E1 E2]. destruct He as [[e He]|(f & Hin & [Hf'|[e Hf']])]; [by rewrite He in E1|by destruct (Hn ws f Ew Hin)|].
    assert (existsb (fun f => has_exn f s) ws = true) as Ht; [|congruence]. apply existsb_exists. exists f. by rewrite /has_exn Hf'.
Qed.

(** ** C20 *)
Lemma idle_thread s : reachable w s -> in_run s = false -> step w LShutThread s = Some s /\ forall b, step w (LShutLoop b) s = Some s.
Proof.
  intros Hr Hi. assert (rpc s = Idle) as E by (revert Hi; rewrite /in_run; by destruct (rpc s)).
  destruct (so_idle s (svok_reachable s Hr) E) as (H1 & H2 & _). cbn [step]. rewrite H1 H2. split; [done|]. intros b. by rewrite /loop_step /in_loop E H1.
Qed.
Lemma queue_kept l s s' : reachable w s -> step w l s = Some s' -> (forall fuel, l <> LEvent fuel) -> exists q, queue (cx s') = queue (cx s) ++ q.
Proof.
  intros Hr H Hl. pose proof (reachable_wfu w s Hr) as Hw.
  destruct (step_cases w _ s s' Hw H) as [(HT & _)|[(i & f & e & _ & _ & _ & _ & ->)|(fu & e & q & s2 & r & -> & _)]].
  - destruct (tf_log _ _ _ _ HT) as (l1 & _ & _ & E). by exists (emitted l1).
  - by exists [e].
  - by destruct (Hl fu).
Qed.
Definition at_rest (s : st) : Prop := rpc s = Idle /\ evt s <> ETPending.
Lemma at_rest_step l s s' : reachable w s -> is_run l = false -> step w l s = Some s' -> at_rest s -> at_rest s'.
Proof.
  intros Hr Hl H [Hi He]. pose proof (reachable_wfu w s Hr) as Hw.
  destruct (foreign l) eqn:Hf. { destruct (misc_step w l s s' Hw Hf H) as [HM _]. svfi HM. split; congruence. }
  destruct (idle_thread s Hr) as [HT HL]; [by rewrite /in_run Hi|].
  destruct (so_idle s (svok_reachable s Hr) Hi) as (H1 & H2 & _).
  destruct l; try done; try by (cbn [step] in H; rewrite ?Hi ?H2 in H).
  - destruct (event_step w fuel s s' Hw H) as (r & _ & ? & _). congruence.
  - rewrite HT in H. by injection H as <-.
  - rewrite HL in H. by injection H as <-.
Qed.
Lemma at_rest_queue s ls s' : reachable w s -> steps w s ls s' -> Forall (fun l => is_run l = false) ls -> at_rest s ->
  at_rest s' /\ exists q, queue (cx s') = queue (cx s) ++ q.
Proof.
  intros Hr H. induction H as [|s l s1 ls s2 H1 _ IH].
  { intros _ Ha. split; [done|]. exists []. by rewrite app_nil_r. }
  intros Hls Ha. inversion Hls as [|? ? Hl Hls']; subst. pose proof (at_rest_step l s s1 Hr Hl H1 Ha) as Ha1.
  destruct IH as [Ha2 [q2 E2]]; [by eapply reachable_step|done|done|]. split; [done|].
  destruct (queue_kept l s s1 Hr H1) as [q1 E1].
  { intros fuel ->. destruct (event_step w fuel s s1 (reachable_wfu w s Hr) H1) as (r & _ & ? & _). by destruct Ha. }
  exists (q1 ++ q2). by rewrite E2 E1 app_assoc.
Qed.
Lemma not_running_rest s : not_running w s -> at_rest s /\ reachable w s.
Proof.
  intros [(n & e & ->)|(sl & Hr & Hc & H1 & H2 & l & H)].
  { split; [done|]. exists n, e, []. constructor. }
  split; [|by eapply reachable_step]. destruct (returns_inv l sl s Hr H H1 H2) as (_ & Hl & _ & ->).
  destruct (leaving sl Hr Hl) as [?|(_ & _ & _ & _ & E)]; [done|]. split; [done|]. simpl. by rewrite E.
Qed.
Lemma stays_queued s ls s' : not_running w s -> steps w s ls s' -> Forall (fun l => is_run l = false) ls ->
  in_run s' = false /\ (exists q, queue (cx s') = queue (cx s) ++ q) /\
  forall wi s'', step w (LRun wi) s' = Some s'' -> queue (cx s'') = queue (cx s').
Proof.
  intros Hn Hs Hls. destruct (not_running_rest s Hn) as [Ha Hr]. destruct (at_rest_queue s ls s' Hr Hs Hls Ha) as [[Hi He] Hq].
  split_and!; [by rewrite /in_run Hi|done|]. intros wi s''. assert (reachable w s') as Hr' by (by eapply reachable_steps).
  destruct (so_idle s' (svok_reachable s' Hr') Hi) as (H1 & H2 & _). cbn [step]. rewrite /run_step Hi H1 H2. intros [= <-]. simpl. by rewrite move_events_eq.
Qed.

(** ** C21 *)
Lemma rejected s wi ws : rpc s = Waiting ws -> sdt s = SdNone -> loop_thread s = true ->
  exists s', step w (LRun wi) s = Some s' /\ hist s' = hist s ++ [ORejected] /\ rpc s' = rpc s /\ loop_set (cx s') = false /\ shutting_down s' = false /\
    step w LShutThread s' = Some s' /\ forall b, step w (LShutLoop b) s' = Some s'.
Proof.
  intros Hw Hn Hl. exists (obs1 ORejected (finally_run s)). cbn [step]. rewrite /run_step Hn Hl /in_loop Hw. split_and!; try done.
  - simpl. by rewrite Hn.
  - intros b. rewrite /loop_step /in_loop /= Hn Hw. done.
Qed.
(** ** C22 *)
Lemma return_shut l s s' : reachable w s -> step w l s = Some s' -> in_run s = true -> in_run s' = false -> ~ run_cancelled w s -> is_shutdown (cx s') = true.
Proof.
  intros Hr H H1 H2 Hn. destruct (returns_inv l s s' Hr H H1 H2) as (_ & Hl & _ & ->). destruct (leaving s Hr Hl) as [?|(E & _)]; [done|].
  simpl. by apply (so_flag s (svok_reachable s Hr)).
Qed.
Lemma later_runs a l s s1 ls s2 : reachable w s -> step w l s = Some s1 -> in_run s = true -> in_run s1 = false -> ~ run_cancelled w s ->
  steps w s1 ls s2 -> ~ active a s1 -> is_shutdown (cx s2) = true /\ process_history a (hist s2) = process_history a (hist s1).
Proof.
  intros Hr H H1 H2 Hn Hs Ha. pose proof (reachable_step w _ _ _ Hr H) as Hr1. pose proof (return_shut l s s1 Hr H H1 H2 Hn) as Hsh.
  split; [exact (flag_steps w s1 ls s2 Hr1 Hs Hsh)|]. exact (proj1 (quiet_steps w a s1 ls s2 Hr1 Hs (or_intror Hsh) Ha)).
Qed.
End inv.
