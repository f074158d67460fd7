(** Every step of the service is a sequence of elementary changes to timers. *)
From Coq Require Import ssreflect.
From Verif Require Import SubstFacts SpecEvents ExecFacts VisitFacts HandleFacts StepFacts MicroSteps OwnFacts ProcFacts NameFacts.

(** The tasks of timers, and what is observed of timers. *)
Definition ttask (t : task) : bool := match t with TTimerInit _ | TTimerWait _ _ _ => true | _ => false end.
Definition tobs (o : obs) : bool := match o with OTimer _ | OArmed _ _ _ | OFire _ _ => true | _ => false end.
Definition ttasks (s : st) : list task := List.filter ttask (tasks s).
Definition tlog (s : st) : list obs := List.filter tobs (log s).
Definition fkept (s s' : st) : Prop :=
  forall f a, uses s f (KTComp a) \/ uses s f (KTCanc a) -> futs s' !! f = futs s !! f.
Definition deadline (p : pyfloat) (t : Q) : option Q :=
  match p with FFin q => Some (t + q)%Q | FInf true => Some t | _ => None end.

Inductive tmove (s s' : st) : Prop :=
| tm_same : timers s' = timers s -> ttasks s' = ttasks s -> tlog s' = tlog s -> (now s <= now s')%Q ->
    fkept s s' -> tmove s s'
| tm_cancel a : s' = timer_cancel a s -> tmove s s'
| tm_exec a b p d : timer_canceled a s = false ->
    timers s' = <[a := mkTobj b p d (Some (next s)) (Some (S (next s))) false (S (timer_gen a s))]> (timers s) ->
    futs s' = <[S (next s) := FPending]> (<[next s := FPending]> (futs s)) ->
    ttasks s' = ttasks s ++ [TTimerInit a] -> tlog s' = OTimer a :: tlog s -> now s' = now s -> tmove s s'
| tm_off a b p : timer_canceled a s = true ->
    timers s' = <[a := mkTobj b p (timer_locals a s) (Some (next s)) (Some (S (next s))) true (S (timer_gen a s))]> (timers s) ->
    futs s' = <[next s := FOk]> (<[S (next s) := FPending]> (<[next s := FPending]> (futs s))) ->
    ttasks s' = ttasks s -> tlog s' = tlog s -> now s' = now s -> tmove s s'
| tm_arm a t f p l1 l2 : timers s !! a = Some t -> t_canceled_fut t = Some f ->
    ttasks s = l1 ++ TTimerInit a :: l2 -> ttasks s' = l1 ++ TTimerWait a f (deadline p (now s)) :: l2 ->
    timers s' = timers s -> futs s' = futs s -> tlog s' = OArmed a p (now s) :: tlog s -> now s' = now s -> tmove s s'
| tm_fail a l1 l2 : ttasks s = l1 ++ TTimerInit a :: l2 -> ttasks s' = l1 ++ l2 ->
    timers s' = timers s -> futs s' = futs s -> tlog s' = tlog s -> now s' = now s -> tmove s s'
| tm_wake a f dl t fc fx l1 l2 : timers s !! a = Some t -> t_canceled_fut t = Some fx -> t_completed t = Some fc ->
    f_is_done f s = true \/ (exists q, dl = Some q /\ (q <= now s)%Q) ->
    ttasks s = l1 ++ TTimerWait a f dl :: l2 -> ttasks s' = l1 ++ l2 ->
    timers s' = timers s -> futs s' = futs (set_result fc s).1 ->
    tlog s' = (if f_is_done fx s then [] else [OFire a (now s)]) ++ tlog s -> now s' = now s -> tmove s s'.

Definition tmv (s s' : st) : Prop := own s /\ own s' /\ tmove s s'.
Notation T := (rtc tmv).

Section timers.
Context (w : world).

Lemma T1 s s' : own s -> own s' -> tmove s s' -> T s s'.
Proof. intros. by apply rtc_once. Qed.
Lemma fkept_same s s' : futs s' = futs s -> fkept s s'.
Proof. intros E f a _. by rewrite E. Qed.
Lemma fkept_set s s' g k : own s -> uses s g k -> (forall a, k <> KTComp a /\ k <> KTCanc a) ->
  futs s' = futs (set_result g s).1 -> fkept s s'.
Proof.
  intros Ho Hg Hk E f a Hf. rewrite E. destruct (set_result_lookup g f s) as [|(-> & _)]; [done|].
  destruct (Hk a) as [K1 K2]. destruct Hf as [Hf|Hf]; [destruct K1|destruct K2]; by eapply ow_one.
Qed.
Lemma aside_tobs l : Forall (fun o => aside o = true) l -> List.filter tobs l = [].
Proof. induction 1 as [|o l H _ IH]; [done|]. destruct o; try done; simpl; by rewrite IH. Qed.
Lemma tlog_app s s' l : log s' = l ++ log s -> List.filter tobs l = [] -> tlog s' = tlog s.
Proof. rewrite /tlog. intros -> H. by rewrite List.filter_app H. Qed.
Lemma T_untouched s s' : own s -> own s' -> untouched s s' -> T s s'.
Proof.
  intros Ho Ho' U. apply T1; [done..|]. destruct (ut_log _ _ U) as (l & E & Hl). apply tm_same.
  - by apply U.
  - by rewrite /ttasks (ut_tasks _ _ U).
  - eapply tlog_app; [done|by apply aside_tobs].
  - by apply U.
  - intros f a Hf. destruct (ut_futs _ _ U f) as [|[[L _]|(Hin & _)]]; [done| |].
    + destruct Hf as [Hf|Hf]; apply (own_lt _ _ _ Ho) in Hf; lia.
    + apply us_user in Hin. destruct Hf as [Hf|Hf]; by pose proof (ow_one _ Ho _ _ _ Hin Hf).
Qed.
(** Tasks other than those of timers. *)
Lemma ttasks_mid l1 l2 t : List.filter ttask (l1 ++ t :: l2) =
  List.filter ttask l1 ++ (if ttask t then [t] else []) ++ List.filter ttask l2.
Proof. rewrite List.filter_app /=. by destruct (ttask t). Qed.
Lemma task_to_ttasks i t0 t s : tasks s !! i = Some t0 -> ttask t0 = false -> ttask t = false ->
  ttasks (task_to i t s) = ttasks s.
Proof.
  intros E H0 H1. destruct (at_split _ _ _ E) as (l1 & l2 & El & Hs & _). rewrite /ttasks /task_to /= Hs El !ttasks_mid.
  by rewrite H0 H1.
Qed.
Lemma task_to_ttasks' i t0 t s s1 : tasks s1 = tasks s -> tasks s !! i = Some t0 -> ttask t0 = false -> ttask t = false ->
  ttasks (task_to i t s1) = ttasks s.
Proof. intros E H H0 H1. rewrite -(task_to_ttasks i t0 t s H H0 H1). by rewrite /ttasks /task_to /= E. Qed.
Lemma task_dies_ttasks i t0 e s s1 : tasks s1 = tasks s -> tasks s !! i = Some t0 -> ttask t0 = false -> ttasks (task_dies i e s1) = ttasks s.
Proof. intros E H H0. dies. by eapply task_to_ttasks'. Qed.
Lemma task_end_ttasks i t0 s : tasks s !! i = Some t0 -> ttask t0 = false -> ttasks (task_end i s) = ttasks s.
Proof.
  intros E H0. destruct (at_split _ _ _ E) as (l1 & l2 & El & _ & Hd). rewrite /ttasks /task_end /= Hd El !ttasks_mid H0.
  by rewrite List.filter_app.
Qed.
Lemma task_res_ttasks i t0 r : tasks r.1 !! i = Some t0 -> ttask t0 = false -> ttasks (task_res i r) = ttasks r.1.
Proof.
  destruct r as [s1 [x|e|]]; simpl; intros E H; [by eapply task_end_ttasks| |by eapply task_end_ttasks].
  by eapply task_dies_ttasks.
Qed.
Lemma task_res_tfields i r : timers (task_res i r) = timers r.1 /\ futs (task_res i r) = futs r.1 /\ now (task_res i r) = now r.1 /\
  log (task_res i r) = log r.1.
Proof. by destruct r as [s1 [x|e|]]. Qed.
Lemma T_cancel b s : own s -> T s (timer_cancel b s) /\ own (timer_cancel b s).
Proof. intros Ho. split; [|by apply own_timer_cancel]. apply T1; [done|by apply own_timer_cancel|by eapply tm_cancel]. Qed.
Lemma own_task_res i r : own r.1 -> own (task_res i r).
Proof.
  destruct r as [s1 [x|e|]]; simpl; intros Ho; [by apply own_task_end|by apply own_task_dead|by apply own_task_end].
Qed.
Lemma own_cleanup b s : own s -> own (cleanup b s).1.
Proof.
  intros Ho. rewrite /cleanup. destruct (procs s !! b) as [p|] eqn:Ep; [|done].
  set (s1 := match x_sigterm p with Some t => _ | None => _ end).
  assert (own s1) as O1 by (rewrite /s1; destruct (x_sigterm p); [by apply own_timer_cancel|done]).
  set (s2 := match x_sigkill p with Some t => _ | None => _ end).
  assert (own s2) as O2 by (rewrite /s2; destruct (x_sigkill p); [by apply own_timer_cancel|done]).
  set (s3 := match x_transport p with Some t => _ | None => _ end).
  assert (own s3) as O3.
  { rewrite /s3. destruct (x_transport p); [|done]. apply (own_less s2); simpl; [by left|done| |done].
    intros f k []; simpl in *; try by econstructor; eauto. apply filter_In in H as [H _]. by eapply us_pipe. }
  destruct (x_completed p); [by apply own_set_result|done].
Qed.
Lemma T_cleanup i t0 b s : own s -> tasks s !! i = Some t0 -> ttask t0 = false -> T s (task_res i (cleanup b s)).
Proof.
  intros Ho Hi Ht. pose proof (own_cleanup b s Ho) as Hoc.
  assert (T s (cleanup b s).1) as HT.
  { rewrite /cleanup. destruct (procs s !! b) as [p|] eqn:Ep; [|done].
    set (s1 := match x_sigterm p with Some t => _ | None => _ end).
    assert (T s s1 /\ own s1 /\ procs s1 = procs s) as (T1' & O1 & P1).
    { rewrite /s1. destruct (x_sigterm p) as [t|]; [|done]. destruct (T_cancel t s Ho). split_and!; try done. apply timer_cancel_sameP. }
    set (s2 := match x_sigkill p with Some t => _ | None => _ end).
    assert (T s1 s2 /\ own s2 /\ procs s2 = procs s1) as (T2 & O2 & P2).
    { rewrite /s2. destruct (x_sigkill p) as [t|]; [|done]. destruct (T_cancel t s1 O1). split_and!; try done. apply timer_cancel_sameP. }
    set (s3 := match x_transport p with Some t => _ | None => _ end).
    assert (T s2 s3 /\ own s3 /\ procs s3 = procs s2) as (T3 & O3 & P3).
    { rewrite /s3. destruct (x_transport p); [|done].
      match goal with |- T s2 ?x /\ _ => assert (own x) as O3 end.
      { apply (own_less s2); simpl; [by left|done| |done].
        intros f k []; simpl in *; try by econstructor; eauto. apply filter_In in H as [H _]. by eapply us_pipe. }
      split_and!; [|done|done]. apply T1; [done..|]. apply tm_same; try done. apply Qle_refl. }
    etrans; [exact T1'|]. etrans; [exact T2|]. etrans; [exact T3|]. clear T1' T2 T3.
    destruct (x_completed p) as [fc|] eqn:Ec; [|done].
    assert (uses s3 fc (KPComp b)) as Hu. { eapply us_pcomp; [|exact Ec]. by rewrite P3 P2 P1. }
    apply T1; [done|by apply own_set_result|]. apply tm_same.
    1-3: by rewrite /ttasks /tlog set_result_only.
    - rewrite set_result_only. apply Qle_refl.
    - eapply (fkept_set _ _ fc); try done. }
  etrans; [exact HT|]. destruct (cleanup_spec b s Ho) as ((_ & P2 & _) & _).
  apply T1; [done|by apply own_task_res|]. destruct (task_res_tfields i (cleanup b s)) as (E1 & E2 & E3 & E4).
  apply tm_same; [done| |by rewrite /tlog E4|rewrite E3; apply Qle_refl|by apply fkept_same].
  eapply task_res_ttasks; [|exact Ht]. by rewrite P2.
Qed.
Lemma T_quiet s s' l : own s -> own s' -> timers s' = timers s -> ttasks s' = ttasks s -> log s' = l ++ log s ->
  List.filter tobs l = [] -> now s' = now s -> fkept s s' -> T s s'.
Proof.
  intros Ho Ho' E1 E2 E3 E4 E5 E6. apply T1; [done..|]. apply tm_same; try done; [by eapply tlog_app|].
  rewrite E5. apply Qle_refl.
Qed.
Lemma T_task i s s' : own s -> own s' -> task_step w i s = Some s' -> T s s'.
Proof.
  intros Ho Ho'. rewrite /task_step. destruct (tasks s !! i) as [t0|] eqn:Et0; [|done].
  destruct (at_split _ _ _ Et0) as (l1 & l2 & El & Hs & Hd).
  assert (forall t, ttask t = false -> ttask t0 = true -> ttasks (task_to i t s) = List.filter ttask l1 ++ List.filter ttask l2) as Hfin.
  { intros t H1 H2. rewrite /ttasks /task_to /= Hs ttasks_mid H1. done. }
  destruct t0 as [a|a f dl|a|a d0|a f d rc|a f d rc|a dl|o e]; try done.
  - rewrite /timer_init. destruct (timers s !! a) as [t|] eqn:Et; [|done].
    rewrite /on_ctx. destruct (perform_fval w (t_period t) (cx s)) as [c r].
    assert (ttasks s = List.filter ttask l1 ++ TTimerInit a :: List.filter ttask l2) as E0.
    { by rewrite /ttasks El ttasks_mid. }
    destruct (t_canceled_fut t) as [f|] eqn:Ef, r as [p|e|]; try done; intros [= <-]; (apply T1; [done..|]).
    + eapply (tm_arm _ _ a t f p); try done. rewrite /ttasks /task_to /= Hs ttasks_mid /=. done.
    + eapply (tm_fail _ _ a); try done. dies. by rewrite /ttasks /task_to /= Hs ttasks_mid /=.
    + eapply (tm_fail _ _ a); try done. dies. by rewrite /ttasks /task_to /= Hs ttasks_mid /=.
  - rewrite /timer_wake. destruct (_ || _) eqn:Hw; [|done]. destruct (timers s !! a) as [t|] eqn:Et; [|done].
    destruct (t_canceled_fut t) as [fx|] eqn:Ex, (t_completed t) as [fc|] eqn:Ec; try done. intros [= <-].
    assert (ttasks s = List.filter ttask l1 ++ TTimerWait a f dl :: List.filter ttask l2) as E0.
    { by rewrite /ttasks El ttasks_mid. }
    assert (f_is_done f s = true \/ (exists q, dl = Some q /\ (q <= now s)%Q)) as Hdone.
    { apply orb_prop in Hw as [Hw|Hw]; [by left|right]. destruct dl as [q|]; [|done]. exists q. split; [done|]. by apply Qle_bool_iff. }
    set (s1 := if f_is_done fx s then s else _).
    destruct (task_res_tfields i (set_result fc s1)) as (E1 & E2 & E3 & E4).
    assert (tasks (set_result fc s1).1 = tasks s) as E5 by (rewrite set_result_only /s1; by destruct (f_is_done fx s)).
    apply T1; [done..|]. eapply (tm_wake _ _ a f dl t fc fx); try done.
    + destruct (set_result fc s1) as [s2 [x|e|]]; simpl in *; try dies; rewrite /ttasks /= E5 ?Hd ?Hs ?ttasks_mid ?List.filter_app //.
    + rewrite E1 set_result_only /s1. by destruct (f_is_done fx s).
    + rewrite E2. rewrite /set_result /s1. destruct (f_is_done fx s); simpl; [done|]. by destruct (futs s !! fc) as [[]|].
    + rewrite /tlog E4 set_result_only /s1. by destruct (f_is_done fx s).
    + rewrite E3 set_result_only /s1. by destruct (f_is_done fx s).
  - rewrite /proc_init. destruct (procs s !! a) as [p|] eqn:Ep; [|done].
    destruct (x_det p) as [d|]; [|intros [= <-]; apply (T_quiet s _ []); try done; by eapply task_dies_ttasks].
    set (x := match lc (cx s) !! _ with Some _ => _ | None => _ end).
    assert (exists c, x.1 = s <| cx := c |>) as [c Ec].
    { rewrite /x. destruct (lc (cx s) !! _); [|exists (cx s); by destruct s]. rewrite /on_ctx. destruct (evaluate_condition_expression _ _ _) as [c r]. by exists c. }
    destruct x as [s1 r]. simpl in Ec. subst s1.
    destruct r; intros [= <-]; apply (T_quiet s _ []); try done; [by eapply task_to_ttasks'|by eapply task_dies_ttasks].
  - intros [= <-]. apply (T_quiet s _ [OEmit (EvStarted a d); OLife (EvStarted a d)]); try done.
    rewrite /proc_conn. by eapply task_to_ttasks'.
  - destruct rc as [rc|]; [|done]. rewrite /proc_exited. destruct (procs s !! a) as [p|]; [|done].
    set (s0 := emit _ _). assert (own s0) as Ho0 by (by apply own_emit, own_obs).
    assert (T s s0) as HT0 by (by apply (T_quiet s _ [OEmit (EvExited a d rc); OLife (EvExited a d rc)])).
    assert (tasks s0 = tasks s) as E0 by done. clearbody s0. rewrite -E0 in Et0.
    match goal with |- (if ?b then _ else _) = _ -> _ => destruct b end; cycle 1.
    { intros [= <-]. etrans; [exact HT0|]. by eapply T_cleanup. }
    set (s1 := upd_proc _ _ s0).
    assert (forall t, ttask t = false -> ttasks (task_to i t s1) = ttasks s0) as HTo. { intros t Hf. by eapply task_to_ttasks'. }
    assert (ttasks (task_end i s1) = ttasks s0) as HTe by (by apply (task_end_ttasks i _ s0 Et0)).
    assert (proc_again i a s1 = s' -> T s0 s') as HA.
    { rewrite /proc_again. destruct (loop_set _); intros <-; apply (T_quiet s0 _ []); try done; [|by eapply task_dies_ttasks].
      rewrite -HTe. by rewrite /ttasks /= List.filter_app /= app_nil_r. }
    etrans; [exact HT0|]. revert H.
    destruct (p_delay _); [destruct (Qle_bool _ _)|]; intros [= E]; try by apply HA.
    subst s'. apply (T_quiet s0 _ []); try done. by apply HTo.
  - rewrite /proc_delay. destruct (procs s !! a); [|done]. destruct (match x_shutdown p with Some _ => _ | None => _ end).
    + intros [= <-]. by eapply T_cleanup.
    + destruct (Qle_bool _ _); [|done]. intros [= <-]. rewrite /proc_again in Ho' |- *. destruct (loop_set _).
      * apply (T_quiet s _ []); try done. rewrite -(task_end_ttasks i _ s Et0 eq_refl). by rewrite /ttasks /= List.filter_app /= app_nil_r.
      * apply (T_quiet s _ []); try done. by eapply task_dies_ttasks.
Qed.
Lemma lines_tobs l : lines l -> List.filter tobs l = [].
Proof. induction 1 as [|o l H _ IH]; [done|]. destruct o; try done; simpl; by rewrite IH. Qed.
Lemma T_micro s s' : own s -> micro w s s' -> T s s'.
Proof.
  intros Ho H. assert (own s') as Ho' by (by eapply own_micro). destruct H; forget_handlers.
  - by apply T_untouched.
  - apply T_cancel, Ho.
  - apply T1; [done..|]. eapply (tm_exec _ _ a b p d); try done. by rewrite /ttasks /= List.filter_app.
  - apply T1; [done..|]. by eapply (tm_off _ _ a b p).
  - by apply (T_quiet s _ []).
  - destruct (O_prepare_executable w _ _ _ _ H0) as (c & n & pc & _ & _ & _ & _ & ->). by apply (T_quiet s _ []).
  - by apply (T_quiet s _ []).
  - by apply (T_quiet s _ []).
  - apply (T_quiet s _ []); try done.
    + rewrite /ttasks /= List.filter_app. destruct H7 as [->| ->]; by rewrite /= app_nil_r.
    + intros f k Hf. simpl. assert (f < next s)%nat by (by destruct Hf as [Hf|Hf]; eapply own_lt). rewrite !lookup_insert_ne //; lia.
  - destruct (shutdown_process_case a sg s Ho) as [? Es|p sf ???? Es|p sf cf t1 t2 d f|p sf cf ?????? HU].
    + rewrite Es in Ho' |- *. by apply (T_quiet s _ [OAsked a]).
    + rewrite Es in Ho' |- *. apply (T_quiet s _ [OAsked a]); try done. intros f k Hf. simpl. rewrite lookup_insert_ne //.
      assert (uses s sf (KPShut a)) as Hu by (by eapply us_pshut). intros ->.
      destruct Hf as [Hf|Hf]; by pose proof (ow_one _ Ho _ _ _ Hu Hf).
    + eapply (T_quiet s _ [_; _]); [done|done|done| |match goal with HH : log (shutdown_process _ _ _).1 = _ |- _ => exact HH end|done|done|].
      { rewrite /ttasks. match goal with HH : tasks _ = tasks _ |- _ => by rewrite HH end. }
      intros g k Hg.
      match goal with HH : futs _ = <[_ := _]> _ |- _ => rewrite HH end. rewrite lookup_insert_ne //.
      assert (uses s sf (KPShut a)) as Hu by (by eapply us_pshut). intros ->.
      destruct Hg as [Hg|Hg]; by pose proof (ow_one _ Ho _ _ _ Hu Hg).
    + etrans; [by apply (T_quiet s (obs1 (OAsked a) s) [OAsked a]); [| apply own_obs| | | | | |]|].
      apply T_untouched; [by apply own_obs|done|done].
  - by apply (T_quiet s _ [OSignal a sg]).
  - destruct (proc_io_buffers a e s) as [g l Hg Hl E| ->]; [|done]. rewrite E in Ho' |- *.
    apply (T_quiet s _ l); try done. by apply lines_tobs.
  - destruct (proc_flush_buffers a s) as [g l Hg Hl E| ->]; [|done]. rewrite E in Ho' |- *.
    apply (T_quiet s _ l); try done. by apply lines_tobs.
  - by eapply T_task.
  - revert H. rewrite /spawn_ok. destruct (tasks s !! i) as [[]|] eqn:Et0; try done. intros [= <-].
    apply (T_quiet s _ [OSpawn a pid]); try done.
    + etrans; [|exact (task_to_ttasks i _ (TProcConn a (next s) (mkPdet (d_name d) (d_cmd d) (d_cwd d) (d_env d) (Some pid)) None) s Et0 eq_refl eq_refl)]. done.
    + intros f k Hf. simpl. assert (f < next s)%nat by (by destruct Hf as [Hf|Hf]; eapply own_lt). rewrite !lookup_insert_ne //; lia.
  - revert H. rewrite /spawn_fail. destruct (tasks s !! i) as [[]|] eqn:Et0; try done. intros [= <-]. by eapply T_cleanup.
  - revert H. rewrite /proc_exit. destruct (tasks s !! i) as [t0|] eqn:Et0; [|done].
    assert (In t0 (tasks s)) as Hin. { apply elem_of_list_In. by eapply elem_of_list_lookup_2. }
    destruct t0 as [| | | |b f d [|]|b f d [|]| |]; try done; intros [= <-].
    all: assert (uses s f (KProto b)) as Hu by (first [by eapply us_conn|by eapply us_run]).
    all: apply (T_quiet s _ [OReap b rc]); try done; try by rewrite /= set_result_only.
    2,4: eapply (fkept_set _ _ f); done.
    + etrans; [eapply (task_to_ttasks i (TProcConn b f d None) _ (set_result f s).1)|]; try done; rewrite ?/ttasks set_result_only //.
    + etrans; [eapply (task_to_ttasks i (TProcRun b f d None) _ (set_result f s).1)|]; try done; rewrite ?/ttasks set_result_only //.
Qed.
Lemma T_steps s ls s' : own s -> steps w s ls s' -> T s s' /\ own s'.
Proof.
  intros Ho H. apply (micro_steps w (fun s1 => T s s1 /\ own s1)) in H; [done| |by split].
  intros s1 s2 Hm [HT Ho1]. split; [|by eapply own_micro]. etrans; [exact HT|]. by eapply T_micro.
Qed.
Lemma T_reachable s : reachable w s -> own s /\ exists n e, T (init n e) s.
Proof.
  intros (n & e & ls & H). destruct (T_steps _ _ _ (own_init n e) H) as [HT Ho]. split; [done|]. by exists n, e.
Qed.
(** Invariants. *)
Lemma T_inv (I : st -> Prop) s s' : (forall s s', own s -> own s' -> tmove s s' -> I s -> I s') -> T s s' -> I s -> I s'.
Proof. intros HI H. induction H as [|s s1 s2 (O1 & O2 & H1) _ IH]; [done|]. intros Hs. eapply IH, (HI s s1); done. Qed.
End timers.
