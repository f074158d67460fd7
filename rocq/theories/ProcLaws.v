(** Executing process actions, and how often they can start a process. *)
From Coq Require Import ssreflect.
From Verif Require Import SubstFacts SpecProc ExWorld ExecFacts VisitFacts HandleFacts StepFacts MicroSteps OwnFacts ProcFacts LifeFacts.

Section laws.
Context (w : world).
Implicit Types (s : st) (a : aid).

(** ** C23 *)
(** Preparing an action changes the details and the respawn option of that action. *)
Definition reprepared (p p' : pobj) : Prop := exists d b, p' = p <| x_det := d |> <| x_respawn := b |>.
Lemma prepare_proc_frame a s s' r : prepare_proc w a s = (s', r) ->
  tasks s' = tasks s /\ log s' = log s /\ futs s' = futs s /\ pipes s' = pipes s /\ timers s' = timers s /\
  is_shutdown (cx s') = is_shutdown (cx s) /\
  (forall b p', procs s' !! b = Some p' -> exists p, procs s !! b = Some p /\ reprepared p p').
Proof.
  assert (forall p : pobj, reprepared p p) as Hrefl. { intros p. exists (x_det p), (x_respawn p). by destruct p. }
  rewrite /prepare_proc. destruct (procs s !! a) as [p|] eqn:Ep.
  2: { intros [= <- _]. split_and!; try done. intros b p' ?. by exists p'. }
  intros [(s1 & d & E1 & E2)|[(e & E1 & ->)|[E1 ->]]]%bindS_inv.
  all: destruct (O_prepare_executable w _ _ _ _ E1) as (c & n & pc & _ & _ & Hc & _ & ->).
  2-3: split_and!; try done; intros b p' ?; by exists p'.
  revert E2. rewrite {1}/bindS /=.
  intros [(s3 & b & E5 & E6)|[(e & E5 & ->)|[E5 ->]]]%bindS_inv.
  all: apply (O_on_ctx _ (perform_bval_frame w _)) in E5 as (c5 & n5 & pc5 & _ & _ & Hc5 & _ & ->).
  1: revert E6; intros [= <- _].
  all: simpl in *; split_and!; try done; try congruence; intros q p' Hq.
  - destruct (decide (q = a)) as [->|Hne].
    + rewrite !lookup_alter Ep /= in Hq. injection Hq as <-. exists p. split; [done|]. by eexists _, _.
    + rewrite !lookup_alter_ne // in Hq. by exists p'.
  - destruct (decide (q = a)) as [->|Hne].
    + rewrite !lookup_alter Ep /= in Hq. injection Hq as <-. exists p. split; [done|]. exists (Some d), (x_respawn p). by destruct p.
    + rewrite !lookup_alter_ne // in Hq. by exists p'.
  - destruct (decide (q = a)) as [->|Hne].
    + rewrite !lookup_alter Ep /= in Hq. injection Hq as <-. exists p. split; [done|]. exists (Some d), (x_respawn p). by destruct p.
    + rewrite !lookup_alter_ne // in Hq. by exists p'.
Qed.
Lemma exec_again a c oe s s' r : was_executed a s -> exec_proc w a c oe s = (s', r) ->
  (forall l, r <> Ok l) /\ tasks s' = tasks s /\ log s' = log s /\ futs s' = futs s /\ pipes s' = pipes s.
Proof.
  intros (p & Ep & Hx). rewrite /exec_proc {1}/bindS /=. set (s1 := s <| procs ::= _ |>).
  assert (procs s1 !! a = Some p) as Ep1. { by rewrite /= lookup_insert /get_proc Ep. }
  intros [(s2 & u & E1 & E2)|[(e & E1 & ->)|[E1 ->]]]%bindS_inv.
  all: destruct (prepare_proc_frame _ _ _ _ E1) as (H1 & H2 & H3 & H4 & _ & _ & H6); simpl in *.
  2-3: by split_and!.
  revert E2. destruct (procs s2 !! a) as [p2|] eqn:Ep2.
  - destruct (H6 _ _ Ep2) as (p0 & Ep0 & d & b & ->). rewrite Ep1 in Ep0. injection Ep0 as <-.
    rewrite /= Hx. intros [= <- <-]. by split_and!.
  - intros [= <- <-]. by split_and!.
Qed.
Lemma exec_late a c oe s s' r : is_shutdown (cx s) = true -> exec_proc w a c oe s = (s', r) ->
  tasks s' = tasks s /\ log s' = log s /\ futs s' = futs s /\ pipes s' = pipes s /\ is_shutdown (cx s') = true.
Proof.
  intros Hsd. rewrite /exec_proc {1}/bindS /=. set (s1 := s <| procs ::= _ |>).
  intros [(s2 & u & E1 & E2)|[(e & E1 & ->)|[E1 ->]]]%bindS_inv.
  all: destruct (prepare_proc_frame _ _ _ _ E1) as (H1 & H2 & H3 & H4 & _ & H5 & H6); simpl in *.
  2-3: by rewrite H5 Hsd.
  revert E2. destruct (procs s2 !! a) as [p2|] eqn:Ep2; [|intros [= <- <-]; by rewrite H5].
  destruct (x_executed p2); [intros [= <- <-]; by rewrite H5|].
  rewrite /upd_proc /= H5 Hsd. intros [= <- <-]. simpl. by rewrite H5 Hsd.
Qed.

(** ** C25: without bound *)
Record cycling (a : aid) (t : task) (s : st) : Prop := {
  cy_rpc : exists ws, rpc s = Waiting ws;
  cy_task : tasks s = [t];
  cy_loop : loop_set (cx s) = true;
  cy_sd : is_shutdown (cx s) = false;
  cy_tty : lc (cx s) !! "emulate_tty" = None;
  cy_p : exists p d fs, procs s !! a = Some p /\ x_det p = Some d /\ x_shutdown p = Some fs /\
           futs s !! fs = Some FPending /\ (fs < next s)%nat /\ respawn_true (x_respawn p) = true /\ (p_max (x_cfg p) < 0)%Z /\ p_delay (x_cfg p) = None;
  cy_f : match t with TProcRun b f _ _ | TProcConn b f _ _ => exists p, procs s !! a = Some p /\ x_shutdown p <> Some f | _ => True end }.
Lemma cycle a s : cycling a (TProcInit a) s ->
  exists ls s', steps w s ls s' /\ cycling a (TProcInit a) s' /\ spawned a (hist s') = S (spawned a (hist s)) /\ config a s' = config a s.
Proof.
  intros C.
  assert (exists d s1, step w (LTask 0) s = Some s1 /\ cycling a (TProcSpawn a d) s1 /\ log s1 = log s /\ config a s1 = config a s) as (d & s1 & E1 & C1 & L1 & G1).
  { destruct C as [(ws & Hrpc) Ht Hl Hsd Htty (p & d & fs & Ep & Ed & Es & Hf & Hn & Hr & Hm & Hd) _].
    exists d, (task_to 0 (TProcSpawn a d) s). split; [by rewrite /= /loop_step /in_loop Hrpc /task_step Ht /= /proc_init Ep Ed Htty|].
    split; [|done]. constructor; simpl; try done; [by exists ws|by rewrite Ht|]. by exists p, d, fs. }
  assert (exists f d' s2, step w (LSpawnOk 0 1) s1 = Some s2 /\ cycling a (TProcConn a f d' None) s2 /\ log s2 = OSpawn a 1 :: log s /\ config a s2 = config a s) as (f & d' & s2 & E2 & C2 & L2 & G2).
  { rewrite -G1 -L1. destruct C1 as [(ws & Hrpc) Ht Hl Hsd Htty (p & d1 & fs & Ep & Ed & Es & Hf & Hn & Hr & Hm & Hd) _].
    eexists _, _, _. split; [by rewrite /= /loop_step /in_loop Hrpc /spawn_ok Ht /=|].
    set (g := fun p : pobj => _).
    assert (exists d2, g p = p <| x_det := Some d2 |>) as [d2 Eg].
    { rewrite /g Ed. destruct (String.eqb _ _); [by eexists|]. exists d1. destruct p; simpl in *. rewrite /set /=. by rewrite Ed. }
    split; [|split; [done|]].
    - constructor; simpl; try done; [by exists ws|by rewrite Ht| |].
      + exists (p <| x_det := Some d2 |>), d2, fs. rewrite lookup_alter Ep /= Eg. split_and!; try done; [|lia].
        rewrite lookup_insert_ne //. lia.
      + exists (p <| x_det := Some d2 |>). rewrite lookup_alter Ep /= Eg. split; [done|]. simpl. rewrite Es. intros [= ->]. lia.
    - rewrite /config /= lookup_alter Ep /= Eg. done. }
  assert (exists s3, step w (LTask 0) s2 = Some s3 /\ cycling a (TProcRun a f d' None) s3 /\ log s3 = OEmit (EvStarted a d') :: OLife (EvStarted a d') :: OSpawn a 1 :: log s /\ config a s3 = config a s) as (s3 & E3 & C3 & L3 & G3).
  { rewrite -G2 -L2. destruct C2 as [(ws & Hrpc) Ht Hl Hsd Htty (p & d1 & fs & Ep & Ed & Es & Hf & Hn & Hr & Hm & Hd) (q & Eq & Hq)].
    eexists. split; [by rewrite /= /loop_step /in_loop Hrpc /task_step Ht /=|].
    rewrite Ep in Eq. injection Eq as <-. split; [|split; [done|]].
    - constructor; simpl; try done; [by exists ws|by rewrite Ht| |].
      + exists (p <| x_transport := Some f |>), d1, fs. rewrite lookup_alter Ep. by split_and!.
      + exists (p <| x_transport := Some f |>). rewrite lookup_alter Ep. by split.
    - by rewrite /config /= lookup_alter Ep. }
  assert (exists s4, step w (LExit 0 0) s3 = Some s4 /\ cycling a (TProcRun a f d' (Some 0%Z)) s4 /\ log s4 = [OReap a 0; OEmit (EvStarted a d'); OLife (EvStarted a d'); OSpawn a 1] ++ log s /\ config a s4 = config a s) as (s4 & E4 & C4 & L4 & G4).
  { rewrite -G3. destruct C3 as [(ws & Hrpc) Ht Hl Hsd Htty (p & d1 & fs & Ep & Ed & Es & Hf & Hn & Hr & Hm & Hd) (q & Eq & Hq)].
    eexists. split; [by rewrite /= /loop_step /in_loop Hrpc /proc_exit Ht /=|].
    rewrite Ep in Eq. injection Eq as <-.
    assert (f <> fs) as Hne by congruence. pose proof (set_result_other f fs s3 Hne) as HF. rewrite set_result_only in HF |- *. simpl in HF. split; [|split; [by rewrite /= L3|done]].
    constructor; simpl; try done; [by exists ws|by rewrite Ht| |by exists p].
    exists p, d1, fs. split_and!; try done. by rewrite HF. }
  assert (exists s5, step w (LTask 0) s4 = Some s5 /\ cycling a (TProcInit a) s5 /\ log s5 = [OEmit (EvExited a d' 0); OLife (EvExited a d' 0)] ++ log s4 /\ config a s5 = config a s) as (s5 & E5 & C5 & L5 & G5).
  { rewrite -G4. destruct C4 as [(ws & Hrpc) Ht Hl Hsd Htty (p & d1 & fs & Ep & Ed & Es & Hf & Hn & Hr & Hm & Hd) (q & Eq & Hq)].
    eexists. split. { rewrite /= /loop_step /in_loop Hrpc /task_step Ht /= /proc_exited Ep Es Hsd Hr Hd /f_is_done /f_get /= Hf /=.
      assert (p_max (x_cfg p) <? 0 = true)%Z as -> by lia. rewrite /proc_again /= Hl. done. }
    split; [|split; [done|]].
    - constructor; simpl; try done; [by exists ws|by rewrite Ht|].
      exists (p <| x_retries ::= Z.succ |>), d1, fs. rewrite lookup_alter Ep. by split_and!.
    - by rewrite /config /= lookup_alter Ep. }
  exists [LTask 0; LSpawnOk 0 1; LTask 0; LExit 0 0; LTask 0], s5. split; [repeat (econstructor; [done|]); constructor|].
  split; [done|]. split; [|done]. rewrite !spawn_cnt /hist !cnt_rev L5 L4 !cnt_app. rewrite /cnt /= bool_decide_true //.
Qed.
Lemma cycles a s n : cycling a (TProcInit a) s ->
  exists ls s', steps w s ls s' /\ cycling a (TProcInit a) s' /\ spawned a (hist s') = (n + spawned a (hist s))%nat /\ config a s' = config a s.
Proof.
  intros C. induction n as [|n (ls & s1 & H1 & C1 & N1 & G1)].
  - exists [], s. split; [constructor|done].
  - destruct (cycle a s1 C1) as (ls2 & s2 & H2 & C2 & N2 & G2). exists (ls ++ ls2), s2. split; [by eapply steps_app|].
    split; [done|]. split; [lia|congruence].
Qed.

(** ** C27: the timers of a completed action are cancelled *)
Definition offs (s : st) : Prop := forall a p t, procs s !! a = Some p -> completion a s = Some true ->
  x_sigterm p = Some t \/ x_sigkill p = Some t -> timer_canceled t s = true.
Lemma completion_eq a s s' p p' : procs s !! a = Some p -> procs s' !! a = Some p' -> x_completed p' = x_completed p ->
  (forall f, x_completed p = Some f -> futs s' !! f = futs s !! f) -> completion a s' = completion a s.
Proof.
  intros E E' Ec Hf. rewrite /completion E E' Ec. destruct (x_completed p) as [f|]; [|done]. by rewrite /f_is_done /f_get Hf.
Qed.
Lemma offs_frame s s' : offs s ->
  (forall a p', procs s' !! a = Some p' -> x_completed p' = None \/
     (exists p, procs s !! a = Some p /\ x_completed p' = x_completed p /\
       (forall f, x_completed p = Some f -> futs s' !! f = futs s !! f) /\
       (completion a s = Some true -> x_sigterm p' = x_sigterm p /\ x_sigkill p' = x_sigkill p))) ->
  (forall t, timer_canceled t s = true -> timer_canceled t s' = true) -> offs s'.
Proof.
  intros HO H1 H2 a p' t Ep' Hc Ht. destruct (H1 a p' Ep') as [Hn|(p & Ep & Ec & Hf & Hs)].
  - move: Hc. by rewrite /completion Ep' Hn.
  - rewrite (completion_eq a s s' p p') // in Hc. destruct (Hs Hc) as [E1 E2]. rewrite E1 E2 in Ht. eauto.
Qed.
Lemma timer_cancel_canceled t t' s : timer_canceled t s = true \/ t = t' -> timer_canceled t (timer_cancel t' s) = true.
Proof.
  rewrite /timer_canceled /timer_cancel. destruct (timers s !! t') as [tm|] eqn:E.
  - assert (forall s1, timers s1 = timers (upd_timer t' (fun t => t <| t_canceled := true |>) s) ->
      timer_canceled t s = true \/ t = t' -> match timers s1 !! t with Some t0 => t_canceled t0 | None => false end = true) as HH.
    { intros s1 E1. rewrite E1 /upd_timer /= /timer_canceled. destruct (decide (t = t')) as [->|Hne].
      - by rewrite lookup_alter E.
      - rewrite lookup_alter_ne //. by intros []. }
    destruct (t_canceled_fut tm); [destruct (f_is_done _ _)|]; apply HH; try done. by rewrite set_result_only.
  - simpl. destruct (decide (t = t')) as [->|Hne]; [by rewrite lookup_insert|]. rewrite lookup_insert_ne //. by intros [].
Qed.
Lemma cleanup_canceled a s t : (timer_canceled t s = true \/ exists p, procs s !! a = Some p /\ (x_sigterm p = Some t \/ x_sigkill p = Some t)) ->
  timer_canceled t (cleanup a s).1 = true.
Proof.
  rewrite /cleanup. destruct (procs s !! a) as [p|] eqn:Ep; [|by intros [|(p & ? & _)]].
  intros H. set (s1 := match x_sigterm p with Some t => _ | None => s end).
  set (s2 := match x_sigkill p with Some t => _ | None => s1 end).
  assert (timer_canceled t s1 = true \/ x_sigkill p = Some t) as H1.
  { rewrite /s1. destruct H as [H|(p' & [= <-] & [H|H])]; [left|left|by right].
    - destruct (x_sigterm p); [|done]. apply timer_cancel_canceled. by left.
    - rewrite H. apply timer_cancel_canceled. by right. }
  assert (timer_canceled t s2 = true) as H2.
  { rewrite /s2. destruct (x_sigkill p) as [t'|]; [|by destruct H1]. apply timer_cancel_canceled.
    destruct H1 as [|[= ->]]; [by left|by right]. }
  clearbody s2. destruct (x_transport p), (x_completed p); simpl; try done; by rewrite set_result_only.
Qed.
Lemma task_res_canceled t i r : timer_canceled t (task_res i r) = timer_canceled t r.1.
Proof. by destruct r as [s [| |]]. Qed.
Lemma task_res_futs i r : futs (task_res i r) = futs r.1 /\ procs (task_res i r) = procs r.1.
Proof. by destruct r as [s [| |]]. Qed.
Lemma offs_cleanup i a s0 s : own s0 -> offs s -> procs s0 = procs s -> futs s0 = futs s -> timers s0 = timers s ->
  offs (task_res i (cleanup a s0)).
Proof.
  intros Ho HO Ep Ef Et b p t Eb Hc Ht. rewrite task_res_canceled. destruct (task_res_futs i (cleanup a s0)) as [F1 F2].
  destruct (cleanup_spec a s0 Ho) as ((P1 & _) & HF & _). rewrite F2 P1 in Eb.
  apply cleanup_canceled. destruct (decide (a = b)) as [->|Hne]; [right; by exists p|left].
  rewrite /timer_canceled Et. apply (HO b p t); [by rewrite -Ep| |done]. rewrite -Hc. symmetry.
  eapply (completion_eq b s _ p p); try done; [by rewrite -Ep|by rewrite F2 P1|].
  intros f E. rewrite F1 -Ef. eapply (HF b); [eapply us_pcomp; done|by left|congruence].
Qed.
Lemma offs_upd b g s s' : offs s -> procs s' = alter g b (procs s) -> futs s' = futs s -> timers s' = timers s ->
  (forall p, procs s !! b = Some p -> x_completed (g p) = x_completed p /\ x_sigterm (g p) = x_sigterm p /\ x_sigkill (g p) = x_sigkill p) -> offs s'.
Proof.
  intros HO E1 E2 E3 Hg. apply (offs_frame s); [done| |intros t; by rewrite /timer_canceled E3].
  intros a p'. rewrite E1 E2. destruct (decide (b = a)) as [->|Hne].
  - rewrite lookup_alter. destruct (procs s !! a) as [p|]; [|done]. intros [= <-]. right. exists p. by destruct (Hg p) as (? & ? & ?).
  - rewrite lookup_alter_ne //. intros E. right. by exists p'.
Qed.
Lemma offs_same s s' : offs s -> own s -> procs s' = procs s ->
  (forall a f, uses s f (KPComp a) -> futs s' !! f = futs s !! f) -> (forall t, timer_canceled t s = true -> timer_canceled t s' = true) -> offs s'.
Proof.
  intros HO Ho E1 E2 E3. apply (offs_frame s); [done| |done]. intros a p. rewrite E1. intros Ep. right. exists p.
  split_and!; try done. intros f Hf. eapply (E2 a). by eapply us_pcomp.
Qed.
Lemma offs_buffers b s s' : buffers b s s' -> offs s -> offs s'.
Proof.
  intros [g l Hg Hl ->| ->] HO; [|done]. eapply (offs_upd b g s); try done. intros p _. by destruct (Hg p) as (o & e & ->).
Qed.
Lemma offs_again i a s : offs s -> offs (proc_again i a s).
Proof. intros HO. rewrite /proc_again. by destruct (loop_set _); apply (offs_upd a (fun p => p) s); try done; rewrite ?alter_id. Qed.
Lemma offs_task i s s' : own s -> offs s -> task_step w i s = Some s' -> offs s'.
Proof.
  intros Ho HO. rewrite /task_step. destruct (tasks s !! i) as [[]|] eqn:Hi; try done.
  - rewrite /timer_init. destruct (timers s !! a); [|done].
    destruct (on_ctx _ s) as [s1 r] eqn:E. assert (exists c, s1 = s <| cx := c |>) as [c ->].
    { revert E. rewrite /on_ctx. destruct (perform_fval _ _ _). intros [= <- _]. by eexists. }
    destruct (t_canceled_fut t), r; try done; intros [= <-]; by apply (offs_same s).
  - rewrite /timer_wake. destruct (_ || _); [|done]. destruct (timers s !! a) as [t|] eqn:Et; [|done].
    destruct (t_canceled_fut t) as [fx|], (t_completed t) as [fc|] eqn:Ef; try done. intros [= <-].
    set (s1 := if f_is_done fx s then s else _). assert (futs s1 = futs s /\ procs s1 = procs s /\ timers s1 = timers s) as (F1 & F2 & F3).
    { rewrite /s1. by destruct (f_is_done fx s). } clearbody s1.
    destruct (task_res_futs i (set_result fc s1)) as [G1 G2].
    apply (offs_same s); try done; [by rewrite G2 set_result_only| |].
    + intros b f Hu. rewrite G1 set_result_other ?F1 //. eapply (own_ne s); [done|eapply us_tcomp; done|exact Hu|done].
    + intros t0. rewrite task_res_canceled set_result_only /timer_canceled /= F3. done.
  - rewrite /proc_init. destruct (procs s !! a); [|done]. destruct (x_det p); [|by intros [= <-]; apply (offs_same s)].
    set (x := match lc (cx s) !! _ with Some _ => _ | None => _ end). assert (exists c, x.1 = s <| cx := c |>) as [c Ex].
    { rewrite /x. destruct (lc (cx s) !! _); [|exists (cx s); by destruct s]. rewrite /on_ctx. destruct (evaluate_condition_expression _ _ _). by eexists. }
    destruct x as [s1 []]; simpl in Ex; subst; intros [= <-]; by apply (offs_same s).
  - intros [= <-]. by eapply (offs_upd a _ s).
  - destruct rc as [rc|]; [|done]. rewrite /proc_exited. destruct (procs s !! a) as [p|]; [|done].
    set (s0 := emit _ _). assert (own s0) as Ho0 by (by apply own_emit, own_obs).
    match goal with |- (if ?b then _ else _) = _ -> _ => destruct b end.
    + set (s1 := upd_proc _ _ s0). assert (offs s1) as H1 by (by eapply (offs_upd a _ s)).
      destruct (p_delay _); [destruct (Qle_bool _ _)|]; intros [= <-]; try (by apply offs_again). by apply (offs_upd a (fun p => p) s1); try done; rewrite ?alter_id.
    + intros [= <-]. by apply (offs_cleanup i a s0 s).
  - rewrite /proc_delay. destruct (procs s !! a) as [p|]; [|done]. destruct (match x_shutdown p with Some _ => _ | None => _ end).
    + intros [= <-]. by apply (offs_cleanup i a s s).
    + destruct (Qle_bool _ _); [|done]. intros [= <-]. by apply offs_again.
Qed.
Lemma offs_micro s s' : own s -> micro w s s' -> offs s -> offs s'.
Proof.
  intros Ho H HO. destruct H; forget_handlers.
  - apply (offs_same s); try done; [by apply H| |].
    + intros a f Hu. eapply (untouched_futs s s' a); try done. by left.
    + intros t. by rewrite /timer_canceled (ut_timers _ _ H).
  - destruct (timer_cancel_sameP a s) as (P1 & _). apply (offs_same s); try done.
    + intros b f Hu. eapply (timer_cancel_keep a s b); try done. by left.
    + intros t Ht. apply timer_cancel_canceled. by left.
  - apply (offs_same s); try done.
    + intros b0 f Hu. simpl. rewrite !lookup_insert_ne //; eapply fresh_ne; try done; lia.
    + intros t Ht. rewrite /timer_canceled /=. rewrite lookup_insert_ne; [intros ->; congruence|done].
  - apply (offs_same s); try done.
    + intros b0 f Hu. simpl. rewrite !lookup_insert_ne //; eapply fresh_ne; try done; lia.
    + intros t Ht. rewrite /timer_canceled /=. destruct (decide (a = t)) as [->|Hne]; [by rewrite lookup_insert|by rewrite lookup_insert_ne].
  - apply (offs_frame s); try done. intros b p' Hp. rewrite /= in Hp. destruct (decide (a = b)) as [->|Hne].
    + rewrite lookup_insert in Hp. injection Hp as <-. rewrite /get_proc. destruct (procs s !! b) as [p|] eqn:E; [|by left]. right. by exists p.
    + rewrite lookup_insert_ne // in Hp. right. by exists p'.
  - destruct (O_prepare_executable w _ _ _ _ H0) as (c & n & pc & _ & _ & _ & _ & ->). by eapply (offs_upd a _ s).
  - by eapply (offs_upd a _ s).
  - by eapply (offs_upd a _ s).
  - intros b q t Eq Hc Ht. rewrite /= in Eq. destruct (decide (a = b)) as [->|Hne].
    + move: Hc. rewrite /completion /= lookup_insert /= /f_is_done /f_get /= lookup_insert_ne ?lookup_insert //. lia.
    + rewrite lookup_insert_ne // in Eq. apply (HO b q t Eq); [|done]. rewrite -Hc. symmetry. apply (completion_eq b s _ q q); try done.
      * by rewrite /= lookup_insert_ne.
      * intros f Hf. simpl. rewrite !lookup_insert_ne //; eapply fresh_ne; try done; try lia; by eapply us_pcomp.
  - destruct (shutdown_process_case a sg s Ho) as [? ->|p sf ???? ->| |].
    + by apply (offs_same s).
    + apply (offs_same s); try done. intros b f Hu. simpl. rewrite lookup_insert_ne //. eapply (own_ne s); [done|eapply us_pshut; done|done|done].
    + match goal with H : procs (shutdown_process _ _ _).1 = _ |- _ => rename H into EP end.
      match goal with H : timers (shutdown_process _ _ _).1 = _ |- _ => rename H into ET end.
      match goal with H : futs (shutdown_process _ _ _).1 = _ |- _ => rename H into EF end.
      apply (offs_frame s); [done| |intros t; by rewrite /timer_canceled ET]. intros b q. rewrite EP EF. destruct (decide (a = b)) as [->|Hne].
      * rewrite lookup_insert. intros [= <-]. right. exists p. split_and!; try done.
        -- intros g Hg. rewrite lookup_insert_ne //. eapply (own_ne s); [done|eapply us_pshut; done|by eapply us_pcomp|done].
        -- rewrite /completion. repeat match goal with H : procs s !! _ = _ |- _ => rewrite H | H : x_completed _ = _ |- _ => rewrite H | H : f_is_done _ _ = false |- _ => rewrite H end. done.
      * rewrite lookup_insert_ne //. intros Eq. right. exists q. split_and!; try done.
        intros g Hg. rewrite lookup_insert_ne //. eapply (own_ne s); [done|eapply (us_pshut s _ a p); done|by eapply us_pcomp|done].
    + match goal with H : untouched _ _ |- _ => rename H into HU end.
      assert (own (obs1 (OAsked a) s)) as Ho1 by (by apply own_obs).
      apply (offs_same (obs1 (OAsked a) s)); try done; [by apply HU| |].
      * intros b g Hu. eapply (untouched_futs _ _ b); try done. by left.
      * intros t. by rewrite /timer_canceled (ut_timers _ _ HU).
  - by apply (offs_same s).
  - eapply offs_buffers; [apply proc_io_buffers|done].
  - eapply offs_buffers; [apply proc_flush_buffers|done].
  - by eapply offs_task.
  - revert H. rewrite /spawn_ok. destruct (tasks s !! i) as [[]|] eqn:Hi; try done. intros [= <-].
    apply (offs_frame s); try done. intros b p'. rewrite /=. destruct (decide (a = b)) as [->|Hne].
    + rewrite lookup_alter. destruct (procs s !! b) as [p|] eqn:Ep; [|done]. simpl. intros [= <-]. right. exists p.
      split; [done|]. destruct (x_det p); [|split_and!; try done]; [|intros f Hf; rewrite lookup_insert_ne //; eapply fresh_ne; try done; by eapply us_pcomp].
      destruct (String.eqb _ _); split_and!; try done; intros f Hf; rewrite lookup_insert_ne //; eapply fresh_ne; try done; by eapply us_pcomp.
    + rewrite lookup_alter_ne //. intros Ep. right. exists p'. split_and!; try done.
      intros f Hf. rewrite lookup_insert_ne //; eapply fresh_ne; try done; by eapply us_pcomp.
  - revert H. rewrite /spawn_fail. destruct (tasks s !! i) as [[]|]; try done. intros [= <-]. by apply (offs_cleanup i a s s).
  - revert H. rewrite /proc_exit. destruct (tasks s !! i) as [[| | | |b f d [|]|b f d [|]| |]|] eqn:Hi; try done; intros [= <-].
    all: apply (offs_same s); try done; [by rewrite /= set_result_only| |intros t; by rewrite /timer_canceled /= set_result_only].
    all: intros c g Hu; simpl; rewrite set_result_other //; eapply (own_ne s _ _ (KProto b)); [done| |exact Hu|done].
    + eapply us_conn. by eapply elem_of_list_In, elem_of_list_lookup_2.
    + eapply us_run. by eapply elem_of_list_In, elem_of_list_lookup_2.
Qed.
Lemma offs_reachable s : reachable w s -> offs s.
Proof.
  intros H. apply (micro_reachable w (fun s => own s /\ offs s)) in H; [by destruct H| |].
  - intros n e. split; [apply own_init|]. intros a p t. by rewrite /= lookup_empty.
  - intros s1 s2 Hm [Ho Hf]. split; [by eapply own_micro|by eapply offs_micro].
Qed.
End laws.
Lemma exec_steps w ls s s' : exec w ls s = Some s' -> steps w s ls s'.
Proof.
  revert s. induction ls as [|l ls IH]; intros s; simpl; [intros [= ->]; constructor|].
  destruct (step w l s) as [s1|] eqn:E; [|done]. intros H. econstructor; eauto.
Qed.
Lemma without_bound n m : (m < 0)%Z ->
  exists s, reachable w0 s /\ config (User 1) s = Some (ex_cfg true None m) /\ spawned (User 1) (hist s) = n.
Proof.
  intros Hm. destruct (exec w0 (ex_start (ex_cfg true None m)) s0) as [s|] eqn:E; [|by vm_compute in E].
  assert (steps w0 s0 (ex_start (ex_cfg true None m)) s) as Hs by (by apply exec_steps).
  assert (cycling (User 1) (TProcInit (User 1)) s /\ spawned (User 1) (hist s) = 0%nat /\ config (User 1) s = Some (ex_cfg true None m)) as (C & N & G).
  { clear Hs. vm_compute in E. injection E as <-. split; [|done]. constructor; try done; [by eexists|].
    eexists _, _, _. split; [done|]. split; [done|]. split; [done|]. split_and!; try done. simpl. lia. }
  destruct (cycles w0 (User 1) s n C) as (ls & s' & H & _ & N' & G').
  exists s'. split; [exists false, {["HOME" := "/root"]}, (ex_start (ex_cfg true None m) ++ ls); by eapply steps_app|].
  split; [congruence|lia].
Qed.
(** A process that is being started when its action is told to shut down. *)
Definition tests (s : st) : bool :=
  match procs s !! User 1 with Some p => match x_shutdown p with Some f => f_is_done f s | None => false end | None => false end.
Definition runs (s : st) : bool := match tasks s with TProcRun (User 1) _ _ None :: _ => true | _ => false end.
Lemma starts_from l1 l2 : match exec w0 l1 s0 with
  | Some s => tests s = true /\
      match exec w0 l2 s with
      | Some s' => runs s' = true /\ spawned (User 1) (hist s') = S (spawned (User 1) (hist s)) /\
          map ex_tag (process_history (User 1) (hist s')) = ["spawn"; "started"; "reap"; "exited"; "spawn"; "started"]
      | None => False
      end
  | None => False
  end ->
  exists s ls s', reachable w0 s /\ steps w0 s ls s' /\ shut_requested (User 1) s /\
    spawned (User 1) (hist s') = S (spawned (User 1) (hist s)) /\
    map ex_tag (process_history (User 1) (hist s')) = ["spawn"; "started"; "reap"; "exited"; "spawn"; "started"] /\ alive (User 1) s'.
Proof.
  intros H. destruct (exec w0 l1 s0) as [s|] eqn:E1; [|done]. destruct H as [H1 H2].
  destruct (exec w0 l2 s) as [s'|] eqn:E2; [|done]. destruct H2 as (H2 & H3 & H4).
  exists s, l2, s'. split; [exists false, {["HOME" := "/root"]}, l1; by apply exec_steps|]. split; [by apply exec_steps|].
  split. { move: H1. rewrite /tests. destruct (procs s !! User 1) as [p|] eqn:Ep; [|done]. destruct (x_shutdown p) as [f|] eqn:Ef; [|done].
           intros Hd. by exists p, f. }
  split; [done|]. split; [done|]. move: H2. rewrite /runs. destruct (tasks s') as [|[] ?] eqn:Et; try done.
  destruct a; [|done]. destruct n as [|[|]]; try done. destruct rc; [done|]. intros _. eexists _, _. right. rewrite Et. by left.
Qed.
Lemma starts_anyway :
  exists s ls s', reachable w0 s /\ steps w0 s ls s' /\ shut_requested (User 1) s /\
    spawned (User 1) (hist s') = S (spawned (User 1) (hist s)) /\
    map ex_tag (process_history (User 1) (hist s')) = ["spawn"; "started"; "reap"; "exited"; "spawn"; "started"] /\ alive (User 1) s'.
Proof.
  apply (starts_from (ex_start (ex_cfg true None 1) ++ ex_up ++ ex_down ++ [LTask 0] ++ ex_shutdown) [LSpawnOk 0 8; LTask 0]).
  vm_compute. by repeat split.
Qed.
