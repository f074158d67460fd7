(** Each asyncio future belongs to one timer, one process action or user code. *)
From Coq Require Import ssreflect.
From Verif Require Import SubstFacts SpecEvents ExecFacts VisitFacts HandleFacts StepFacts MicroSteps.

(** ** Lists of tasks *)
Lemma at_split {A} i (y : A) l : l !! i = Some y ->
  exists l1 l2, l = l1 ++ y :: l2 /\ (forall x, set_nth i x l = l1 ++ x :: l2) /\ del_nth i l = l1 ++ l2.
Proof.
  revert i. induction l as [|z l IH]; intros [|i]; simpl; try done.
  - intros [= ->]. by exists [], l.
  - intros H. destruct (IH _ H) as (l1 & l2 & -> & Hs & ->). exists (z :: l1), l2. split; [done|]. split; [|done].
    intros x. by rewrite Hs.
Qed.
Lemma in_mid {A} (x y : A) l1 l2 : In x (l1 ++ y :: l2) <-> x = y \/ In x (l1 ++ l2).
Proof. rewrite !in_app_iff /=. naive_solver. Qed.

Lemma in_set_nth {A} i (x y : A) l : In y (set_nth i x l) -> y = x \/ In y l.
Proof.
  revert i. induction l as [|z l IH]; intros [|i]; simpl; try done.
  - intros [->|?]; auto.
  - intros [->|H]; auto. destruct (IH _ H); auto.
Qed.
Lemma in_del_nth {A} i (y : A) l : In y (del_nth i l) -> In y l.
Proof. revert i. induction l as [|z l IH]; intros [|i]; simpl; try done; [by right|]. intros [->|H]; eauto. Qed.

(** ** Futures *)
Lemma set_result_lookup f g s : futs (set_result f s).1 !! g = futs s !! g \/
  (g = f /\ futs s !! f = Some FPending /\ futs (set_result f s).1 !! g = Some FOk).
Proof.
  rewrite /set_result. destruct (futs s !! f) as [[]|] eqn:E; simpl; auto.
  destruct (decide (g = f)) as [->|Hne]; [right; by rewrite lookup_insert|left; by rewrite lookup_insert_ne].
Qed.
(** What [set_result] and [timer_cancel] leave alone. *)
Definition futs_only (s s' : st) : Prop := s' = s <| futs := futs s' |>.
Lemma set_result_only f s : futs_only s (set_result f s).1.
Proof. rewrite /futs_only /set_result. destruct (futs s !! f) as [[]|]; by destruct s. Qed.

Inductive fkind := KUser | KTComp (a : aid) | KTCanc (a : aid) | KPComp (a : aid) | KPShut (a : aid) | KProto (a : aid).
#[global] Instance fkind_eq_dec : EqDecision fkind.
Proof. solve_decision. Defined.
Inductive uses (s : st) (f : nat) : fkind -> Prop :=
| us_user : In f (ufuts s) -> uses s f KUser
| us_tcomp a t : timers s !! a = Some t -> t_completed t = Some f -> uses s f (KTComp a)
| us_tcanc a t : timers s !! a = Some t -> t_canceled_fut t = Some f -> uses s f (KTCanc a)
| us_twait a dl : In (TTimerWait a f dl) (tasks s) -> uses s f (KTCanc a)
| us_pcomp a p : procs s !! a = Some p -> x_completed p = Some f -> uses s f (KPComp a)
| us_pshut a p : procs s !! a = Some p -> x_shutdown p = Some f -> uses s f (KPShut a)
| us_trans a p : procs s !! a = Some p -> x_transport p = Some f -> uses s f (KProto a)
| us_conn a d rc : In (TProcConn a f d rc) (tasks s) -> uses s f (KProto a)
| us_run a d rc : In (TProcRun a f d rc) (tasks s) -> uses s f (KProto a)
| us_pipe a d : In (f, a, d) (pipes s) -> uses s f (KProto a).
Record own (s : st) : Prop := {
  ow_wf : forall f, (next s <= f)%nat -> futs s !! f = None;
  ow_some : forall f k, uses s f k -> is_Some (futs s !! f);
  ow_one : forall f k k', uses s f k -> uses s f k' -> k = k' }.
Lemma own_lt s f k : own s -> uses s f k -> (f < next s)%nat.
Proof.
  intros [W S _] H. destruct (S _ _ H) as [x Hx]. destruct (decide (next s <= f)%nat) as [Hf|]; [|lia].
  rewrite (W _ Hf) in Hx. done.
Qed.
Lemma own_ne s f g k k' : own s -> uses s f k -> uses s g k' -> k <> k' -> f <> g.
Proof. intros Ho H1 H2 Hne ->. apply Hne. by eapply (ow_one s Ho). Qed.

Lemma own_step s s' (nk : nat -> fkind) :
  (forall f, is_Some (futs s !! f) -> is_Some (futs s' !! f)) ->
  (forall f, (next s' <= f)%nat -> futs s' !! f = futs s !! f) -> (next s <= next s')%nat ->
  (forall f k, uses s' f k -> uses s f k \/ (next s <= f)%nat /\ k = nk f /\ is_Some (futs s' !! f)) ->
  own s -> own s'.
Proof.
  intros Hd Hw Hn Hu Ho. constructor.
  - intros f Hf. rewrite Hw //. apply (ow_wf _ Ho). lia.
  - intros f k [H|(_ & _ & H)]%Hu; [|done]. by apply Hd, (ow_some _ Ho f k).
  - intros f k k' H1 H2. apply Hu in H1, H2.
    destruct H1 as [H1|(L1 & -> & _)], H2 as [H2|(L2 & -> & _)]; [by eapply ow_one| | |done].
    + apply (own_lt _ _ _ Ho) in H1. lia.
    + apply (own_lt _ _ _ Ho) in H2. lia.
Qed.
(** ... when no future is created. *)
Lemma own_less s s' :
  (forall f, futs s' !! f = futs s !! f \/ is_Some (futs s !! f) /\ is_Some (futs s' !! f)) -> (next s <= next s')%nat ->
  (forall f k, uses s' f k -> uses s f k) -> own s -> own s'.
Proof.
  intros Hf Hn Hu Ho. apply (own_step s s' (fun _ => KUser)); try done.
  - intros f Hs. by destruct (Hf f) as [->|[_ ?]].
  - intros f Hle. destruct (Hf f) as [|[H _]]; [done|]. rewrite (ow_wf _ Ho) in H; [lia|]. by destruct H.
  - auto.
Qed.
Lemma own_set_result f s : own s -> own (set_result f s).1.
Proof.
  apply own_less.
  - intros g. destruct (set_result_lookup f g s) as [|(-> & -> & ->)]; [by left|right; by split].
  - by rewrite (set_result_only f s).
  - intros g k H. rewrite (set_result_only f s) in H. destruct H; by econstructor.
Qed.
(** Fields of the state used by [uses] unchanged. *)
Lemma own_fields s s' :
  ufuts s' = ufuts s -> timers s' = timers s -> tasks s' = tasks s -> procs s' = procs s -> pipes s' = pipes s ->
  futs s' = futs s -> (next s <= next s')%nat -> own s -> own s'.
Proof.
  intros H1 H2 H3 H4 H5 H6 H7. apply own_less; [|done|].
  - intros f. left. by rewrite H6.
  - intros f k []; rewrite ?H1 ?H2 ?H3 ?H4 ?H5 in H; by econstructor; eauto.
Qed.
Ltac uses_inv H := inversion H; clear H; subst; simpl in *.
Lemma own_tasks s s' :
  ufuts s' = ufuts s -> timers s' = timers s -> procs s' = procs s -> pipes s' = pipes s ->
  futs s' = futs s -> (next s <= next s')%nat ->
  (forall t f k, In t (tasks s') -> uses (s <| tasks := [t] |>) f k -> In t (tasks s) \/ uses s f k) -> own s -> own s'.
Proof.
  intros H1 H2 H4 H5 H6 H7 Ht. apply own_less; [|done|].
  - intros f. left. by rewrite H6.
  - intros f k []; rewrite ?H1 ?H2 ?H4 ?H5 in H; try by (econstructor; eauto).
    + destruct (Ht _ f (KTCanc a) H) as [?|?]; [eapply us_twait; by left| |done]. by eapply us_twait.
    + destruct (Ht _ f (KProto a) H) as [?|?]; [eapply us_conn; by left| |done]. by eapply us_conn.
    + destruct (Ht _ f (KProto a) H) as [?|?]; [eapply us_run; by left| |done]. by eapply us_run.
Qed.
Lemma own_task_to i t s : (forall f k, uses (s <| tasks := [t] |>) f k -> uses s f k) -> own s -> own (task_to i t s).
Proof.
  intros Ht. apply own_tasks; try done. intros t' f k [->|?]%in_set_nth; [right; by apply Ht|by left].
Qed.
Lemma own_task_end i s : own s -> own (task_end i s).
Proof. apply own_tasks; try done. intros t' f k ?%in_del_nth. by left. Qed.
Lemma no_task_uses s t f k : match t with TTimerWait _ _ _ | TProcConn _ _ _ _ | TProcRun _ _ _ _ => false | _ => true end = true ->
  uses (s <| tasks := [t] |>) f k -> uses s f k.
Proof. intros Ht H. destruct H; simpl in *; try by econstructor; eauto. all: by destruct H as [->|[]]. Qed.
Lemma set_nth_none {A} i (x : A) l : l !! i = None -> set_nth i x l = l.
Proof. revert l. induction i as [|i IH]; intros [|y l]; try done. simpl. intros H. by rewrite IH. Qed.
Lemma task_dies_to i e s : exists o, task_dies i e s = task_to i (TDead o e) s.
Proof.
  rewrite /task_dies /task_to. destruct (tasks s !! i) as [t|] eqn:E.
  - exists (owner_of t). destruct s. rewrite /set /= in E |- *. by rewrite E.
  - exists (ByTimer (User 0)). destruct s. rewrite /set /= in E |- *. by rewrite E set_nth_none.
Qed.
Ltac dies := match goal with |- context [task_dies ?i ?e ?s] => destruct (task_dies_to i e s) as [? ->] end.
Lemma own_task_dead i e s : own s -> own (task_dies i e s).
Proof. destruct (task_dies_to i e s) as [o ->]. apply own_task_to. intros f k. by apply no_task_uses. Qed.
Lemma own_task_res i s r : own s -> own (task_res i (s, r)).
Proof. intros Ho. destruct r; [by apply own_task_end|by apply own_task_dead|by apply own_task_end]. Qed.
Lemma own_upd_proc a g s :
  (forall p, procs s !! a = Some p -> x_completed (g p) = x_completed p /\ x_shutdown (g p) = x_shutdown p /\
     (x_transport (g p) = x_transport p \/ exists f, x_transport (g p) = Some f /\ uses s f (KProto a))) ->
  own s -> own (upd_proc a g s).
Proof.
  intros Hg. apply own_less; simpl; [by left|done|].
  assert (forall b q, procs (upd_proc a g s) !! b = Some q ->
    exists p, procs s !! b = Some p /\ x_completed q = x_completed p /\ x_shutdown q = x_shutdown p /\
     (x_transport q = x_transport p \/ exists f, x_transport q = Some f /\ uses s f (KProto b))) as HH.
  { intros b q. simpl. destruct (decide (b = a)) as [->|Hne].
    - rewrite lookup_alter. destruct (procs s !! a) as [p|] eqn:Ep; [|done]. intros [= <-].
      exists p. split; [done|]. by apply Hg.
    - rewrite lookup_alter_ne //. exists q. auto. }
  intros f k H. destruct H; try by econstructor.
  all: apply HH in H as (p0 & Hp & Hc & Hs & Ht).
  - eapply us_pcomp; [done|congruence].
  - eapply us_pshut; [done|congruence].
  - destruct Ht as [Ht|(g' & Hg' & ?)]; [eapply us_trans; [done|congruence]|]. assert (g' = f) as -> by congruence. done.
Qed.
Lemma own_upd_timer a g s :
  (forall t, t_completed (g t) = t_completed t /\ t_canceled_fut (g t) = t_canceled_fut t) ->
  own s -> own (upd_timer a g s).
Proof.
  intros Hg. apply own_less; simpl; [by left|done|].
  assert (forall b q, timers (upd_timer a g s) !! b = Some q ->
    exists p, timers s !! b = Some p /\ t_completed q = t_completed p /\ t_canceled_fut q = t_canceled_fut p) as HH.
  { intros b q. simpl. destruct (decide (b = a)) as [->|Hne].
    - rewrite lookup_alter. destruct (timers s !! a) as [p|] eqn:Ep; [|done]. intros [= <-]. exists p. by split; [|apply Hg].
    - rewrite lookup_alter_ne //. exists q. auto. }
  intros f k H. destruct H; try by econstructor.
  all: apply HH in H as (p0 & Hp & Hc & Hs).
  - eapply us_tcomp; [done|congruence].
  - eapply us_tcanc; [done|congruence].
Qed.
Lemma own_timer_cancel a s : own s -> own (timer_cancel a s).
Proof.
  intros Ho. rewrite /timer_cancel. destruct (timers s !! a) as [t|] eqn:Et.
  - assert (own (upd_timer a (fun t => t <| t_canceled := true |>) s)) as H1 by (by apply own_upd_timer).
    destruct (t_canceled_fut t); [|done]. destruct (f_is_done _ _); [done|]. by apply own_set_result.
  - apply (own_less s); simpl; [by left|done| |done]. intros f k H. destruct H; try by econstructor.
    all: simpl in H; destruct (decide (a0 = a)) as [->|Hne]; [rewrite lookup_insert in H; by simplify_eq|
      rewrite lookup_insert_ne // in H; by econstructor].
Qed.
Lemma own_obs o s : own s -> own (obs1 o s).
Proof. by apply own_fields. Qed.
Lemma own_emit e s : own s -> own (emit e s).
Proof. by apply own_fields. Qed.
Lemma own_log_lines a fd ls s : own s -> own (log_lines a fd ls s).
Proof. rewrite /log_lines. revert s. induction ls as [|l ls IH]; intros s; simpl; [done|]. intros Ho. apply IH. by apply own_obs. Qed.
Lemma own_pipes s g : own s -> own (s <| pipes ::= List.filter g |>).
Proof.
  apply own_less; simpl; [by left|done|]. intros f k []; try by econstructor. apply filter_In in H as [H _]. by econstructor.
Qed.
Lemma own_cleanup a s : own s -> own (cleanup a s).1.
Proof.
  intros Ho. rewrite /cleanup. destruct (procs s !! a) as [p|]; [|done].
  set (s1 := match x_sigterm p with Some t => _ | None => _ end).
  set (s2 := match x_sigkill p with Some t => _ | None => _ end).
  set (s3 := match x_transport p with Some t => _ | None => _ end).
  assert (own s1) as H1. { rewrite /s1. destruct (x_sigterm p); [by apply own_timer_cancel|done]. }
  assert (own s2) as H2. { rewrite /s2. destruct (x_sigkill p); [by apply own_timer_cancel|done]. }
  assert (own s3) as H3. { rewrite /s3. destruct (x_transport p); [by apply own_pipes|done]. }
  destruct (x_completed p); [by apply own_set_result|done].
Qed.
Lemma own_cx s c : own s -> own (s <| cx := c |>).
Proof. by apply own_fields. Qed.
Lemma own_proc_again i a s : own s -> own (proc_again i a s).
Proof.
  intros Ho. rewrite /proc_again. destruct (loop_set (cx s)); [|by apply own_task_dead].
  apply (own_tasks s); try done. intros t f k. simpl. intros [H|[<-|[]]]%in_app_or Hu; [left; by eapply in_del_nth|].
  right. eapply (no_task_uses s (TProcInit a)); [done|exact Hu].
Qed.

Lemma own_untouched s s' : untouched s s' -> own s -> own s'.
Proof.
  intros HU Ho. destruct HU as [H1 H2 H3 H4 _ N HF HUf _ _ _].
  apply (own_step s s' (fun _ => KUser)); try done.
  - intros f [x Hx]. destruct (HF f) as [->|[[_ ->]|(_ & _ & ?)]]; [by rewrite Hx|by eexists|done].
  - intros f Hf. destruct (HF f) as [->|[[? _]|(Hin & _ & _)]]; [done|lia|].
    apply (us_user s), (own_lt _ _ _ Ho) in Hin. lia.
  - intros f k Hu.
    assert (forall k', uses s' f k' -> k' <> KUser -> uses s f k') as Hk.
    { intros k' [] Hne; rewrite ?H1 ?H2 ?H3 ?H4 in H; try by (econstructor; eauto). }
    destruct (decide (k = KUser)) as [->|]; [|left; by apply Hk]. inversion Hu; subst.
    destruct (HUf f) as [|[Hn ?]]; [done|left; by constructor|]. right. split; [lia|]. by split.
Qed.

Lemma own_init n e : own (init n e).
Proof.
  constructor; simpl.
  - intros f _. apply lookup_empty.
  - intros f k []; simpl in *; try done; by rewrite lookup_empty in H.
  - intros f k k' []; simpl in *; try done; by rewrite lookup_empty in H.
Qed.

Section own.
Context (w : world).

Lemma own_on_ctx {A} (m : ctx -> ctx * res A) s s' r : on_ctx m s = (s', r) -> own s -> own s'.
Proof. rewrite /on_ctx. destruct (m (cx s)) as [c x]. intros [= <- _]. by apply own_cx. Qed.
Lemma own_task_step i s s' : task_step w i s = Some s' -> own s -> own s'.
Proof.
  rewrite /task_step. destruct (tasks s !! i) as [t|] eqn:Ei; [|done].
  assert (In t (tasks s)) as Hin by (eapply elem_of_list_In, elem_of_list_lookup_2; done).
  intros H Ho. destruct t; try done.
  - (* timer_init *)
    revert H. rewrite /timer_init. destruct (timers s !! a) as [t|] eqn:Et; [|done].
    destruct (on_ctx _ s) as [s1 [p|e|]] eqn:Ec.
    + destruct (t_canceled_fut t) as [f|] eqn:Ef; [|done]. intros [= <-].
      apply own_task_to; [|by apply own_obs, (own_on_ctx _ _ _ _ Ec)].
      assert (timers s1 = timers s) as Ets.
      { move: Ec. rewrite /on_ctx. destruct (perform_fval _ _ _). by intros [= <- _]. }
      intros g k Hu. destruct Hu; simpl in *; try by econstructor; eauto. all: destruct H as [[=]|[]]. subst.
      eapply us_tcanc; [|done]. simpl. by rewrite Ets.
    + intros H. assert (own s1) by (by eapply own_on_ctx). destruct (t_canceled_fut t); simplify_eq; by apply own_task_dead.
    + by destruct (t_canceled_fut t).
  - (* timer_wake *)
    revert H. rewrite /timer_wake. destruct (_ || _); [|done]. destruct (timers s !! a) as [t|]; [|done].
    destruct (t_canceled_fut t) as [fx|]; [|done]. destruct (t_completed t) as [fc|]; [|done]. intros [= <-].
    set (s1 := if f_is_done fx s then _ else _). assert (own s1) as H1.
    { rewrite /s1. destruct (f_is_done _ _); [done|]. by apply own_emit, own_obs. }
    destruct (set_result fc s1) as [s2 r] eqn:E2. apply own_task_res.
    replace s2 with (set_result fc s1).1 by (by rewrite E2). by apply own_set_result.
  - (* proc_init *)
    revert H. rewrite /proc_init. destruct (procs s !! a) as [p|]; [|done].
    destruct (x_det p) as [d|]; [|intros [= <-]; by apply own_task_dead].
    destruct (match lc (cx s) !! "emulate_tty" with Some _ => _ | None => _ end) as [s1 r] eqn:Ec.
    assert (own s1) as H1.
    { destruct (lc (cx s) !! "emulate_tty"); [by eapply own_on_ctx|]. by simplify_eq. }
    destruct r as [b|e|]; intros; simplify_eq; [|by apply own_task_dead].
    apply own_task_to; [|done]. intros f k. by apply no_task_uses.
  - (* proc_conn *)
    injection H as <-. rewrite /proc_conn. apply own_emit, own_obs, own_task_to.
    + intros f k Hu. destruct Hu; simpl in *; try by econstructor; eauto. all: destruct H as [[=]|[]]. subst.
      by eapply us_conn.
    + apply own_upd_proc; [|done]. intros p Hp. simpl. split; [done|]. split; [done|]. right. eexists. split; [done|]. by eapply us_conn.
  - (* proc_exited *)
    destruct rc as [rc|]; [|done]. revert H. rewrite /proc_exited. destruct (procs s !! a) as [p|]; [|done].
    set (s1 := emit _ _). assert (own s1) as H1 by (by apply own_emit, own_obs).
    destruct (_ && _).
    + set (s2 := upd_proc _ _ _). assert (own s2) as H2 by (apply own_upd_proc; [|done]; intros ??; simpl; auto).
      destruct (p_delay _) as [q|]; [destruct (Qle_bool q 0)|]; intros [= <-]; try by apply own_proc_again.
      apply own_task_to; [|done]. intros f k. by apply no_task_uses.
    + intros [= <-]. destruct (cleanup a s1) as [s2 r] eqn:E2. apply own_task_res.
      replace s2 with (cleanup a s1).1 by (by rewrite E2). by apply own_cleanup.
  - (* proc_delay *)
    revert H. rewrite /proc_delay. destruct (procs s !! a) as [p|]; [|done].
    destruct (match x_shutdown p with Some _ => _ | None => _ end).
    + intros [= <-]. destruct (cleanup a s) as [s2 r] eqn:E2. apply own_task_res.
      replace s2 with (cleanup a s).1 by (by rewrite E2). by apply own_cleanup.
    + destruct (Qle_bool _ _); [|done]. intros [= <-]. by apply own_proc_again.
Qed.
Lemma own_spawn_ok i pid s s' : spawn_ok i pid s = Some s' -> own s -> own s'.
Proof.
  rewrite /spawn_ok. destruct (tasks s !! i) as [[]|] eqn:Ei; try done. simpl. intros [= <-] Ho.
  apply own_obs. set (s1 := set futs _ _).
  set (g := fun p : pobj => _).
  apply (own_step s _ (fun _ => KProto a)); simpl; try done.
  - intros f [x Hf]. destruct (decide (f = next s)) as [->|]; [by rewrite lookup_insert|by rewrite lookup_insert_ne // Hf].
  - intros f Hf. rewrite lookup_insert_ne //. lia.
  - lia.
  - intros f k Hu.
    assert (forall b q, alter g a (procs s) !! b = Some q -> exists p, procs s !! b = Some p /\ x_completed q = x_completed p /\
       x_shutdown q = x_shutdown p /\ x_transport q = x_transport p) as HH.
    { intros b q. destruct (decide (b = a)) as [->|Hne].
      - rewrite lookup_alter. destruct (procs s !! a) as [p|] eqn:Ep; [|done]. intros [= <-]. exists p. split; [done|].
        rewrite /g. destruct (x_det p) as [d0|]; [|done]. by destruct (_ =? _)%string.
      - rewrite lookup_alter_ne //. by exists q. }
    assert (forall t, In t (set_nth i (TProcConn a (next s) (mkPdet (d_name d) (d_cmd d) (d_cwd d) (d_env d) (Some pid)) None) (tasks s)) ->
      t = TProcConn a (next s) (mkPdet (d_name d) (d_cmd d) (d_cwd d) (d_env d) (Some pid)) None \/ In t (tasks s)) as HT
      by (intros t; apply in_set_nth).
    destruct Hu; simpl in *; try by (left; econstructor; eauto).
    + apply HT in H as [[=]|?]. left. by econstructor.
    + apply HH in H as (p0 & ? & ? & ? & ?). left. eapply us_pcomp; [done|congruence].
    + apply HH in H as (p0 & ? & ? & ? & ?). left. eapply us_pshut; [done|congruence].
    + apply HH in H as (p0 & ? & ? & ? & ?). left. eapply us_trans; [done|congruence].
    + apply HT in H as [[= -> -> ->]|?]; [|left; by econstructor]. right. split; [lia|]. split; [done|]. by rewrite lookup_insert.
    + apply HT in H as [[=]|?]. left. by eapply us_run.
    + destruct H as [[= <- <- _]|?]; [|left; by eapply us_pipe]. right. split; [lia|]. split; [done|]. by rewrite lookup_insert.
Qed.
Lemma own_shutdown_process a sg s : own s -> own (shutdown_process a sg s).1.
Proof.
  intros Ho. rewrite /shutdown_process. set (s0 := obs1 _ s). assert (own s0) as H0 by (by apply own_obs). clearbody s0.
  destruct (procs s0 !! a) as [p|] eqn:Ep; [|done]. destruct (x_shutdown p) as [sf|]; [|done].
  destruct (f_is_done sf s0) eqn:Hsf; [done|].
  assert (forall (k : unit -> st -> st * res (list entity)), (forall s, own s -> own (k tt s).1) -> own (bindS (set_result sf) k s0).1) as HB.
  { intros k Hk. rewrite /bindS. pose proof (own_set_result sf s0 H0) as H1. destruct (set_result sf s0) as [s1 [[]|e|]]; simpl in *; auto. }
  destruct (x_completed p) as [cf|]; [|by apply HB].
  destruct (f_is_done cf s0); [by apply HB|].
  destruct (x_det p) as [d|], (x_transport p) as [f|]; try by (simpl; apply (own_fields s0); simpl; try done; lia).
  apply HB. intros s1 H1. simpl. apply own_obs. apply own_upd_proc; [intros q _; by auto|].
  apply (own_fields s1); simpl; try done. lia.
Qed.
Lemma own_proc_io a e s : own s -> own (proc_io a e s).1.
Proof.
  intros Ho. rewrite /proc_io. destruct e; try done. destruct (procs s !! a) as [p|]; [|done].
  set (s0 := obs1 _ s). assert (own s0) as H0 by (by apply own_obs). clearbody s0.
  set (b := match fd with Stdout => _ | Stderr => _ end). clearbody b.
  destruct ((if p_cached (x_cfg p) then on_output_cached else on_output) a fd text b s0) as [b' s'] eqn:E.
  assert (own s') as H1.
  { move: E. destruct (p_cached _).
    - rewrite /on_output_cached. destruct (split_lines _ _). intros [= _ <-]. by apply own_log_lines.
    - rewrite /on_output. destruct (b_closed b); [intros [= _ <-]; by apply own_obs|]. destruct (split_lines _ _).
      intros [= _ <-]. by apply own_log_lines. }
  simpl. apply own_upd_proc; [|done]. intros q _. destruct fd; by auto.
Qed.
Lemma own_proc_flush a s : own s -> own (proc_flush a s).1.
Proof.
  intros Ho. rewrite /proc_flush. destruct (procs s !! a) as [p|]; [|done]. destruct (p_cached _).
  - set (s0 := obs1 _ s). assert (own s0) as H0 by (by apply own_obs). clearbody s0. rewrite /flush_cached_one.
    destruct (split_lines _ _) as [l1 r1]. destruct (split_lines _ _) as [l2 r2]. simpl.
    apply own_upd_proc; [intros ??; by auto|]. by do 2 apply own_log_lines.
  - destruct (b_closed _); [done|]. set (s0 := obs1 _ s). assert (own s0) as H0 by (by apply own_obs). clearbody s0.
    simpl. apply own_upd_proc; [intros ??; by auto|]. rewrite /flush_one.
    destruct (_ =? "")%string; destruct (_ =? "")%string; rewrite ?/obs1; try apply own_obs; try apply own_obs; done.
Qed.

Lemma own_micro s s' : micro w s s' -> own s -> own s'.
Proof.
  intros H Ho. destruct H; forget_handlers.
  - by eapply own_untouched.
  - by apply own_timer_cancel.
  - apply (own_step s _ (fun f => match decide (f = next s) with left _ => KTComp a | right _ => KTCanc a end)); simpl; try lia; try done.
    + intros f [x Hf]. rewrite !lookup_insert_is_Some. destruct (decide (S (next s) = f)); [by left|right].
      split; [done|]. destruct (decide (next s = f)); [by left|right]. by rewrite Hf.
    + intros f Hf. rewrite !lookup_insert_ne //; lia.
    + intros f k Hu. destruct Hu; simpl in *; try by (left; econstructor; eauto).
      * destruct (decide (a = a0)) as [->|Hne]; [|rewrite lookup_insert_ne // in H2; left; by eapply us_tcomp].
        rewrite lookup_insert in H2. simplify_eq. simpl in *. simplify_eq. right. split; [lia|]. rewrite decide_True //.
        split; [done|]. rewrite lookup_insert_ne; [lia|]. rewrite lookup_insert. by eexists.
      * destruct (decide (a = a0)) as [->|Hne]; [|rewrite lookup_insert_ne // in H2; left; by eapply us_tcanc].
        rewrite lookup_insert in H2. simplify_eq. simpl in *. simplify_eq. right. split; [lia|]. rewrite decide_False; [lia|].
        split; [done|]. rewrite lookup_insert. by eexists.
      * apply in_app_or in H2 as [?|[[=]|[]]]. left. by eapply us_twait.
      * apply in_app_or in H2 as [?|[[=]|[]]]. left. by eapply us_conn.
      * apply in_app_or in H2 as [?|[[=]|[]]]. left. by eapply us_run.
  - apply (own_step s _ (fun f => match decide (f = next s) with left _ => KTComp a | right _ => KTCanc a end)); simpl; try lia; try done.
    + intros f [x Hf]. rewrite !lookup_insert_is_Some. rewrite Hf. destruct (decide (next s = f)); [by left|right].
      split; [done|]. destruct (decide (S (next s) = f)); [by left|right]. split; [done|]. by right.
    + intros f Hf. rewrite !lookup_insert_ne //; lia.
    + intros f k Hu. destruct Hu; simpl in *; try by (left; econstructor; eauto).
      * destruct (decide (a = a0)) as [->|Hne]; [|rewrite lookup_insert_ne // in H0; left; by eapply us_tcomp].
        rewrite lookup_insert in H0. simplify_eq. simpl in *. simplify_eq. right. split; [lia|]. rewrite decide_True //.
        split; [done|]. rewrite lookup_insert. by eexists.
      * destruct (decide (a = a0)) as [->|Hne]; [|rewrite lookup_insert_ne // in H0; left; by eapply us_tcanc].
        rewrite lookup_insert in H0. simplify_eq. simpl in *. simplify_eq. right. split; [lia|]. rewrite decide_False; [lia|].
        split; [done|]. rewrite lookup_insert_ne; [lia|]. rewrite lookup_insert. by eexists.
  - apply (own_less s); simpl; [by left|done| |done].
    assert (forall b q, <[a:=get_proc a c oe s]> (procs s) !! b = Some q ->
      procs s !! b = Some q \/ (x_completed q = None /\ x_shutdown q = None /\ x_transport q = None)) as HH.
    { intros b q. destruct (decide (b = a)) as [->|Hne].
      - rewrite lookup_insert. intros [= <-]. rewrite /get_proc. destruct (procs s !! a); [by left|by right].
      - rewrite lookup_insert_ne //. by left. }
    intros f k Hu. destruct Hu; simpl in *; try by (econstructor; eauto).
    all: destruct (HH _ _ H) as [?|(E1 & E2 & E3)]; [by econstructor; eauto|congruence].
  - apply own_upd_proc; [intros q _; by auto|]. eapply own_untouched; [by eapply prepare_untouched|done].
  - apply own_upd_proc; [|done]. intros q _. by auto.
  - apply own_upd_proc; [|done]. intros q _. by auto.
  - apply (own_step s _ (fun f => match decide (f = fc) with left _ => KPComp a | right _ => KPShut a end)); simpl; try lia; try done.
    + intros f [x Hf]. rewrite !lookup_insert_is_Some. rewrite Hf. destruct (decide (fs = f)); [by left|right].
      split; [done|]. destruct (decide (fc = f)); [by left|right]. split; [done|]. by eexists.
    + intros f Hf. rewrite !lookup_insert_ne //; lia.
    + assert (forall t, In t (tasks s ++ ts) -> In t (tasks s) \/ t = TProcInit a) as HT.
      { intros t [?|Ht]%in_app_or; [by left|]. destruct H7 as [->| ->]; [done|]. destruct Ht as [<-|[]]. by right. }
      intros f k Hu. destruct Hu; simpl in *; try by (left; econstructor; eauto).
      * apply HT in H8 as [?|[=]]. left. by eapply us_twait.
      * destruct (decide (a = a0)) as [->|Hne]; [|rewrite lookup_insert_ne // in H8; left; by eapply us_pcomp].
        rewrite lookup_insert in H8. simplify_eq. simpl in *. simplify_eq. right. split; [lia|]. rewrite decide_True //.
        split; [done|]. rewrite lookup_insert_ne; [lia|]. rewrite lookup_insert. by eexists.
      * destruct (decide (a = a0)) as [->|Hne]; [|rewrite lookup_insert_ne // in H8; left; by eapply us_pshut].
        rewrite lookup_insert in H8. simplify_eq. simpl in *. simplify_eq. right. split; [lia|]. rewrite decide_False; [lia|].
        split; [done|]. rewrite lookup_insert. by eexists.
      * destruct (decide (a = a0)) as [->|Hne]; [|rewrite lookup_insert_ne // in H8; left; by eapply us_trans].
        rewrite lookup_insert in H8. simplify_eq. simpl in *. left. by eapply us_trans.
      * apply HT in H8 as [?|[=]]. left. by eapply us_conn.
      * apply HT in H8 as [?|[=]]. left. by eapply us_run.
  - by apply own_shutdown_process.
  - by apply own_obs.
  - by apply own_proc_io.
  - by apply own_proc_flush.
  - by eapply own_task_step.
  - by eapply own_spawn_ok.
  - revert H. rewrite /spawn_fail. destruct (tasks s !! i) as [[]|]; try done. intros [= <-].
    destruct (cleanup a s) as [s2 r] eqn:E2. apply own_task_res.
    replace s2 with (cleanup a s).1 by (by rewrite E2). by apply own_cleanup.
  - revert H. rewrite /proc_exit. destruct (tasks s !! i) as [t|] eqn:Ei; [|done].
    assert (In t (tasks s)) as Hin by (eapply elem_of_list_In, elem_of_list_lookup_2; done).
    destruct t; try done; destruct rc0; try done; intros [= <-]; apply own_obs.
    all: pose proof (own_set_result complete s Ho) as Hr; pose proof (set_result_only complete s) as Em; revert Hr Em.
    all: rewrite /futs_only; generalize (set_result complete s).1; intros s1 Hr Em; rewrite Em.
    all: apply (own_tasks (s <| futs := futs s1 |>)); try done; [|by rewrite -Em].
    all: simpl; intros t f k [->|?]%in_set_nth Hu; [right|by left].
    all: destruct Hu; simpl in *; try by econstructor; eauto. all: destruct H as [[=]|[]]; subst.
    + by eapply us_conn.
    + by eapply us_run.
Qed.
Lemma own_reachable s : reachable w s -> own s.
Proof. apply (micro_reachable w own); [apply own_init|apply own_micro]. Qed.
End own.
