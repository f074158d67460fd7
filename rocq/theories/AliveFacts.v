(** What a run waits for is alive (C82). *)
From Coq Require Import ssreflect.
From Verif Require Import SpecAlive SubstFacts SpecEvents ExecFacts VisitFacts HandleFacts StepFacts MicroSteps OwnFacts ProcFacts.

(** Somebody works for [o], or has died doing so. *)
Definition busy (o : owner) (s : st) : Prop := exists t, In t (tasks s) /\ owner_of t = o.
Definition fine (o : owner) (s : st) : Prop :=
  match o with
  | ByProcess a => forall p f, procs s !! a = Some p -> x_completed p = Some f -> x_begun p = true ->
      f_is_done f s = true \/ busy o s
  | ByTimer a => forall t f, timers s !! a = Some t -> t_completed t = Some f -> (t_gen t <= 1)%nat ->
      f_is_done f s = true \/ busy o s
  end.
Definition regs_ok (s : st) : Prop :=
  (forall a p, procs s !! a = Some p -> x_executed p = false -> x_completed p = None /\ x_begun p = false) /\
  (forall a t f, timers s !! a = Some t -> t_completed t = Some f -> (1 <= t_gen t)%nat).
(** [s'] has the same actions as [s]. *)
Definition psame (o o' : option pobj) : Prop :=
  match o, o' with
  | Some p, Some p' => x_completed p' = x_completed p /\ x_begun p' = x_begun p /\ (x_executed p = true -> x_executed p' = true)
  | None, Some p' => x_completed p' = None /\ x_begun p' = false
  | None, None => True
  | Some _, None => False
  end.
Definition tsame (o o' : option tobj) : Prop :=
  match o, o' with
  | Some t, Some t' => t_completed t' = t_completed t /\ t_gen t' = t_gen t
  | None, Some t' => t_completed t' = None /\ t_gen t' = O
  | None, None => True
  | Some _, None => False
  end.
Record gentle (s s' : st) : Prop := {
  ge_done : forall f, f_is_done f s = true -> f_is_done f s' = true;
  ge_proc : forall a, psame (procs s !! a) (procs s' !! a);
  ge_timer : forall a, tsame (timers s !! a) (timers s' !! a) }.
Definition kept (o : owner) (s s' : st) : Prop := busy o s -> busy o s'.
Lemma psame_refl o : psame o o.
Proof. by destruct o. Qed.
Lemma tsame_refl o : tsame o o.
Proof. by destruct o. Qed.
Lemma psame_eq o o' : o' = o -> psame o o'.
Proof. intros ->. apply psame_refl. Qed.
Lemma tsame_eq o o' : o' = o -> tsame o o'.
Proof. intros ->. apply tsame_refl. Qed.
Lemma psame_trans a b c : psame a b -> psame b c -> psame a c.
Proof. destruct a, b, c; simpl; naive_solver congruence. Qed.
Lemma tsame_trans a b c : tsame a b -> tsame b c -> tsame a c.
Proof. destruct a, b, c; simpl; naive_solver congruence. Qed.
Lemma gentle_refl s : gentle s s.
Proof. constructor; [done| |]; intros a; [apply psame_refl|apply tsame_refl]. Qed.
Lemma gentle_trans s1 s2 s3 : gentle s1 s2 -> gentle s2 s3 -> gentle s1 s3.
Proof.
  intros [D1 P1 T1] [D2 P2 T2]. constructor; [auto| |]; intros a; [by eapply psame_trans|by eapply tsame_trans].
Qed.
#[local] Instance gentle_pre : PreOrder gentle.
Proof. split; [exact gentle_refl|exact gentle_trans]. Qed.
Lemma fine_gentle o s s' : gentle s s' -> kept o s s' -> fine o s -> fine o s'.
Proof.
  intros [D P T] K H. destruct o as [a|a]; simpl in *.
  - intros t' f Ht Hf Hg. specialize (T a). rewrite Ht in T. destruct (timers s !! a) as [t|]; simpl in T; [|by destruct T; congruence].
    destruct T as [T1 T2]. destruct (H t f eq_refl) as [?|?]; [congruence|lia|left; auto|right; by apply K].
  - intros p' f Hp Hf Hb. specialize (P a). rewrite Hp in P. destruct (procs s !! a) as [p|]; simpl in P; [|by destruct P; congruence].
    destruct P as (P1 & P2 & _). destruct (H p f eq_refl) as [?|?]; [congruence|congruence|left; auto|right; by apply K].
Qed.
Lemma regs_gentle s s' : gentle s s' -> regs_ok s -> regs_ok s'.
Proof.
  intros [_ P T] [A B]. split.
  - intros a p' Hp Hx. specialize (P a). rewrite Hp in P. destruct (procs s !! a) as [p|] eqn:E; simpl in P; [|done].
    destruct P as (-> & -> & X). apply (A a); [done|]. destruct (x_executed p); [|done]. rewrite X in Hx; done.
  - intros a t' f Ht Hf. specialize (T a). rewrite Ht in T. destruct (timers s !! a) as [t|] eqn:E; simpl in T; [|by destruct T; congruence].
    destruct T as [T1 ->]. eapply B; [done|]. by rewrite -T1.
Qed.

(** ** Gentle changes *)
Lemma gentle_fields s s' : futs s' = futs s -> procs s' = procs s -> timers s' = timers s -> gentle s s'.
Proof.
  intros E1 E2 E3. constructor; [by rewrite /f_is_done /f_get E1| |]; intros a; [apply psame_eq|apply tsame_eq]; congruence.
Qed.
Lemma gentle_set_result f s : gentle s (set_result f s).1.
Proof.
  pose proof (set_result_only f s) as E. constructor.
  - intros g. rewrite /f_is_done /f_get. destruct (set_result_lookup f g s) as [-> |(_ & _ & ->)]; done.
  - intros a. apply psame_eq. by rewrite E.
  - intros a. apply tsame_eq. by rewrite E.
Qed.
Lemma gentle_upd_proc a g s : (forall p, procs s !! a = Some p -> x_completed (g p) = x_completed p /\ x_begun (g p) = x_begun p /\
  (x_executed p = true -> x_executed (g p) = true)) -> gentle s (upd_proc a g s).
Proof.
  intros Hg. constructor; [done| |intros b; apply tsame_refl]. intros b. simpl. destruct (decide (b = a)) as [->|Hne].
  - rewrite lookup_alter. destruct (procs s !! a) as [p|]; [|done]. simpl. by apply Hg.
  - rewrite lookup_alter_ne //. apply psame_refl.
Qed.
Lemma gentle_cancel a s : gentle s (timer_cancel a s).
Proof.
  rewrite /timer_cancel. destruct (timers s !! a) as [t|] eqn:Et.
  - set (s1 := upd_timer _ _ s). assert (gentle s s1) as H1.
    { constructor; [done|intros b; apply psame_refl|]. intros b. simpl. destruct (decide (b = a)) as [->|Hne].
      - by rewrite lookup_alter Et.
      - rewrite lookup_alter_ne //. apply tsame_refl. }
    destruct (t_canceled_fut t) as [f|]; [|done]. destruct (f_is_done f s1); [done|].
    etrans; [exact H1|apply gentle_set_result].
  - constructor; [done|intros b; apply psame_refl|]. intros b. simpl. destruct (decide (b = a)) as [->|Hne].
    + by rewrite lookup_insert Et.
    + rewrite lookup_insert_ne //. apply tsame_refl.
Qed.
Lemma gentle_log_lines a fd ls s : gentle s (log_lines a fd ls s).
Proof. rewrite /log_lines. revert s. induction ls as [|l ls IH]; intros s; simpl; [done|]. etrans; [|apply IH]. by apply gentle_fields. Qed.
Lemma gentle_cleanup a s : gentle s (cleanup a s).1.
Proof.
  rewrite /cleanup. destruct (procs s !! a) as [p|]; [|done].
  set (s1 := match x_sigterm p with Some t => _ | None => _ end).
  set (s2 := match x_sigkill p with Some t => _ | None => _ end).
  set (s3 := match x_transport p with Some t => _ | None => _ end).
  assert (gentle s s1) as H1. { rewrite /s1. destruct (x_sigterm p); [apply gentle_cancel|done]. }
  assert (gentle s1 s2) as H2. { rewrite /s2. destruct (x_sigkill p); [apply gentle_cancel|done]. }
  assert (gentle s2 s3) as H3. { rewrite /s3. destruct (x_transport p); [by apply gentle_fields|done]. }
  assert (gentle s s3) as H4 by (etrans; [exact H1|]; by etrans).
  destruct (x_completed p); [etrans; [exact H4|apply gentle_set_result]|done].
Qed.
Lemma cleanup_tasks a s : tasks (cleanup a s).1 = tasks s.
Proof.
  rewrite /cleanup. destruct (procs s !! a) as [p|]; [|done].
  set (s1 := match x_sigterm p with Some t => _ | None => _ end).
  set (s2 := match x_sigkill p with Some t => _ | None => _ end).
  set (s3 := match x_transport p with Some t => _ | None => _ end).
  assert (tasks s1 = tasks s) as H1. { rewrite /s1. destruct (x_sigterm p) as [t|]; [apply (timer_cancel_sameP t s)|done]. }
  assert (tasks s2 = tasks s1) as H2. { rewrite /s2. destruct (x_sigkill p) as [t|]; [apply (timer_cancel_sameP t s1)|done]. }
  assert (tasks s3 = tasks s2) as H3. { rewrite /s3. by destruct (x_transport p). }
  destruct (x_completed p) as [f|]; simpl; [rewrite (set_result_only f s3) /=|]; congruence.
Qed.
Lemma set_result_done f s s' u : set_result f s = (s', Ok u) -> f_is_done f s' = true.
Proof. rewrite /set_result. destruct (futs s !! f) as [[]|]; try done. intros [= <- _]. by rewrite /f_is_done /f_get /= lookup_insert. Qed.
Lemma cleanup_done a s s' u p f : cleanup a s = (s', Ok u) -> procs s !! a = Some p -> x_completed p = Some f -> f_is_done f s' = true.
Proof. rewrite /cleanup => H Ep Ef. rewrite Ep Ef in H. by eapply set_result_done. Qed.

(** ** Tasks *)
Lemma kept_same o s s' : tasks s' = tasks s -> kept o s s'.
Proof. intros E (t & Ht & Ho). exists t. by rewrite E. Qed.
Lemma kept_app o s s' l : tasks s' = tasks s ++ l -> kept o s s'.
Proof. intros E (t & Ht & Ho). exists t. rewrite E in_app_iff. auto. Qed.
Lemma kept_trans o a b c : kept o a b -> kept o b c -> kept o a c.
Proof. rewrite /kept. auto. Qed.
Lemma kept_to o i t t' s : tasks s !! i = Some t -> owner_of t' = owner_of t -> kept o s (task_to i t' s).
Proof.
  intros Hi He (x & Hx & Ho). destruct (at_split _ _ _ Hi) as (l1 & l2 & E & E1 & _). rewrite /busy /= E1.
  rewrite E in Hx. apply in_mid in Hx as [->|Hx]; [exists t'|exists x]; rewrite in_mid; split; auto; congruence.
Qed.
Lemma kept_dies o i e s : kept o s (task_dies i e s).
Proof.
  rewrite /task_dies. destruct (tasks s !! i) as [t|] eqn:Hi.
  - intros H. destruct (kept_to o i t (TDead (owner_of t) e) s Hi eq_refl H) as (x & Hx & Ho). exists x. split; [|done].
    simpl in *. by rewrite Hi.
  - intros (x & Hx & Ho). exists x. split; [|done]. simpl. by rewrite Hi.
Qed.
Lemma kept_end o i t s : tasks s !! i = Some t -> owner_of t <> o -> kept o s (task_end i s).
Proof.
  intros Hi He (x & Hx & Ho). destruct (at_split _ _ _ Hi) as (l1 & l2 & E & _ & E1). exists x. simpl. rewrite E1. split; [|done].
  rewrite E in Hx. by apply in_mid in Hx as [->|Hx].
Qed.
Lemma gentle_task f s : gentle s (s <| tasks ::= f |>).
Proof. by apply gentle_fields. Qed.

Definition G (s s' : st) : Prop := gentle s s' /\ forall o, kept o s s'.
#[local] Instance G_pre : PreOrder G.
Proof.
  split; [intros s; split; [done|]; intros o; by apply kept_same|].
  intros s1 s2 s3 [A1 B1] [A2 B2]. split; [by etrans|]. intros o. by eapply kept_trans.
Qed.
Lemma G_same s s' : gentle s s' -> tasks s' = tasks s -> G s s'.
Proof. intros H E. split; [done|]. intros o. by apply kept_same. Qed.
Lemma G_fields s s' : futs s' = futs s -> procs s' = procs s -> timers s' = timers s -> tasks s' = tasks s -> G s s'.
Proof. intros. apply G_same; [by apply gentle_fields|done]. Qed.
Lemma G_to i t t' s : tasks s !! i = Some t -> owner_of t' = owner_of t -> G s (task_to i t' s).
Proof. intros Hi He. split; [apply gentle_task|]. intros o. by eapply kept_to. Qed.
Lemma G_dies i e s : G s (task_dies i e s).
Proof. split; [apply gentle_task|]. intros o. apply kept_dies. Qed.
Record ainv (s : st) : Prop := { ai_fine : forall o, fine o s; ai_regs : regs_ok s }.
Lemma ainv_G s s' : G s s' -> ainv s -> ainv s'.
Proof. intros [A B] [F R]. split; [intros o; by eapply fine_gentle|by eapply regs_gentle]. Qed.
#[local] Instance owner_eq_dec : EqDecision owner.
Proof. solve_decision. Defined.
(** A task ends. *)
Lemma ainv_end i t s s' : gentle s s' -> tasks s' = tasks s -> tasks s !! i = Some t ->
  match owner_of t with
  | ByProcess a => forall p f, procs s' !! a = Some p -> x_completed p = Some f -> f_is_done f s' = true
  | ByTimer a => forall x f, timers s' !! a = Some x -> t_completed x = Some f -> f_is_done f s' = true
  end -> ainv s -> ainv (task_end i s').
Proof.
  intros HG Et Hi Hd HA. assert (ainv s') as [F R]. { eapply ainv_G; [|exact HA]. by apply G_same. }
  split; [|by eapply regs_gentle; [apply gentle_task|]].
  intros o. destruct (decide (owner_of t = o)) as [<-|Hne].
  - destruct (owner_of t) as [a|a]; intros x f Hx Hf _; left; by eapply Hd.
  - eapply fine_gentle; [apply gentle_task|eapply kept_end; [by rewrite Et|done]|apply F].
Qed.
Lemma f_done_new s s' f : own s -> (forall f, futs s' !! f = futs s !! f \/ (next s <= f)%nat) -> f_is_done f s = true -> f_is_done f s' = true.
Proof.
  intros Ho H. rewrite /f_is_done /f_get. destruct (H f) as [-> |Hf]; [done|]. by rewrite (ow_wf _ Ho _ Hf).
Qed.
Lemma ainv_task_res i s s' r t : gentle s s' -> tasks s' = tasks s -> tasks s !! i = Some t ->
  (forall u, r = Ok u -> match owner_of t with
  | ByProcess a => forall p f, procs s' !! a = Some p -> x_completed p = Some f -> f_is_done f s' = true
  | ByTimer a => forall x f, timers s' !! a = Some x -> t_completed x = Some f -> f_is_done f s' = true
  end) -> r <> OutOfFuel -> ainv s -> ainv (task_res i (s', r)).
Proof.
  intros HG Et Hi Hd Hr HA. destruct r as [u|e|]; [|simpl|done].
  - by apply (ainv_end i t s s'); try done; apply (Hd u).
  - eapply ainv_G; [|exact HA]. etrans; [by apply G_same|apply G_dies].
Qed.
Lemma set_result_fuel f s : (set_result f s).2 <> OutOfFuel.
Proof. rewrite /set_result. by destruct (futs s !! f) as [[]|]. Qed.
Lemma cleanup_fuel a s : (cleanup a s).2 <> OutOfFuel.
Proof. rewrite /cleanup. destruct (procs s !! a) as [p|]; [|done]. destruct (x_completed p); [apply set_result_fuel|done]. Qed.
Lemma cleanup_completed a s p' : procs (cleanup a s).1 !! a = Some p' -> exists p, procs s !! a = Some p /\ x_completed p' = x_completed p.
Proof.
  intros H. pose proof (ge_proc _ _ (gentle_cleanup a s) a) as HP. rewrite H in HP. destruct (procs s !! a) as [p|] eqn:E; simpl in HP.
  - exists p. split; [done|apply HP].
  - rewrite /cleanup E /= in H. congruence.
Qed.
Lemma ainv_cleanup i a t s s1 : gentle s s1 -> tasks s1 = tasks s -> tasks s !! i = Some t -> owner_of t = ByProcess a -> ainv s -> ainv (task_res i (cleanup a s1)).
Proof.
  intros HG Et Hi Ht HA. destruct (cleanup a s1) as [s2 r] eqn:E.
  apply (ainv_task_res i s s2 r t); try done.
  - etrans; [exact HG|]. pose proof (gentle_cleanup a s1) as H. by rewrite E in H.
  - rewrite -Et -(cleanup_tasks a s1). by rewrite E.
  - intros u ->. rewrite Ht. intros p f Hp Hf. pose proof (cleanup_completed a s1 p) as Hc. rewrite E in Hc.
    destruct (Hc Hp) as (p1 & Hp1 & E1). eapply cleanup_done; [exact E|exact Hp1|congruence].
  - pose proof (cleanup_fuel a s1) as H. by rewrite E in H.
Qed.
Lemma G_again i a s t : tasks s !! i = Some t -> owner_of t = ByProcess a -> G s (proc_again i a s).
Proof.
  intros Hi Ht. rewrite /proc_again. destruct (loop_set (cx s)); [|apply G_dies]. split; [by apply gentle_fields|].
  intros o (x & Hx & Ho). destruct (at_split _ _ _ Hi) as (l1 & l2 & E & _ & E1). rewrite /busy /= E1.
  rewrite E in Hx. apply in_mid in Hx as [->|Hx].
  - exists (TProcInit a). rewrite in_app_iff. split; [right; by left|]. simpl. congruence.
  - exists x. rewrite in_app_iff. auto.
Qed.

Section alive.
Context (w : world).
Lemma G_on_ctx {A} (m : ctx -> ctx * res A) s s' r : on_ctx m s = (s', r) -> G s s' /\ tasks s' = tasks s.
Proof. rewrite /on_ctx. destruct (m (cx s)) as [c x]. intros [= <- _]. split; [by apply G_fields|done]. Qed.
Lemma ainv_task i s s' : task_step w i s = Some s' -> ainv s -> ainv s'.
Proof.
  rewrite /task_step. destruct (tasks s !! i) as [t|] eqn:Ei; [|done].
  intros H HA. destruct t; try done.
  - revert H. rewrite /timer_init. destruct (timers s !! a) as [t|] eqn:Et; [|done].
    destruct (on_ctx _ s) as [s1 [p|e|]] eqn:Ec; destruct (t_canceled_fut t); try done; intros [= <-].
    all: destruct (G_on_ctx _ _ _ _ Ec) as [HG HT]; eapply ainv_G; [|exact HA]; (etrans; [exact HG|]); try apply G_dies.
    etrans; [by apply (G_fields s1 (obs1 (OArmed a p (now s1)) s1))|]. eapply G_to; [by rewrite /= HT|done].
  - revert H. rewrite /timer_wake. destruct (_ || _); [|done]. destruct (timers s !! a) as [t|] eqn:Et; [|done].
    destruct (t_canceled_fut t) as [fx|]; [|done]. destruct (t_completed t) as [fc|] eqn:Ef; [|done]. intros [= <-].
    set (s1 := if f_is_done fx s then _ else _).
    assert (gentle s s1 /\ tasks s1 = tasks s /\ timers s1 = timers s) as (H1 & H2 & H3).
    { rewrite /s1. destruct (f_is_done fx s); [done|]. split_and!; [by apply gentle_fields|done|done]. }
    clearbody s1. pose proof (gentle_set_result fc s1) as H4. pose proof (set_result_only fc s1) as H5. pose proof (set_result_fuel fc s1) as H6.
    destruct (set_result fc s1) as [s2 r] eqn:E2. simpl in *.
    eapply (ainv_task_res i s s2 r); [by etrans|rewrite H5 /=; congruence|exact Ei| |done|done].
    intros u ->. simpl. intros x f Hx Hf. rewrite H5 /= H3 in Hx. simplify_eq. by eapply set_result_done.
  - revert H. rewrite /proc_init. destruct (procs s !! a) as [p|] eqn:Ep; [|done].
    destruct (x_det p) as [d|]; [|intros [= <-]; eapply ainv_G; [apply G_dies|done]].
    destruct (match lc (cx s) !! "emulate_tty" with Some _ => _ | None => _ end) as [s1 r] eqn:Ec.
    assert (G s s1 /\ tasks s1 = tasks s) as [HG HT].
    { destruct (lc (cx s) !! "emulate_tty"); [by eapply G_on_ctx|]. by simplify_eq. }
    destruct r as [b|e|]; intros; simplify_eq; eapply ainv_G; try exact HA; (etrans; [exact HG|]); try apply G_dies.
    eapply G_to; [by rewrite HT|done].
  - injection H as <-. eapply ainv_G; [|exact HA]. rewrite /proc_conn.
    etrans; [apply (G_same s (upd_proc a (fun p => p <| x_transport := Some complete |>) s)); [apply gentle_upd_proc; by auto|done]|].
    etrans; [eapply (G_to i _ (TProcRun a complete d rc)); [exact Ei|done]|]. by apply G_fields.
  - destruct rc as [rc|]; [|done]. revert H. rewrite /proc_exited. destruct (procs s !! a) as [p|]; [|done].
    set (s1 := emit _ _). assert (gentle s s1 /\ tasks s1 = tasks s) as [H1 H2] by (split; [by apply gentle_fields|done]).
    destruct (_ && _).
    + set (s2 := upd_proc _ _ _). assert (G s s2) as HG. { apply G_same; [|done]. etrans; [exact H1|]. apply gentle_upd_proc; by auto. }
      destruct (p_delay _) as [q|]; [destruct (Qle_bool q 0)|]; intros [= <-]; (eapply ainv_G; [|exact HA]); (etrans; [exact HG|]).
      1,3: eapply G_again; [exact Ei|done]. eapply G_to; [exact Ei|done].
    + intros [= <-]. by eapply ainv_cleanup.
  - revert H. rewrite /proc_delay. destruct (procs s !! a) as [p|]; [|done].
    destruct (match x_shutdown p with Some _ => _ | None => _ end).
    + intros [= <-]. by eapply ainv_cleanup.
    + destruct (Qle_bool _ _); [|done]. intros [= <-]. eapply ainv_G; [|exact HA]. by eapply G_again.
Qed.
Lemma G_shutdown a sg s : G s (shutdown_process a sg s).1.
Proof.
  rewrite /shutdown_process. set (s0 := obs1 _ s). assert (G s s0) as H0 by (by apply G_fields). clearbody s0.
  destruct (procs s0 !! a) as [p|] eqn:Ep; [|done]. destruct (x_shutdown p) as [sf|]; [|done].
  destruct (f_is_done sf s0) eqn:Hsf; [done|].
  assert (forall (k : unit -> st -> st * res (list entity)), (forall s, G s (k tt s).1) -> G s (bindS (set_result sf) k s0).1) as HB.
  { intros k Hk. assert (G s0 (set_result sf s0).1) as H1.
    { apply G_same; [apply gentle_set_result|]. by rewrite (set_result_only sf s0). }
    rewrite /bindS. destruct (set_result sf s0) as [s1 [[]|e|]]; simpl in *; (etrans; [exact H0|]); try done. etrans; [exact H1|apply Hk]. }
  destruct (x_completed p) as [cf|]; [|by apply HB].
  destruct (f_is_done cf s0); [by apply HB|].
  destruct (x_det p) as [d|], (x_transport p) as [f|]; try by (simpl; (etrans; [exact H0|]); by apply G_fields).
  apply HB. intros s1. simpl. match goal with |- G s1 (obs1 ?o (upd_proc a ?g ?s2)) =>
    transitivity s2; [by apply G_fields|]; transitivity (upd_proc a g s2); [|by apply G_fields] end.
  apply G_same; [by apply gentle_upd_proc; auto|done].
Qed.
Lemma G_io a e s : G s (proc_io a e s).1.
Proof.
  rewrite /proc_io. destruct e; try done. destruct (procs s !! a) as [p|]; [|done].
  set (s0 := obs1 _ s). assert (G s s0) as H0 by (by apply G_fields). clearbody s0.
  set (b := match fd with Stdout => _ | Stderr => _ end). clearbody b.
  destruct ((if p_cached (x_cfg p) then on_output_cached else on_output) a fd text b s0) as [b' s'] eqn:E.
  assert (G s0 s') as H1.
  { assert (forall ls, G s0 (log_lines a fd ls s0)) as HL.
    { intros ls. apply G_same; [apply gentle_log_lines|]. rewrite /log_lines. clear. revert s0. induction ls as [|l ls IH]; intros s0; [done|]. simpl. by rewrite IH. }
    move: E. destruct (p_cached _).
    - rewrite /on_output_cached. destruct (split_lines _ _). intros [= _ <-]. apply HL.
    - rewrite /on_output. destruct (b_closed b); [intros [= _ <-]; by apply G_fields|]. destruct (split_lines _ _).
      intros [= _ <-]. apply HL. }
  simpl. etrans; [exact H0|]. etrans; [exact H1|]. apply G_same; [|done]. apply gentle_upd_proc. intros q _. by destruct fd.
Qed.
Lemma G_lines a fd ls s : G s (log_lines a fd ls s).
Proof. apply G_same; [apply gentle_log_lines|]. rewrite /log_lines. revert s. induction ls as [|l ls IH]; intros s; [done|]. simpl. by rewrite IH. Qed.
Lemma G_flush a s : G s (proc_flush a s).1.
Proof.
  rewrite /proc_flush. destruct (procs s !! a) as [p|]; [|done]. destruct (p_cached _).
  - set (s0 := obs1 _ s). assert (G s s0) as H0 by (by apply G_fields). clearbody s0. rewrite /flush_cached_one.
    destruct (split_lines _ _) as [l1 r1]. destruct (split_lines _ _) as [l2 r2]. simpl.
    etrans; [exact H0|]. etrans; [apply G_lines|]. etrans; [apply G_lines|]. apply G_same; [by apply gentle_upd_proc; auto|done].
  - destruct (b_closed _); [done|]. set (s0 := obs1 _ s). assert (G s s0) as H0 by (by apply G_fields). clearbody s0.
    simpl. etrans; [exact H0|]. etrans; [|apply G_same; [by apply gentle_upd_proc; auto|done]]. rewrite /flush_one.
    destruct (_ =? "")%string; destruct (_ =? "")%string; by apply G_fields.
Qed.
Lemma G_untouched s s' : own s -> untouched s s' -> G s s'.
Proof.
  intros Ho HU. apply G_same; [|apply HU]. constructor.
  - intros f. rewrite /f_is_done /f_get. destruct (ut_futs _ _ HU f) as [-> |[[Hf _]|(_ & Hd & _)]]; [done| |].
    + rewrite (ow_wf _ Ho); [lia|]. done.
    + rewrite /f_is_done /f_get in Hd. congruence.
  - intros a. apply psame_eq. by rewrite (ut_procs _ _ HU).
  - intros a. apply tsame_eq. by rewrite (ut_timers _ _ HU).
Qed.
Lemma ainv_micro s s' : own s -> micro w s s' -> ainv s -> ainv s'.
Proof.
  intros Ho H HA. destruct H.
  - eapply ainv_G; [by apply G_untouched|done].
  - eapply ainv_G; [|exact HA]. apply G_same; [apply gentle_cancel|]. apply (timer_cancel_sameP a s).
  - (* a timer *) destruct HA as [F [R1 R2]].
    set (s' := set cx _ _). assert (forall f, f_is_done f s = true -> f_is_done f s' = true) as HD.
    { intros f. apply (f_done_new s s' f); [done|]. intros g. simpl.
      destruct (decide (S (next s) = g)); [right; lia|]. rewrite lookup_insert_ne //.
      destruct (decide (next s = g)); [right; lia|]. rewrite lookup_insert_ne //. by left. }
    assert (forall o, kept o s s') as HK by (intros o; by eapply kept_app).
    split; [|split].
    + intros [b'|b'].
      * intros t f. simpl. destruct (decide (a = b')) as [<-|Hne].
        -- rewrite lookup_insert. intros [= <-] _ _. right. exists (TTimerInit a). simpl. rewrite in_app_iff. split; [right; by left|done].
        -- rewrite lookup_insert_ne //. intros Ht Hf Hg. destruct (F (ByTimer b') t f Ht Hf Hg) as [Hd|Hb]; [left; by apply HD|right; by apply HK].
      * intros p' f Hp Hf Hb. destruct (F (ByProcess b') p' f Hp Hf Hb) as [Hd|Hb']; [left; by apply HD|right; by apply HK].
    + exact R1.
    + intros b' t f. simpl. destruct (decide (a = b')) as [<-|Hne]; [rewrite lookup_insert; intros [= <-] _; simpl; lia|].
      rewrite lookup_insert_ne //. apply R2.
  - destruct HA as [F [R1 R2]].
    set (s' := set next _ _). assert (forall f, f_is_done f s = true -> f_is_done f s' = true) as HD.
    { intros f. apply (f_done_new s s' f); [done|]. intros g. simpl.
      destruct (decide (next s = g)); [right; lia|]. rewrite lookup_insert_ne //.
      destruct (decide (S (next s) = g)); [right; lia|]. rewrite lookup_insert_ne // lookup_insert_ne //. by left. }
    assert (forall o, kept o s s') as HK by (intros o; by apply kept_same).
    split; [|split].
    + intros [b'|b'].
      * intros t f. simpl. destruct (decide (a = b')) as [<-|Hne].
        -- rewrite lookup_insert. intros [= <-] [= <-] _. left. by rewrite /f_is_done /f_get /= lookup_insert.
        -- rewrite lookup_insert_ne //. intros Ht Hf Hg. destruct (F (ByTimer b') t f Ht Hf Hg) as [Hd|Hb]; [left; by apply HD|right; by apply HK].
      * intros p' f Hp Hf Hb. destruct (F (ByProcess b') p' f Hp Hf Hb) as [Hd|Hb']; [left; by apply HD|right; by apply HK].
    + exact R1.
    + intros b' t f. simpl. destruct (decide (a = b')) as [<-|Hne]; [rewrite lookup_insert; intros [= <-] _; simpl; lia|].
      rewrite lookup_insert_ne //. apply R2.
  - eapply ainv_G; [|exact HA]. apply G_same; [|done]. constructor; [done| |intros b; apply tsame_refl]. intros b. simpl.
    destruct (decide (a = b)) as [<-|Hne]; [|rewrite lookup_insert_ne //; apply psame_refl]. rewrite lookup_insert /get_proc.
    destruct (procs s !! a); done.
  - eapply ainv_G; [|exact HA]. etrans; [eapply G_untouched; [done|by eapply prepare_untouched]|].
    apply G_same; [|done]. by apply gentle_upd_proc; auto.
  - eapply ainv_G; [|exact HA]. apply G_same; [|done]. by apply gentle_upd_proc; auto.
  - eapply ainv_G; [|exact HA]. apply G_same; [|done]. by apply gentle_upd_proc; auto.
  - destruct HA as [F [R1 R2]].
    set (s' := set cx _ _). assert (forall f, f_is_done f s = true -> f_is_done f s' = true) as HD.
    { intros f. apply (f_done_new s s' f); [done|]. intros g. simpl.
      destruct (decide (fs = g)); [right; lia|]. rewrite lookup_insert_ne //.
      destruct (decide (fc = g)); [right; lia|]. rewrite lookup_insert_ne //. by left. }
    assert (forall o, kept o s s') as HK by (intros o; by eapply kept_app).
    split; [|split].
    + intros [b'|b'].
      * intros t f Ht Hf Hg. destruct (F (ByTimer b') t f Ht Hf Hg) as [Hd|Hb]; [left; by apply HD|right; by apply HK].
      * intros p' f. simpl. destruct (decide (a = b')) as [<-|Hne].
        -- rewrite lookup_insert. intros [= <-] _. simpl. destruct (R1 _ _ H H0) as [_ Hb]. rewrite Hb.
           destruct H7 as [-> | ->]; [done|]. intros _. right. exists (TProcInit a). simpl. rewrite in_app_iff. split; [right; by left|done].
        -- rewrite lookup_insert_ne //. intros Hp Hf Hb. destruct (F (ByProcess b') p' f Hp Hf Hb) as [Hd|Hb']; [left; by apply HD|right; by apply HK].
    + intros b' p'. simpl. destruct (decide (a = b')) as [<-|Hne]; [rewrite lookup_insert; by intros [= <-]|].
      rewrite lookup_insert_ne //. apply R1.
    + exact R2.
  - eapply ainv_G; [apply G_shutdown|done].
  - by eapply ainv_G; [apply (G_fields s)|exact HA].
  - eapply ainv_G; [apply G_io|done].
  - eapply ainv_G; [apply G_flush|done].
  - by eapply ainv_task.
  - revert H. rewrite /spawn_ok. destruct (tasks s !! i) as [[]|] eqn:Ei; try done. simpl. intros [= <-].
    eapply ainv_G; [|exact HA].
    set (s1 := s <| futs ::= <[next s := FPending]> |> <| next ::= S |>).
    assert (G s s1) as H1.
    { apply G_same; [|done]. constructor; [|intros b; apply psame_refl|intros b; apply tsame_refl].
      intros f. apply (f_done_new s s1 f); [done|]. intros g. simpl.
      destruct (decide (next s = g)); [right; lia|]. rewrite lookup_insert_ne //. by left. }
    set (d' := mkPdet _ _ _ _ _).
    set (s2 := upd_proc a (fun p => match x_det p with
                 | Some d0 => if String.eqb (d_name d0) (d_name d) then p <| x_det := Some d' |> else p
                 | None => p end) s1).
    assert (G s1 s2) as H2.
    { apply G_same; [|done]. apply gentle_upd_proc. intros p _. destruct (x_det p); [|done]. by destruct (_ =? _)%string. }
    assert (G s2 (task_to i (TProcConn a (next s) d' None) s2)) as H3 by (eapply G_to; [exact Ei|done]).
    etrans; [exact H1|]. etrans; [exact H2|]. etrans; [exact H3|]. by apply G_fields.
  - revert H. rewrite /spawn_fail. destruct (tasks s !! i) as [[]|] eqn:Ei; try done. intros [= <-].
    by eapply (ainv_cleanup i a _ s s).
  - revert H. rewrite /proc_exit. destruct (tasks s !! i) as [t|] eqn:Ei; [|done].
    destruct t; try done; destruct rc0; try done; intros [= <-]; (eapply ainv_G; [|exact HA]).
    all: assert (tasks (set_result complete s).1 = tasks s) as ET by (by rewrite (set_result_only complete s)).
    all: etrans; [apply (G_same s (set_result complete s).1); [apply gentle_set_result|exact ET]|].
    + etrans; [eapply (G_to i _ (TProcConn a complete d (Some rc))); [by rewrite ET|done]|]. by apply G_fields.
    + etrans; [eapply (G_to i _ (TProcRun a complete d (Some rc))); [by rewrite ET|done]|]. by apply G_fields.
Qed.
(** ** What can be awaited *)
Lemma gentle_dies i e s : gentle s (task_dies i e s).
Proof. apply G_dies. Qed.
Lemma gentle_res i s s' r : gentle s s' -> gentle s (task_res i (s', r)).
Proof. intros H. etrans; [exact H|]. destruct r; [apply gentle_task|apply gentle_dies|apply gentle_task]. Qed.
Lemma gentle_res_cleanup i a s s1 : gentle s s1 -> gentle s (task_res i (cleanup a s1)).
Proof.
  intros H. pose proof (gentle_cleanup a s1) as H1. destruct (cleanup a s1) as [s2 r]. apply gentle_res. by etrans.
Qed.
Lemma gentle_again i a s : gentle s (proc_again i a s).
Proof. rewrite /proc_again. destruct (loop_set (cx s)); [by apply gentle_fields|apply gentle_dies]. Qed.
Lemma gentle_task_step i s s' : task_step w i s = Some s' -> gentle s s'.
Proof.
  rewrite /task_step. destruct (tasks s !! i) as [t|] eqn:Ei; [|done].
  intros H. destruct t; try done.
  - revert H. rewrite /timer_init. destruct (timers s !! a) as [t|] eqn:Et; [|done].
    destruct (on_ctx _ s) as [s1 [p|e|]] eqn:Ec; destruct (t_canceled_fut t); try done; intros [= <-].
    all: destruct (G_on_ctx _ _ _ _ Ec) as [[HG _] HT]; (etrans; [exact HG|]); try apply gentle_dies. by apply gentle_fields.
  - revert H. rewrite /timer_wake. destruct (_ || _); [|done]. destruct (timers s !! a) as [t|] eqn:Et; [|done].
    destruct (t_canceled_fut t) as [fx|]; [|done]. destruct (t_completed t) as [fc|] eqn:Ef; [|done]. intros [= <-].
    set (s1 := if f_is_done fx s then _ else _).
    assert (gentle s s1) as H1. { rewrite /s1. destruct (f_is_done fx s); [done|by apply gentle_fields]. }
    pose proof (gentle_set_result fc s1) as H4. destruct (set_result fc s1) as [s2 r]. apply gentle_res. by etrans.
  - revert H. rewrite /proc_init. destruct (procs s !! a) as [p|] eqn:Ep; [|done].
    destruct (x_det p) as [d|]; [|intros [= <-]; apply gentle_dies].
    destruct (match lc (cx s) !! "emulate_tty" with Some _ => _ | None => _ end) as [s1 r] eqn:Ec.
    assert (gentle s s1) as HG.
    { destruct (lc (cx s) !! "emulate_tty"); [by apply (G_on_ctx _ _ _ _ Ec)|]. by simplify_eq. }
    destruct r as [b|e|]; intros; simplify_eq; (etrans; [exact HG|]); [apply gentle_task|apply gentle_dies].
  - injection H as <-. rewrite /proc_conn.
    etrans; [apply (gentle_upd_proc a (fun p => p <| x_transport := Some complete |>)); by auto|]. by apply gentle_fields.
  - destruct rc as [rc|]; [|done]. revert H. rewrite /proc_exited. destruct (procs s !! a) as [p|]; [|done].
    set (s1 := emit _ _). assert (gentle s s1) as H1 by (by apply gentle_fields).
    destruct (_ && _).
    + set (s2 := upd_proc _ _ _). assert (gentle s s2) as HG. { etrans; [exact H1|]. apply gentle_upd_proc; by auto. }
      destruct (p_delay _) as [q|]; [destruct (Qle_bool q 0)|]; intros [= <-]; (etrans; [exact HG|]).
      1,3: apply gentle_again. apply gentle_task.
    + intros [= <-]. by apply gentle_res_cleanup.
  - revert H. rewrite /proc_delay. destruct (procs s !! a) as [p|]; [|done].
    destruct (match x_shutdown p with Some _ => _ | None => _ end).
    + intros [= <-]. by apply gentle_res_cleanup.
    + destruct (Qle_bool _ _); [|done]. intros [= <-]. apply gentle_again.
Qed.
Lemma gentle_spawn_ok i pid s s' : own s -> spawn_ok i pid s = Some s' -> gentle s s'.
Proof.
  intros Ho. rewrite /spawn_ok. destruct (tasks s !! i) as [[]|] eqn:Ei; try done. simpl. intros [= <-].
    set (s1 := s <| futs ::= <[next s := FPending]> |> <| next ::= S |>).
    assert (gentle s s1) as H1.
    { constructor; [|intros b; apply psame_refl|intros b; apply tsame_refl].
      intros f. apply (f_done_new s s1 f); [done|]. intros g. simpl.
      destruct (decide (next s = g)); [right; lia|]. rewrite lookup_insert_ne //. by left. }
    set (d' := mkPdet _ _ _ _ _).
    set (s2 := upd_proc a (fun p => match x_det p with
                 | Some d0 => if String.eqb (d_name d0) (d_name d) then p <| x_det := Some d' |> else p
                 | None => p end) s1).
    assert (gentle s1 s2) as H2.
    { apply gentle_upd_proc. intros p _. destruct (x_det p); [|done]. by destruct (_ =? _)%string. }
    etrans; [exact H1|]. etrans; [exact H2|]. by apply gentle_fields.
Qed.
(** Timers and processes after an elementary change. *)
Lemma micro_actions s s' : own s -> regs_ok s -> micro w s s' ->
  (forall a f, completes_process a f s -> completes_process a f s') /\
  (forall a f, completes_timer a f s -> completes_timer a f s' \/ executed_again a s') /\
  (forall a, executed_again a s -> executed_again a s').
Proof.
  intros Ho [R1 R2] H.
  assert (gentle s s' -> (forall a f, completes_process a f s -> completes_process a f s') /\
    (forall a f, completes_timer a f s -> completes_timer a f s' \/ executed_again a s') /\
    (forall a, executed_again a s -> executed_again a s')) as HG.
  { intros [_ P T]. split_and!.
    - intros a f (p & Hp & Hf). specialize (P a). rewrite Hp in P. destruct (procs s' !! a) as [p'|] eqn:E; [|done].
      exists p'. split; [done|]. destruct P as [-> _]. done.
    - intros a f (t & Ht & Hf). specialize (T a). rewrite Ht in T. destruct (timers s' !! a) as [t'|] eqn:E; [|done].
      left. exists t'. split; [done|]. destruct T as [-> _]. done.
    - intros a (t & Ht & Hf). specialize (T a). rewrite Ht in T. destruct (timers s' !! a) as [t'|] eqn:E; [|done].
      exists t'. split; [done|]. destruct T as [_ ->]. done. }
  assert (forall b t g (s1 : st), timers s1 = <[b := t]> (timers s) -> t_gen t = S g -> g = timer_gen b s -> procs s1 = procs s ->
    (forall a f, completes_process a f s -> completes_process a f s1) /\
    (forall a f, completes_timer a f s -> completes_timer a f s1 \/ executed_again a s1) /\
    (forall a, executed_again a s -> executed_again a s1)) as HT.
  { intros b t g s1 ET Eg -> EP. split_and!.
    - intros a f (p & Hp & Hf). exists p. by rewrite EP.
    - intros a f (t0 & Ht & Hf). destruct (decide (b = a)) as [->|Hne].
      + right. exists t. rewrite ET lookup_insert. split; [done|]. rewrite Eg /timer_gen Ht. specialize (R2 _ _ _ Ht Hf). lia.
      + left. exists t0. rewrite ET lookup_insert_ne //.
    - intros a (t0 & Ht & Hg). destruct (decide (b = a)) as [->|Hne].
      + exists t. rewrite ET lookup_insert. split; [done|]. rewrite Eg /timer_gen Ht. lia.
      + exists t0. rewrite ET lookup_insert_ne //. }
  destruct H.
  - apply HG. by apply G_untouched.
  - apply HG, gentle_cancel.
  - by eapply HT.
  - by eapply HT.
  - apply HG. constructor; [done| |intros b; apply tsame_refl]. intros b. simpl.
    destruct (decide (a = b)) as [<-|Hne]; [|rewrite lookup_insert_ne //; apply psame_refl]. rewrite lookup_insert /get_proc.
    destruct (procs s !! a); done.
  - apply HG. etrans; [apply G_untouched; [done|by eapply prepare_untouched]|]. by apply gentle_upd_proc; auto.
  - apply HG. by apply gentle_upd_proc; auto.
  - apply HG. by apply gentle_upd_proc; auto.
  - clear HG HT. split_and!.
    + intros b f (q & Hq & Hf). destruct (decide (a = b)) as [->|Hne].
      * destruct (R1 _ _ Hq) as [? _]; congruence.
      * exists q. simpl. rewrite lookup_insert_ne //.
    + intros b f Hb. by left.
    + done.
  - apply HG, G_shutdown.
  - apply HG. by apply gentle_fields.
  - apply HG, G_io.
  - apply HG, G_flush.
  - apply HG. by eapply gentle_task_step.
  - apply HG. by eapply gentle_spawn_ok.
  - apply HG. revert H. rewrite /spawn_fail. destruct (tasks s !! i) as [[]|] eqn:Ei; try done. intros [= <-]. by apply gentle_res_cleanup.
  - apply HG. revert H. rewrite /proc_exit. destruct (tasks s !! i) as [t|] eqn:Ei; [|done].
    destruct t; try done; destruct rc0; try done; intros [= <-].
    all: etrans; [apply (gentle_set_result complete)|]; by apply gentle_fields.
Qed.
(** Futures of users, and futures the context holds. *)
Record lent (s s' : st) : Prop := {
  le_next : (next s <= next s')%nat;
  le_more : forall f, In f (ufuts s) -> In f (ufuts s');
  le_coros : forall a f, coros s' !! a = Some f -> coros s !! a = Some f \/ (In f (ufuts s') /\ (next s <= f)%nat);
  le_cfuts : forall f, In f (cfuts (cx s')) -> In f (cfuts (cx s)) \/ In f (ufuts s') }.
Lemma lent_same s s' : ufuts s' = ufuts s -> coros s' = coros s -> cfuts (cx s') = cfuts (cx s) -> (next s <= next s')%nat -> lent s s'.
Proof. intros E1 E2 E3 E4. constructor; rewrite ?E1 ?E2 ?E3; auto. Qed.
Definition lsame (s s' : st) : Prop := ufuts s' = ufuts s /\ coros s' = coros s /\ cfuts (cx s') = cfuts (cx s) /\ (next s <= next s')%nat.
#[local] Instance lsame_pre : PreOrder lsame.
Proof. split; [done|]. intros s1 s2 s3 (?&?&?&?) (?&?&?&?). split_and!; [congruence..|lia]. Qed.
Lemma ls_set_result f s : lsame s (set_result f s).1.
Proof. rewrite (set_result_only f s). done. Qed.
Lemma ls_cancel a s : lsame s (timer_cancel a s).
Proof.
  rewrite /timer_cancel. destruct (timers s !! a) as [t|]; [|done]. destruct (t_canceled_fut t); [|done].
  destruct (f_is_done _ _); [done|]. etrans; [|apply ls_set_result]. done.
Qed.
Lemma ls_dies i e s : lsame s (task_dies i e s).
Proof. done. Qed.
Lemma ls_res i s s' r : lsame s s' -> lsame s (task_res i (s', r)).
Proof. intros H. etrans; [exact H|]. by destruct r. Qed.
Lemma ls_cleanup a s : lsame s (cleanup a s).1.
Proof.
  rewrite /cleanup. destruct (procs s !! a) as [p|]; [|done].
  set (s1 := match x_sigterm p with Some t => _ | None => _ end).
  set (s2 := match x_sigkill p with Some t => _ | None => _ end).
  set (s3 := match x_transport p with Some t => _ | None => _ end).
  assert (lsame s s1) as H1. { rewrite /s1. destruct (x_sigterm p); [apply ls_cancel|done]. }
  assert (lsame s1 s2) as H2. { rewrite /s2. destruct (x_sigkill p); [apply ls_cancel|done]. }
  assert (lsame s2 s3) as H3. { rewrite /s3. by destruct (x_transport p). }
  assert (lsame s s3) as H4 by (etrans; [exact H1|]; by etrans).
  destruct (x_completed p); [etrans; [exact H4|apply ls_set_result]|done].
Qed.
Lemma ls_res_cleanup i a s s1 : lsame s s1 -> lsame s (task_res i (cleanup a s1)).
Proof. intros H. pose proof (ls_cleanup a s1) as H1. destruct (cleanup a s1) as [s2 r]. apply ls_res. by etrans. Qed.
Lemma ls_again i a s : lsame s (proc_again i a s).
Proof. rewrite /proc_again. by destruct (loop_set (cx s)). Qed.
Lemma ls_on_ctx {A} (m : ctx -> ctx * res A) s s' r : frames m -> on_ctx m s = (s', r) -> lsame s s'.
Proof.
  intros Hm. rewrite /on_ctx. destruct (m (cx s)) as [c x] eqn:E. intros [= <- _]. split_and!; try done.
  simpl. apply sframe_cfuts. by eapply Hm.
Qed.
Lemma ls_task_step i s s' : task_step w i s = Some s' -> lsame s s'.
Proof.
  rewrite /task_step. destruct (tasks s !! i) as [t|] eqn:Ei; [|done].
  intros H. destruct t; try done.
  - revert H. rewrite /timer_init. destruct (timers s !! a) as [t|] eqn:Et; [|done].
    destruct (on_ctx _ s) as [s1 [p|e|]] eqn:Ec; destruct (t_canceled_fut t); try done; intros [= <-].
    all: exact (ls_on_ctx _ _ _ _ (perform_fval_frame w _) Ec).
  - revert H. rewrite /timer_wake. destruct (_ || _); [|done]. destruct (timers s !! a) as [t|] eqn:Et; [|done].
    destruct (t_canceled_fut t) as [fx|]; [|done]. destruct (t_completed t) as [fc|] eqn:Ef; [|done]. intros [= <-].
    set (s1 := if f_is_done fx s then _ else _).
    assert (lsame s s1) as H1. { rewrite /s1. by destruct (f_is_done fx s). }
    pose proof (ls_set_result fc s1) as H4. destruct (set_result fc s1) as [s2 r]. apply ls_res. by etrans.
  - revert H. rewrite /proc_init. destruct (procs s !! a) as [p|] eqn:Ep; [|done].
    destruct (x_det p) as [d|]; [|by intros [= <-]].
    destruct (match lc (cx s) !! "emulate_tty" with Some _ => _ | None => _ end) as [s1 r] eqn:Ec.
    assert (lsame s s1) as HG.
    { destruct (lc (cx s) !! "emulate_tty") as [v|]; [exact (ls_on_ctx _ _ _ _ (evaluate_expression_frame w [SText v]) Ec)|]. by simplify_eq. }
    destruct r as [b|e|]; intros; by simplify_eq.
  - by injection H as <-.
  - destruct rc as [rc|]; [|done]. revert H. rewrite /proc_exited. destruct (procs s !! a) as [p|]; [|done].
    set (s1 := emit _ _). assert (lsame s s1) as H1 by done.
    destruct (_ && _).
    + set (s2 := upd_proc _ _ _). assert (lsame s s2) as HG by done.
      destruct (p_delay _) as [q|]; [destruct (Qle_bool q 0)|]; intros [= <-]; (etrans; [exact HG|]).
      1,3: apply ls_again. done.
    + intros [= <-]. by apply ls_res_cleanup.
  - revert H. rewrite /proc_delay. destruct (procs s !! a) as [p|]; [|done].
    destruct (match x_shutdown p with Some _ => _ | None => _ end).
    + intros [= <-]. by apply ls_res_cleanup.
    + destruct (Qle_bool _ _); [|done]. intros [= <-]. apply ls_again.
Qed.
Lemma ls_lines a fd ls s : lsame s (log_lines a fd ls s).
Proof. rewrite /log_lines. revert s. induction ls as [|l ls IH]; intros s; simpl; [done|]. etrans; [|apply IH]. done. Qed.
Lemma ls_shutdown a sg s : lsame s (shutdown_process a sg s).1.
Proof.
  rewrite /shutdown_process. set (s0 := obs1 _ s). assert (lsame s s0) as H0 by done. clearbody s0.
  destruct (procs s0 !! a) as [p|] eqn:Ep; [|done]. destruct (x_shutdown p) as [sf|]; [|done].
  destruct (f_is_done sf s0) eqn:Hsf; [done|].
  assert (forall (k : unit -> st -> st * res (list entity)), (forall s, lsame s (k tt s).1) -> lsame s (bindS (set_result sf) k s0).1) as HB.
  { intros k Hk. pose proof (ls_set_result sf s0) as H1.
    rewrite /bindS. destruct (set_result sf s0) as [s1 [[]|e|]]; simpl in *; (etrans; [exact H0|]); try done. etrans; [exact H1|apply Hk]. }
  destruct (x_completed p) as [cf|]; [|by apply HB].
  destruct (f_is_done cf s0); [by apply HB|].
  destruct (x_det p) as [d|], (x_transport p) as [f|].
  2-4: simpl; (etrans; [exact H0|]); split_and!; try done; simpl; lia.
  apply HB. intros s1. split_and!; try done; simpl; lia.
Qed.
Lemma ls_io a e s : lsame s (proc_io a e s).1.
Proof.
  rewrite /proc_io. destruct e; try done. destruct (procs s !! a) as [p|]; [|done].
  set (s0 := obs1 _ s). assert (lsame s s0) as H0 by done. clearbody s0.
  set (b := match fd with Stdout => _ | Stderr => _ end). clearbody b.
  destruct ((if p_cached (x_cfg p) then on_output_cached else on_output) a fd text b s0) as [b' s'] eqn:E.
  assert (lsame s0 s') as H1.
  { move: E. destruct (p_cached _).
    - rewrite /on_output_cached. destruct (split_lines _ _). intros [= _ <-]. apply ls_lines.
    - rewrite /on_output. destruct (b_closed b); [by intros [= _ <-]|]. destruct (split_lines _ _).
      intros [= _ <-]. apply ls_lines. }
  simpl. etrans; [exact H0|]. etrans; [exact H1|]. done.
Qed.
Lemma ls_flush a s : lsame s (proc_flush a s).1.
Proof.
  rewrite /proc_flush. destruct (procs s !! a) as [p|]; [|done]. destruct (p_cached _).
  - set (s0 := obs1 _ s). assert (lsame s s0) as H0 by done. clearbody s0. rewrite /flush_cached_one.
    destruct (split_lines _ _) as [l1 r1]. destruct (split_lines _ _) as [l2 r2]. simpl.
    etrans; [exact H0|]. etrans; [apply ls_lines|]. etrans; [apply ls_lines|]. done.
  - destruct (b_closed _); [done|]. set (s0 := obs1 _ s). assert (lsame s s0) as H0 by done. clearbody s0.
    simpl. etrans; [exact H0|]. rewrite /flush_one.
    by destruct (_ =? "")%string; destruct (_ =? "")%string.
Qed.
Lemma lent_micro s s' : micro w s s' -> lent s s'.
Proof.
  intros H. assert (lsame s s' -> lent s s') as HL by (intros (?&?&?&?); by apply lent_same).
  destruct H; try (apply HL; done).
  - destruct H. by constructor.
  - apply HL, ls_cancel.
  - apply HL. destruct H2 as (_ & _ & E & _). split_and!; try done; simpl; lia.
  - apply HL. split_and!; try done; simpl; lia.
  - apply HL. match goal with HH : prepare_executable _ _ _ = _ |- _ => apply O_prepare_executable in HH as (c & n & pc & Hn1 & Hn2 & Hn3 & (_ & _ & E) & ->) end. split_and!; try done; simpl; try lia.
  - apply HL. destruct H8 as (_ & _ & E). split_and!; try done; simpl; lia.
  - apply HL, ls_shutdown.
  - apply HL, ls_io.
  - apply HL, ls_flush.
  - apply HL. by eapply ls_task_step.
  - apply HL. revert H. rewrite /spawn_ok. destruct (tasks s !! i) as [[]|]; try done. intros [= <-]. split_and!; try done; simpl; lia.
  - apply HL. revert H. rewrite /spawn_fail. destruct (tasks s !! i) as [[]|] eqn:Ei; try done. intros [= <-]. by apply ls_res_cleanup.
  - apply HL. revert H. rewrite /proc_exit. destruct (tasks s !! i) as [t|] eqn:Ei; [|done].
    destruct t; try done; destruct rc0; try done; intros [= <-].
    all: exact (ls_set_result complete s).
Qed.
End alive.
