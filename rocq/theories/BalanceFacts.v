(** Lemmas for C105. *)
From Coq Require Import ssreflect.
From Verif Require Import StrFacts SubstFacts ArgsFacts ExecFacts VisitFacts ActionFacts HandleFacts StepFacts EventFacts SpecBalance OpenFacts OpenEvents.

Section balance.
Context (w : world).
Definition K (s s' : st) : Prop := as_before (cx s) (cx s').
#[local] Instance K_preorder : PreOrder K.
Proof.
  split.
  - intros s. split_and!; try done. intros k ->. by intros [].
  - intros s1 s2 s3 (A1 & A2 & A3 & A4 & A5 & A6 & A7 & A8) (B1 & B2 & B3 & B4 & B5 & B6 & B7 & B8).
    split_and!; try congruence; [by etrans|]. intros k Hk Hs. destruct (lc (cx s2) !! k) eqn:E; [apply A8; [done|by rewrite E]|by apply B8].
Qed.
Lemma K_same s s' : lc (cx s') = lc (cx s) -> env (cx s') = env (cx s) -> globals (cx s') = globals (cx s) -> locals (cx s') = locals (cx s) ->
  lc_stack (cx s') = lc_stack (cx s) -> env_stack (cx s') = env_stack (cx s) -> locals_stack (cx s') = locals_stack (cx s) -> K s s'.
Proof. intros E **. rewrite /K /as_before E. split_and!; try done. intros k ->. by intros []. Qed.
Ltac same := apply K_same; reflexivity.
Lemma K_cx s s' : cx s' = cx s -> K s s'.
Proof. intros E. rewrite /K E. change (K s s). reflexivity. Qed.
Lemma K_on_ctx {A} (m : ctx -> ctx * res A) s s' r : frames m -> on_ctx m s = (s', r) -> K s s'.
Proof.
  intros Hm [E _]%on_ctx_inv. apply Hm in E as [E1 E2 E3 _ _]. rewrite /K.
  repeat split; [by rewrite E1..|exact E2|exact E3].
Qed.
Lemma set_result_cx f s : cx (set_result f s).1 = cx s.
Proof. rewrite /set_result. repeat case_match; done. Qed.
Lemma timer_cancel_cx t s : cx (timer_cancel t s) = cx s.
Proof. rewrite /timer_cancel. cbv zeta. repeat case_match; try done. by rewrite set_result_cx. Qed.
Lemma task_res_cx i r : cx (task_res i r) = cx r.1.
Proof. destruct r as [s [u|x|]]; done. Qed.
Lemma cleanup_cx a s : cx (cleanup a s).1 = cx s.
Proof.
  rewrite /cleanup. destruct (procs s !! a) as [p|]; [|done].
  set (s1 := match x_sigterm p with Some t => timer_cancel t s | None => s end).
  assert (cx s1 = cx s) as E1. { rewrite /s1. destruct (x_sigterm p); [apply timer_cancel_cx|done]. }
  set (s2 := match x_sigkill p with Some t => timer_cancel t s1 | None => s1 end).
  assert (cx s2 = cx s) as E2. { rewrite /s2. destruct (x_sigkill p); [by rewrite timer_cancel_cx|done]. }
  set (s3 := match x_transport p with Some f => _ | None => s2 end).
  assert (cx s3 = cx s) as E3. { rewrite /s3. by destruct (x_transport p). }
  destruct (x_completed p); [by rewrite set_result_cx|done].
Qed.
Lemma K_shut r b s : K s (svc_shutdown r b s).
Proof. rewrite /svc_shutdown. destruct (shutting_down s); same. Qed.
Lemma K_task i s s' : task_step w i s = Some s' -> K s s'.
Proof.
  rewrite /task_step. destruct (tasks s !! i) as [t|]; [|done]. destruct t as [a|a f dl|a|a d|a f d rc|a f d rc|a dl|]; try done.
  - rewrite /timer_init. destruct (timers s !! a) as [t|]; [|done]. destruct (on_ctx (perform_fval w (t_period t)) s) as [s1 r] eqn:E.
    assert (K s s1) as H1. { eapply K_on_ctx; [apply (perform_fval_frame w (t_period t))|exact E]. }
    destruct (t_canceled_fut t), r; intros [= <-]; (etrans; [exact H1|same]).
  - rewrite /timer_wake. destruct (_ || _); [|done]. destruct (timers s !! a) as [t|]; [|done].
    destruct (t_canceled_fut t) as [fx|], (t_completed t) as [fc|]; try done. intros [= <-].
    destruct (f_is_done fx s).
    + apply K_cx. by rewrite task_res_cx set_result_cx.
    + etrans; [|apply K_cx; by rewrite task_res_cx set_result_cx]. same.
  - rewrite /proc_init. destruct (procs s !! a) as [p|]; [|done]. destruct (x_det p) as [d|]; [|intros [= <-]; same].
    destruct (lc (cx s) !! "emulate_tty") as [v|].
    + destruct (on_ctx _ s) as [s1 r] eqn:E.
      assert (K s s1) as H1. { eapply K_on_ctx; [apply (evaluate_frame w (CIf [SText v]))|exact E]. }
      destruct r; intros [= <-]; (etrans; [exact H1|same]).
    + intros [= <-]. same.
  - intros [= <-]. same.
  - destruct rc as [rc|]; [|done]. rewrite /proc_exited. destruct (procs s !! a) as [p|]; [|done]. set (s1 := emit _ _).
    assert (K s s1) as H1 by same.
    destruct (_ && _); [|intros [= <-]; etrans; [exact H1|]; apply K_cx; by rewrite task_res_cx cleanup_cx].
    assert (forall s2, K s s2 -> K s (proc_again i a s2)) as Ha.
    { intros s2 H2. etrans; [exact H2|]. rewrite /proc_again. destruct (loop_set _); same. }
    destruct (p_delay (x_cfg p)) as [q|]; [destruct (Qle_bool q 0)|]; intros [= <-]; try (apply Ha; etrans; [exact H1|same]).
    etrans; [exact H1|same].
  - rewrite /proc_delay. destruct (procs s !! a) as [p|]; [|done]. case_match.
    + intros [= <-]. apply K_cx. by rewrite task_res_cx cleanup_cx.
    + destruct (Qle_bool dl (now s)); [|done]. intros [= <-]. rewrite /proc_again. destruct (loop_set _); same.
Qed.
Lemma between l s s' : (forall n, l <> LEvent n) -> (forall ops, l <> LUser ops) -> step w l s = Some s' -> K s s'.
Proof.
  intros HE HU. destruct l; cbn [step]; rewrite /loop_step.
  all: try match goal with |- (if in_loop ?x then _ else _) = _ -> _ => destruct (in_loop x) eqn:Hil; [|done] end.
  - rewrite /run_step. repeat case_match; intros [= <-]; same.
  - destruct (rpc s); try done. intros [= <-]. rewrite /main_step. cbv zeta.
    destruct (_ && _); [etrans; [|apply K_shut]; same|]. destruct (_ && _); same.
  - destruct (rpc s); try done. rewrite /wake_step. cbv zeta. destruct (_ || _); [|done]. intros [= <-].
    destruct (existsb _ _); [same|]. destruct (_ || _); [|same]. etrans; [apply (K_shut "exception" false)|same].
  - destruct (rpc s), (sdt s); try done. intros [= <-]. same.
  - by destruct (HE fuel).
  - destruct (rpc s); try done. destruct (unretrieved s); [|done]. intros [= <-]. same.
  - destruct (rpc s); try done. intros [= <-]. destruct (sigint_seen s); [same|]. etrans; [apply (K_shut "ctrl-c (SIGINT)" true)|same].
  - destruct (rpc s); try done. intros [= <-]. same.
  - intros [= <-]. same.
  - destruct (sdt s); try done. destruct (loop_thread s); [destruct (shutting_down s)|]; intros [= <-]; same.
  - destruct (sdt s); try done. intros [= <-]. same.
  - destruct (sdt s); try done. destruct (in_loop s); [|done]. intros [= <-]. same.
  - destruct (sdt s); try done. intros [= <-]. same.
  - destruct (sdt s); try done. destruct (in_loop s); [|done]. destruct (loop_thread s); [|intros [= <-]; same].
    destruct awaited; intros [= <-]; [apply K_shut|same].
  - by destruct (HU ops).
  - destruct (_ && _); [|done]. intros [= <-]. same.
  - apply K_task.
  - destruct (cbs s !! i) as [[f e]|]; [|done]. destruct (f_is_done f s); [|done]. intros [= <-]. same.
  - destruct (Qle_bool 0 d); [|done]. intros [= <-]. same.
  - rewrite /spawn_ok. destruct (tasks s !! i) as [[]|]; try done. intros [= <-]. same.
  - rewrite /spawn_fail. destruct (tasks s !! i) as [[]|]; try done. intros [= <-]. apply K_cx. by rewrite task_res_cx cleanup_cx.
  - destruct (pipes s !! i) as [[[? ?] ?]|]; [|done]. intros [= <-]. same.
  - rewrite /proc_exit. destruct (tasks s !! i) as [[]|]; try done; destruct rc0; try done; intros [= <-]; apply K_cx; simpl; apply set_result_cx.
Qed.
Lemma shut_lc r b s : lc (cx (svc_shutdown r b s)) = lc (cx s).
Proof. rewrite /svc_shutdown. by destruct (shutting_down s). Qed.
Lemma between_lc l s s' : (forall n, l <> LEvent n) -> (forall ops, l <> LUser ops) -> (forall i, l <> LTask i) ->
  step w l s = Some s' -> lc (cx s') = lc (cx s).
Proof.
  intros HE HU HT. destruct l; cbn [step]; rewrite /loop_step.
  all: try match goal with |- (if in_loop ?x then _ else _) = _ -> _ => destruct (in_loop x) eqn:Hil; [|done] end.
  - rewrite /run_step. repeat case_match; intros [= <-]; reflexivity.
  - destruct (rpc s); try done. intros [= <-]. rewrite /main_step. cbv zeta.
    destruct (_ && _); [by rewrite shut_lc|]. destruct (_ && _); reflexivity.
  - destruct (rpc s); try done. rewrite /wake_step. cbv zeta. destruct (_ || _); [|done]. intros [= <-].
    destruct (existsb _ _); [reflexivity|]. destruct (_ || _); [|reflexivity]. exact (shut_lc "exception" false s).
  - destruct (rpc s), (sdt s); try done. intros [= <-]. reflexivity.
  - by destruct (HE fuel).
  - destruct (rpc s); try done. destruct (unretrieved s); [|done]. intros [= <-]. reflexivity.
  - destruct (rpc s); try done. intros [= <-]. destruct (sigint_seen s); [reflexivity|]. exact (shut_lc "ctrl-c (SIGINT)" true s).
  - destruct (rpc s); try done. intros [= <-]. reflexivity.
  - intros [= <-]. reflexivity.
  - destruct (sdt s); try done. destruct (loop_thread s); [destruct (shutting_down s)|]; intros [= <-]; reflexivity.
  - destruct (sdt s); try done. intros [= <-]. reflexivity.
  - destruct (sdt s); try done. destruct (in_loop s); [|done]. intros [= <-]. reflexivity.
  - destruct (sdt s); try done. intros [= <-]. reflexivity.
  - destruct (sdt s); try done. destruct (in_loop s); [|done]. destruct (loop_thread s); [|intros [= <-]; reflexivity].
    destruct awaited; intros [= <-]; [apply shut_lc|reflexivity].
  - by destruct (HU ops).
  - destruct (_ && _); [|done]. intros [= <-]. reflexivity.
  - by destruct (HT i).
  - destruct (cbs s !! i) as [[f e]|]; [|done]. destruct (f_is_done f s); [|done]. intros [= <-]. reflexivity.
  - destruct (Qle_bool 0 d); [|done]. intros [= <-]. reflexivity.
  - rewrite /spawn_ok. destruct (tasks s !! i) as [[]|]; try done. intros [= <-]. reflexivity.
  - rewrite /spawn_fail. destruct (tasks s !! i) as [[]|]; try done. intros [= <-]. by rewrite task_res_cx cleanup_cx.
  - destruct (pipes s !! i) as [[[? ?] ?]|]; [|done]. intros [= <-]. reflexivity.
  - rewrite /proc_exit. destruct (tasks s !! i) as [[]|]; try done; destruct rc0; try done; intros [= <-]; simpl; by rewrite set_result_cx.
Qed.
Lemma user_stacks ops s s' : wfu s -> step w (LUser ops) s = Some s' -> same_stacks s s'.
Proof.
  intros [Hw _]. cbn [step]. rewrite /loop_step. destruct (in_loop s); [|done]. intros [= <-].
  assert (gframe w inner true s (apply_ops ops s)) as HF by (by apply (apply_ops_frame w)). by apply (vf_stacks _ _ _ _ _ HF).
Qed.
Lemma other_stacks l s s' : wfu s -> (forall n, l <> LEvent n) -> step w l s = Some s' -> same_stacks s s'.
Proof.
  intros Hw HE E. assert ((exists ops, l = LUser ops) \/ ~ exists ops, l = LUser ops) as [[ops ->]|HU] by (destruct l; first [left; by eexists|right; by intros [? ?]]).
  - by eapply user_stacks.
  - destruct (between l s s' HE) as (_ & _ & _ & HL & HS & _); [|done|done]. intros ops ->. by apply HU; eexists.
Qed.
End balance.
Section history.
Context (w : world) (HW : clean_world w).
Lemma is_event (l : label) : (exists n, l = LEvent n) \/ ~ exists n, l = LEvent n.
Proof. destruct l; first [left; by eexists|right; by intros [? ?]]. Qed.
Lemma event_processes n s s' : wfu s -> step w (LEvent n) s = Some s' -> exists e r, head (queue (cx s)) = Some e /\ r <> OutOfFuel /\ processes w s e r s'.
Proof.
  intros Hw E. destruct (step_cases w _ _ _ Hw E) as [(_ & H & _)|[(i & f & e' & [=] & _)|H]]; [by destruct (H n)|].
  destruct H as (fuel & e & q & s2 & r & [= ->] & _ & _ & Hq & _ & Hr & Hs). exists e, r. rewrite Hq. split_and!; [done|done|].
  exists fuel. rewrite Hq. split_and!; [done|done|by subst s'].
Qed.
Lemma reachable_step l s s' : reachable w s -> step w l s = Some s' -> reachable w s'.
Proof. intros (ni & e & ls & H) E. exists ni, e, (ls ++ [l]). induction H; [by econstructor; [|constructor]|]. econstructor; [done|]. by apply IHsteps. Qed.
Definition grown (s s' : st) : Prop := exists ls es, length ls = length es /\
  lc_stack (cx s') = ls ++ lc_stack (cx s) /\ env_stack (cx s') = es ++ env_stack (cx s).
Lemma run_grows s ls s' : steps w s ls s' -> reachable w s -> without_raw w s ls -> grown s s'.
Proof.
  induction 1 as [s|s l s1 ls s2 E _ IH]; intros Hr Hc.
  - by exists [], [].
  - destruct IH as (l2 & e2 & Hlen & HL & HE); [by eapply reachable_step| |].
    { intros before n after t e -> Ht. apply (Hc (l :: before) n after t e eq_refl). by econstructor. }
    assert (grown s s1) as (l1 & e1 & Hlen1 & HL1 & HE1).
    { destruct (is_event l) as [[n ->]|Hn].
      - destruct (event_processes n s s1 (reachable_wfu _ _ Hr) E) as (e & r & Hq & Hf & Hp).
        assert (brings_clean w s e) as Hc1 by (apply (Hc [] n ls s e eq_refl); [constructor|done]).
        destruct (event_ends w HW s e r s1 Hr Hc1 Hp) as (s3 & He & Hx). rewrite /grown Hx. destruct r as [u|x|]; [| |done].
        + destruct He as (_ & _ & [HL3 HE3]). exists [], []. by rewrite HL3 HE3.
        + destruct He as (cs & _ & HL3 & HE3). exists (map lc cs), (map env cs). by rewrite !map_length.
      - destruct (other_stacks w l s s1 (reachable_wfu _ _ Hr)) as [HL1 HE1]; [|done|].
        { intros n ->. by apply Hn; eexists. } exists [], []. by rewrite HL1 HE1. }
    exists (l2 ++ l1), (e2 ++ e1). rewrite !app_length HL HE HL1 HE1 -!app_assoc. split_and!; [lia|done|done].
Qed.
Lemma run_balanced s ls s' : steps w s ls s' -> reachable w s -> without_raw w s ls -> all_return w s ls -> same_stacks s s'.
Proof.
  induction 1 as [s|s l s1 ls s2 E _ IH]; intros Hr Hc Ha; [done|].
  eapply same_stacks_trans; [|apply IH].
  - destruct (is_event l) as [[n ->]|Hn].
    + destruct (event_processes n s s1 (reachable_wfu _ _ Hr) E) as (e & r & Hq & Hf & Hp).
      assert (brings_clean w s e) as Hc1 by (apply (Hc [] n ls s e eq_refl); [constructor|done]).
      assert (r = Ok tt) as ->. { pose proof (Ha [] n ls s s1 eq_refl (steps_nil _ _) E) as H. destruct Hp as (? & _ & _ & H2). congruence. }
      destruct (event_ends w HW s e _ s1 Hr Hc1 Hp) as (s3 & (_ & _ & [HL3 HE3]) & Hx). split; congruence.
    + apply (other_stacks w l s s1 (reachable_wfu _ _ Hr)); [|done]. intros n ->. by apply Hn; eexists.
  - by eapply reachable_step.
  - intros before n after t e -> Ht. apply (Hc (l :: before) n after t e eq_refl). by econstructor.
  - intros before n after t t' -> Ht. apply (Ha (l :: before) n after t t' eq_refl). by econstructor.
Qed.
Lemma run_locals s ls s' : steps w s ls s' -> reachable w s -> all_return w s ls -> (forall ops, ~ In (LUser ops) ls) ->
  locals (cx s') = locals (cx s) /\ locals_stack (cx s') = locals_stack (cx s).
Proof.
  induction 1 as [s|s l s1 ls s2 E _ IH]; intros Hr Ha HU; [done|].
  assert (locals (cx s1) = locals (cx s) /\ locals_stack (cx s1) = locals_stack (cx s)) as [<- <-].
  - destruct (is_event l) as [[n ->]|Hn].
    + destruct (event_processes n s s1 (reachable_wfu _ _ Hr) E) as (e & r & Hq & Hf & Hp).
      assert (r = Ok tt) as ->. { pose proof (Ha [] n ls s s1 eq_refl (steps_nil _ _) E) as H. destruct Hp as (? & _ & _ & H2). congruence. }
      destruct (C05_isolated w s s1 e Hr Hp) as [_ H]. exact H.
    + destruct (between w l s s1) as (_ & _ & HL & _ & _ & HS & _); [| |exact E|by split].
      * intros n ->. by apply Hn; eexists.
      * intros ops ->. apply (HU ops). by left.
  - apply IH; [by eapply reachable_step| |intros ops Hi; apply (HU ops); by right].
    intros before n after t t' -> Ht. apply (Ha (l :: before) n after t t' eq_refl). by econstructor.
Qed.
End history.
Lemma resets w ni e ls s n a c s' fs : steps w (init ni e) ls s -> cond_holds w c (cx s) ->
  visit_all w n (EAct a c AResetEnv) s = (s', Ok fs) -> env (cx s') = e.
Proof.
  intros He%env_reset_inv Hc E. destruct (proj1 (visit_all_run w n) _ _ _ _ E) as [t Ht].
  apply visit_run_inv in Ht as (fuel & subs & s1 & kids & gs & E1 & Hr & _ & _).
  rewrite visit_one_act in E1. cbv zeta in E1. pose proof (cond_holds_result w c (cx s) Hc) as Hcr.
  assert (env_reset (cond_result w c (cx s)).1 = e) as H1.
  { rewrite -He. destruct c as [c|]; [|done]. simpl. destruct (evaluate w c (cx s)) as [c1 r1] eqn:Ec.
    apply (evaluate_frame w c) in Ec as [-> _ _ _ _]. done. }
  destruct (cond_result w c (cx s)) as [c1 r1]. simpl in Hcr, H1. subst r1. simpl in E1. injection E1 as E1 Es. subst subs.
  apply visit_runs_nil_inv in Hr as (_ & _ & ->). rewrite -E1.
  match goal with |- env (cx (complete_action w ?x ?b ?t)) = _ => pose proof (complete_action_ctx w x b t) as Hq end.
  apply same_but_queue_lc in Hq as (_ & Hq & _). rewrite Hq. exact H1.
Qed.
