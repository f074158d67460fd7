(** Lemmas for C102: what ends by itself. *)
From Coq Require Import ssreflect.
From Verif Require Import StrFacts SubstFacts ArgsFacts ExecFacts VisitFacts ActionFacts SpecNesting NestingFacts.

Definition nf {S A} (m : S -> S * res A) : Prop := forall s s', m s = (s', OutOfFuel) -> False.
Lemma nf_ret {S A} (a : A) : nf (@retS S A a).
Proof. by intros s s'. Qed.
Lemma nf_raise {S A} e : nf (@raiseS S A e).
Proof. by intros s s'. Qed.
Lemma nf_mod {S} (f : S -> S) : nf (modS f).
Proof. by intros s s'. Qed.
Lemma nf_lift {S A} (r : res A) : r <> OutOfFuel -> nf (@liftS S A r).
Proof. by intros H s s' [= _ ?]. Qed.
Lemma nf_bind {S A B} (m : S -> S * res A) (k : A -> S -> S * res B) : nf m -> (forall a, nf (k a)) -> nf (bindS m k).
Proof. intros H1 H2 s s'. rewrite /bindS. destruct (m s) as [s1 [a|e|]] eqn:E; [apply H2|done|by destruct (H1 _ _ E)]. Qed.
Lemma nf_as_failure {S A} (m : S -> S * res A) : nf m -> nf (as_failure m).
Proof. intros H s s'. rewrite /as_failure. destruct (m s) as [s1 [a|e|]] eqn:E; [done|done|by destruct (H _ _ E)]. Qed.
Lemma nf_on_ctx {A} (m : ctx -> ctx * res A) : nf m -> nf (on_ctx m).
Proof. intros H s s'. rewrite /on_ctx. destruct (m (cx s)) as [c r] eqn:E. intros [= _ ->]. by destruct (H _ _ E). Qed.
Lemma nf_get_local k : nf (get_local k).
Proof. intros c c'. rewrite /get_local. destruct (get_combined_locals c) as [c1 d]. by destruct (d !! k). Qed.
Lemma coerce_bool_nf w t : coerce_bool w t <> OutOfFuel.
Proof. rewrite /coerce_bool /= /convert_as_yaml /pv_bool /res_bind. repeat case_match; simplify_eq; done. Qed.
Lemma coerce_float_nf w t : coerce_float w t <> OutOfFuel.
Proof. rewrite /coerce_float /= /res_bind. repeat case_match; simplify_eq; done. Qed.
Lemma local_text_nf v : local_text v <> OutOfFuel.
Proof. by destruct v. Qed.
Lemma expression_nf t : evaluate_expression_text t <> OutOfFuel.
Proof. rewrite /evaluate_expression_text. repeat case_match; done. Qed.

Section performing.
Context (w : world) (Hw : functions_return w).
Lemma performs_nf l : Forall (fun x => nf (perform w x)) l -> nf (perform_substitutions w l).
Proof.
  induction 1 as [|x l Hx Hl IH]; simpl; [apply nf_ret|].
  apply nf_bind; [done|]. intros a. apply nf_bind; [done|]. intros. apply nf_ret.
Qed.
Lemma perform_bool_nf l : Forall (fun x => nf (perform w x)) l -> nf (perform_bool w l).
Proof. intros H. apply nf_as_failure, nf_bind; [by apply performs_nf|]. intros. apply nf_lift, coerce_bool_nf. Qed.
Lemma perform_bools_nf ls : Forall (Forall (fun x => nf (perform w x))) ls -> nf (perform_bools w ls).
Proof.
  induction 1 as [|x l Hx Hl IH]; simpl; [apply nf_ret|].
  apply nf_bind; [by apply perform_bool_nf|]. intros a. apply nf_bind; [done|]. intros. apply nf_ret.
Qed.
Lemma perform_each_nf l : Forall (fun x => nf (perform w x)) l -> nf (perform_each w l).
Proof.
  induction 1 as [|x l Hx Hl IH]; simpl; [apply nf_ret|].
  apply nf_bind; [done|]. intros a. apply nf_bind; [done|]. intros. apply nf_ret.
Qed.
Lemma perform_list_nf' ls : Forall (Forall (fun x => nf (perform w x))) ls -> nf (perform_list w ls).
Proof.
  induction 1 as [|x l Hx Hl IH]; simpl; [apply nf_ret|].
  apply nf_bind; [by apply performs_nf|]. intros a. apply nf_bind; [done|]. intros. apply nf_ret.
Qed.
Lemma perform_nf x : nf (perform w x).
Proof.
  induction x using subst_ind'; intros c c' Hp; rewrite perform_unfold in Hp; revert c c' Hp; simpl.
  all: try match goal with |- forall c c', ?f c = _ -> _ => change (nf f) end.
  - apply nf_ret.
  - apply nf_bind; [by apply performs_nf|]. intros a c c'. destruct (lc c !! a); [done|]. destruct d as [d|]; [|done]. by apply performs_nf.
  - apply nf_bind.
    { destruct d as [d|]; [|apply nf_ret]. apply nf_bind; [by apply performs_nf|]. intros; apply nf_ret. }
    intros a. apply nf_bind; [by apply performs_nf|]. intros b c c'. by destruct (env c !! b), a.
  - apply nf_bind; [by apply perform_bool_nf|]. intros; apply nf_ret.
  - apply nf_bind; [by apply perform_bool_nf|]. intros. apply nf_bind; [by apply perform_bool_nf|]. intros; apply nf_ret.
  - apply nf_bind; [by apply perform_bool_nf|]. intros. apply nf_bind; [by apply perform_bool_nf|]. intros; apply nf_ret.
  - apply nf_bind; [by apply perform_bools_nf|]. intros; apply nf_ret.
  - apply nf_bind; [by apply perform_bools_nf|]. intros; apply nf_ret.
  - apply nf_bind; [by apply performs_nf|]. intros. apply nf_bind; [by apply performs_nf|]. intros; apply nf_ret.
  - apply nf_bind; [by apply performs_nf|]. intros. apply nf_bind; [by apply performs_nf|]. intros; apply nf_ret.
  - apply nf_bind; [by apply perform_bool_nf|]. intros []; by apply performs_nf.
  - apply nf_bind; [by apply performs_nf|]. intros a c c'. simpl. by destruct (lc c !! _) eqn:E.
  - apply nf_bind; [by apply perform_each_nf|]. intros [|a b]; [apply nf_raise|apply nf_ret].
  - intros c c'. destruct (get_combined_locals c) as [c1 d]. destruct (d !! _) as [v|]; [|done]. intros [= _ H]. by apply (local_text_nf v).
  - intros c c'. destruct (get_combined_locals c) as [c1 d]. destruct (d !! _) as [v|]; [|done]. intros [= _ H]. by apply (local_text_nf v).
  - apply nf_bind; [apply nf_get_local|]. intros; apply nf_lift, local_text_nf.
  - apply nf_bind; [by apply perform_list_nf'|]. intros ts c c' [= _ Hs]. by apply (proj1 Hw) in Hs.
Qed.
Lemma nf_perform l : nf (perform_substitutions w l).
Proof. apply performs_nf, Forall_forall. intros. apply perform_nf. Qed.
Lemma nf_perform_list l : nf (perform_list w l).
Proof. apply perform_list_nf', Forall_forall. intros. apply Forall_forall. intros. apply perform_nf. Qed.
Lemma nf_bval b : nf (perform_bval w b).
Proof. destruct b; [apply nf_ret|]. apply nf_bind; [apply nf_perform|]. intros; apply nf_lift, coerce_bool_nf. Qed.
Lemma nf_fval b : nf (perform_fval w b).
Proof.
  destruct b; simpl; [apply nf_ret| |].
  - apply nf_bind; [apply nf_perform|]. intros; apply nf_lift, coerce_float_nf.
  - apply nf_bind; [apply nf_perform|]. intros. apply nf_bind; [apply nf_perform|]. intros.
    destruct (py_float a0), (py_float a1); try apply nf_ret; apply nf_raise.
Qed.
Lemma nf_expression l : nf (evaluate_condition_expression w l).
Proof. apply nf_bind; [apply nf_perform|]. intros; apply nf_lift, expression_nf. Qed.
Lemma nf_lc_equals n e : nf (lc_equals w n e).
Proof.
  apply nf_bind; [|by intros x c c' [=]].
  destruct e; [|apply nf_ret]. apply nf_bind; [apply nf_perform|]. intros; apply nf_ret.
Qed.
Lemma nf_evaluate k : nf (evaluate w k).
Proof.
  destruct k; simpl.
  - apply nf_expression.
  - apply nf_bind; [apply nf_expression|]. intros; apply nf_ret.
  - apply nf_lc_equals.
  - apply nf_bind; [apply nf_lc_equals|]. intros; apply nf_ret.
  - by intros c c' [=].
Qed.
End performing.

Section exec.
Context (w : world) (Hw : functions_return w).
Notation P := nf.
Lemma P_perform l : P (perform_st w l).
Proof. by apply nf_on_ctx, nf_perform. Qed.
Lemma P_bval b : P (on_ctx (perform_bval w b)).
Proof. by apply nf_on_ctx, nf_bval. Qed.
Lemma P_fval b : P (on_ctx (perform_fval w b)).
Proof. by apply nf_on_ctx, nf_fval. Qed.
Lemma P_list l : P (on_ctx (perform_list w l)).
Proof. by apply nf_on_ctx, nf_perform_list. Qed.
Lemma P_get_local k : P (on_ctx (get_local k)).
Proof. apply nf_on_ctx, nf_get_local. Qed.
Lemma P_set_result f : P (set_result f).
Proof. intros s s'. rewrite /set_result. by destruct (futs s !! f) as [[]|]. Qed.
Lemma P_fresh : P fresh.
Proof. by intros s s'. Qed.
Lemma P_need_loop {A} (m : st -> st * res A) : P m -> P (need_loop m).
Proof. intros H s s'. rewrite /need_loop. destruct (loop_set (cx s)); [apply H|done]. Qed.
Lemma P_unregister i : P (unregister i).
Proof. intros s s'. rewrite /unregister /on_ctx /unregister_event_handler. by destruct (remove_first i _) as [l|] eqn:E. Qed.
Ltac pr := repeat first
  [ apply nf_ret | apply nf_raise | apply P_perform | apply P_bval | apply P_fval | apply P_list
  | apply P_get_local | apply P_set_result | apply P_fresh | apply nf_mod | apply P_unregister
  | apply nf_bind; [|intros ?] ].
Lemma P_call_user f : P (call_user w f).
Proof.
  intros s s'. rewrite /call_user. destruct (w_fun w f (cx s)) as [ops x] eqn:Ef. intros [= _ ->].
  destruct Hw as (_ & H & _). apply (H f (cx s)). by rewrite Ef.
Qed.
Lemma P_eval_cfgs l acc : P (eval_cfgs w l acc).
Proof. revert acc. induction l as [|[k v] l IH]; intros acc; simpl; pr. apply IH. Qed.
Lemma P_eval_env l acc : P (eval_env w l acc).
Proof. revert acc. induction l as [|[k v] l IH]; intros acc; simpl; pr. apply IH. Qed.
Lemma P_get_ld src : P (get_launch_description w src).
Proof.
  rewrite /get_launch_description. apply nf_bind.
  - intros s s'. destruct (srcs s !! src) as [[[l|] x]|]; [done|..].
    all: match goal with |- ?m ?s3 = _ -> _ => assert (P m) as HP; [|apply HP] end; pr.
  - intros loc s s'. destruct (srcs s !! src) as [[l [x|]]|]; [done|..].
    all: destruct (w_load w src loc _) eqn:E; try done; intros _; destruct Hw as (_ & _ & H); by apply H in E.
Qed.
Lemma P_event_of_locals : P event_of_locals.
Proof. rewrite /event_of_locals. pr. destruct a; pr. Qed.
Lemma P_exec_timer a p b c : P (exec_timer w a p b c).
Proof.
  rewrite /exec_timer. apply P_need_loop. intros s s'. simpl.
  set (canc := match timers s !! a with Some t => _ | None => _ end). set (s3 := _ <| timers ::= _ |>). destruct canc.
  - destruct (set_result _ s3) as [s4 r4] eqn:E4.
    intros [= _ Hr]. destruct r4; try done. by eapply P_set_result.
  - match goal with |- ?m s3 = _ -> _ => assert (P m) as HP; [|apply HP] end. pr.
    + intros s4 s5. destruct (timer_installed (cx s4)); [done|].
      match goal with |- ?m s4 = _ -> _ => assert (P m) as HP; [|apply HP] end. pr.
    + apply nf_on_ctx. intros c1 c2. by destruct (get_combined_locals c1) as [c3 d] eqn:Eg.
    + destruct a4; rewrite /register_noted; pr.
Qed.
Lemma P_exec_coro a : P (exec_coro a).
Proof.
  rewrite /exec_coro. apply P_need_loop. intros s s'. simpl.
  match goal with |- ?m ?s3 = _ -> _ => assert (P m) as HP; [|apply HP] end. rewrite /register_noted. pr.
Qed.
Lemma P_prepare_executable c : P (prepare_executable w c).
Proof.
  rewrite /prepare_executable. pr.
  - destruct (p_prefix c); pr. destruct a; pr.
  - destruct a0; pr.
  - destruct (p_name c); pr. destruct a1; pr.
  - intros s s'. match goal with |- ?m ?s3 = _ -> _ => assert (P m) as HP; [|apply HP] end. pr.
    + destruct (p_cwd c); pr.
    + destruct (p_env c); [apply P_eval_env|by intros ? ?].
    + destruct (p_addenv c); [apply P_eval_env|pr].
Qed.
Lemma P_prepare_proc a : P (prepare_proc w a).
Proof.
  intros s s'. rewrite /prepare_proc. destruct (procs s !! a) as [p|]; [|done].
  match goal with |- ?m ?s3 = _ -> _ => assert (P m) as HP; [|apply HP] end.
  apply nf_bind; [apply P_prepare_executable|intros d]. pr.
Qed.
Lemma P_unregister_all hs : P (unregister_all hs).
Proof. induction hs as [|h hs IH]; simpl; pr. exact IH. Qed.
Lemma P_guard hs m : P m -> P (guard_handlers hs m).
Proof.
  intros Hm s s'. rewrite /guard_handlers. destruct (m s) as [s1 [u|e|]] eqn:E; [done| |by destruct (Hm _ _ E)].
  destruct (unregister_all hs s1) as [s2 [u|e'|]] eqn:E2; try done. by destruct (P_unregister_all _ _ _ E2).
Qed.
Lemma P_start_proc a o : P (start_proc w a o).
Proof.
  rewrite /start_proc. apply P_need_loop. intros s s'. simpl.
  match goal with |- ?m ?s3 = _ -> _ => assert (P m) as HP; [|apply HP] end.
  pr. destruct (w_output_ok w a0); pr.
Qed.
Lemma P_exec_proc a c oe : P (exec_proc w a c oe).
Proof.
  rewrite /exec_proc. apply nf_bind; [apply nf_mod|]. intros _.
  apply nf_bind; [apply P_prepare_proc|]. intros _ s s'.
  destruct (procs s !! a) as [p|]; [|done]. destruct (x_executed p); [done|].
  destruct (is_shutdown _); [done|]. simpl.
  match goal with |- ?m ?s3 = _ -> _ => assert (P m) as HP; [|apply HP] end.
  pr. apply P_guard, P_start_proc.
Qed.
Lemma P_shutdown_process a b : P (shutdown_process a b).
Proof.
  intros s0 s'. rewrite /shutdown_process. generalize (obs1 (OAsked a) s0). clear s0. intros s.
  destruct (procs s !! a) as [p|]; [|done]. destruct (x_shutdown p) as [sf|]; [|done]. destruct (f_is_done sf s); [done|].
  match goal with |- ?m = _ -> _ => assert (exists m', P m' /\ m = m' s) as (m' & HP & ->); [|apply HP] end.
  destruct (x_completed p) as [cf|]; [|eexists; split; [|done]; pr].
  destruct (f_is_done cf s); [eexists; split; [|done]; pr|]. rewrite /register_noted.
  destruct (x_det p) as [d|]; [destruct (x_transport p) as [tr|]|]; (eexists; split; [|done]); pr.
Qed.
Lemma P_matches m a : nf (fun s => (s, pm_matches w m a s)).
Proof. intros s s' [= _ H]. revert H. rewrite /pm_matches. destruct m; repeat case_match; done. Qed.
Lemma P_exec_proc_shutdown a : P (exec_proc_shutdown w a).
Proof.
  rewrite /exec_proc_shutdown. apply nf_bind; [apply P_event_of_locals|]. intros e. destruct e; try apply nf_raise.
  apply nf_bind; [apply P_matches|]. intros []; [apply P_shutdown_process|apply nf_ret].
Qed.
Lemma P_exec_proc_signal a : P (exec_proc_signal w a).
Proof.
  rewrite /exec_proc_signal. apply nf_bind; [apply P_event_of_locals|]. intros e. destruct e; try apply nf_raise.
  apply nf_bind; [apply P_matches|]. intros []; [|apply nf_ret]. intros s1 s'.
  destruct (procs s1 !! a) as [p|]; [|done]. destruct (x_det p), (x_transport p); try done. by destruct (f_is_done n s1).
Qed.
Lemma P_exec_test a c oe t : P (exec_test w a c oe t).
Proof.
  rewrite /exec_test. apply nf_bind; [apply P_exec_proc|]. intros l. destruct t; [|apply nf_ret]. destruct (no_timeout _); [apply nf_ret|].
  rewrite /register_noted. pr.
Qed.
Lemma P_exec_action fuel a k : (forall src args, k <> AInclude src args) -> P (exec_action w fuel a k).
Proof.
  intros Hi. destruct k; try done; simpl; try lazymatch goal with |- nf (bindS _ _) => pr | |- nf (retS _) => pr | _ => idtac end.
  - rewrite /exec_set. pr.
  - rewrite /exec_unset. pr.
  - rewrite /exec_reset_lc. destruct cfgs; pr. apply P_eval_cfgs.
  - apply nf_on_ctx. intros c c'. rewrite /pop_lc. by destruct (lc_stack c).
  - apply nf_on_ctx. intros c c'. rewrite /pop_env. by destruct (env_stack c).
  - rewrite /exec_set. pr.
  - rewrite /exec_unset. pr.
  - rewrite /exec_append_env. pr.
  - rewrite /exec_declare. apply nf_bind.
    + intros s s'. destruct (lc (cx s) !! n); [done|]. destruct default; [|done].
      match goal with |- ?m ?s3 = _ -> _ => assert (P m) as HP; [|apply HP] end. pr.
    + intros _. destruct choices; pr. intros s s'. destruct (lc (cx s) !! n); [|done]. by destruct (existsb _ _).
  - by destruct (Hi src args).
  - apply P_call_user.
  - apply P_exec_timer.
  - apply P_exec_proc.
  - apply P_exec_coro.
  - apply P_exec_test.
  - destruct a0; pr.
  - destruct a0; pr.
  - rewrite /exec_timer_handle. apply nf_bind; [apply P_event_of_locals|]. intros e. destruct e; try apply nf_raise.
    intros s s'. by destruct (timers s !! _).
  - apply P_exec_proc_shutdown.
  - apply P_exec_proc_signal.
  - destruct t; pr.
  - apply P_shutdown_process.
Qed.
End exec.

(** ** Visits that do not end *)
Section visits.
Context (w : world) (Hw : functions_return w).
Lemma check_nf c hp ds names : check_arguments w c hp ds names <> OutOfFuel.
Proof.
  revert names. induction ds as [|d ds IH]; intros names; [done|]. cbn [check_arguments]. destruct (dl_cond d || _); [apply IH|].
  assert (forall l acc, extend_names w c acc l <> OutOfFuel) as HE.
  { induction l as [|x l IHl]; intros acc; [done|]. cbn [extend_names]. repeat case_match; try done; apply IHl. }
  destruct (dl_nested d) as [r|]; simpl.
  - destruct (extend_names w c names (nth r hp [])) as [acc|x|] eqn:E; simpl; [|done|by apply HE in E]. destruct (existsb _ _); [apply IH|done].
  - destruct (existsb _ _); [apply IH|done].
Qed.
Lemma get_ld_deep src s s' loc ld : get_launch_description w src s = (s', Ok (loc, ld)) ->
  contents w s src ld /\ known_srcs s' src = Some ld /\ (forall y, y <> src -> known_srcs s' y = known_srcs s y).
Proof.
  intros E. destruct (get_ld_ok _ _ _ _ _ _ E) as (_ & Hk & H1 & H2). split_and!; [|done|].
  - rewrite /contents. destruct (known_srcs s src) as [l|] eqn:Ek; [by apply H1|]. destruct (H2 eq_refl) as [n Hn]. by exists loc, n.
  - clear Hk H1 H2. intros y Hy. revert E. rewrite /get_launch_description.
    intros [(s1 & l & E1 & E2)|[(?&?&?)|[??]]]%bindS_inv; [|done..].
    assert (known_srcs s1 y = known_srcs s y) as <-.
    { revert E1. rewrite /known_srcs. destruct (srcs s !! src) as [[[l0|] ld0]|] eqn:Es.
      - by intros [= <- <-].
      - intros [(s2 & t & (c & E & ->)%perform_st_inv & E3)|[(?&?&?)|[??]]]%bindS_inv; [|done..].
        injection E3 as <- <-. simpl. by rewrite lookup_insert_ne.
      - intros [(s2 & t & (c & E & ->)%perform_st_inv & E3)|[(?&?&?)|[??]]]%bindS_inv; [|done..].
        injection E3 as <- <-. simpl. by rewrite lookup_insert_ne. }
    revert E2. rewrite /known_srcs. destruct (srcs s1 !! src) as [[x [ld0|]]|] eqn:Es.
    + by intros [= <- -> ->].
    + destruct (w_load w src l (nonce (cx s1))) eqn:El; [|done..]. intros [= <- -> ->]. simpl. by rewrite lookup_insert_ne.
    + destruct (w_load w src l (nonce (cx s1))) eqn:El; [|done..]. intros [= <- -> ->]. simpl. by rewrite lookup_insert_ne.
Qed.
Lemma on_ctx_srcs {A} (f : ctx -> ctx * res A) s s' r : on_ctx f s = (s', r) -> known_srcs s' = known_srcs s.
Proof. rewrite /on_ctx. destruct (f (cx s)) as [c r']. by intros [= <- <-]. Qed.
Lemma include_deep n src args s s' : exec_include w n src args s = (s', OutOfFuel) -> file_deep w s src n.
Proof.
  rewrite /exec_include. intros [(s1 & [loc ld] & E1 & E)|[(? & _ & [=])|[E _]]]%bindS_inv; [|by destruct (P_get_ld _ Hw _ _ _ E)].
  apply get_ld_deep in E1 as (Hc & Hk & Ho).
  apply bindS_inv in E as [(s2 & ? & E2 & E)|[(? & _ & [=])|[E _]]]; [|done].
  apply bindS_inv in E as [(s3 & ? & E3 & E)|[(? & _ & [=])|[E _]]]; [|done].
  apply bindS_inv in E as [(s4 & ? & E4 & E)|[(? & _ & [=])|[E _]]]; [|by destruct (P_list _ Hw _ _ _ E)].
  assert (known_srcs s4 = known_srcs s1) as K. { apply on_ctx_srcs in E4. rewrite E4. injection E3 as <- _. injection E2 as <- _. done. }
  apply bindS_inv in E as [(? & ? & _ & E)|[(? & _ & [=])|[E _]]]; [done|].
  injection E as _ E. exists ld, (cx s4), (known_srcs s4). rewrite K. split_and!; [done..|]. rewrite -K. revert E. rewrite /get_launch_arguments.
  destruct (process_entities _ _ _ n ld false None _) as [s5 r2] eqn:E5. destruct r2 as [u|?|]; simpl; [|done|by intros _; eapply entities_deep].
  intros H. by apply check_nf in H.
Qed.
Lemma visit_one_deep n e s s' : visit_one w n e s = (s', OutOfFuel) ->
  exists a c src args, e = EAct a c (AInclude src args) /\ file_deep w s src n.
Proof.
  destruct e as [l|a c k]; [done|]. rewrite /visit_one.
  intros [(s1 & b & E0 & E)|[(? & _ & [=])|[E _]]]%bindS_inv.
  - destruct b; [|done]. destruct (exec_action w n a k _) as [s2 r2] eqn:E2. injection E as _ ->.
    destruct k; try (exfalso; eapply (P_exec_action w Hw); [|exact E2]; done).
    exists a, c, src, args. split; [done|]. simpl in E2. apply include_deep in E2.
    assert (known_srcs s1 = known_srcs s) as K. { destruct c; [by apply on_ctx_srcs in E0|by injection E0 as <-]. }
    revert E2. rewrite /file_deep /contents. change (known_srcs (obs1 _ s1)) with (known_srcs s1). by rewrite K.
  - exfalso. destruct c; [|done]. by eapply (nf_on_ctx _ (nf_evaluate w Hw _)).
Qed.
Lemma visit_nests n e s s' : visit_all w n e s = (s', OutOfFuel) ->
  exists i x s1, below w i e s x s1 /\ (i = n \/ exists m a c src args, x = EAct a c (AInclude src args) /\ (i + S m = n)%nat /\ file_deep w s1 src m).
Proof.
  revert e s s'. induction n as [|n IH]; intros e s s'.
  { intros _. exists 0%nat, e, s. split; [constructor|by left]. }
  cbn [visit_all]. intros [(s1 & subs & E1 & E)|[(? & _ & [=])|[E _]]]%bindS_inv.
  2:{ apply visit_one_deep in E as (a & c & src & args & -> & H). exists 0%nat, (EAct a c (AInclude src args)), s. split; [constructor|]. right.
      exists n, a, c, src, args. done. }
  apply bindS_inv in E as [(s2 & fs & _ & E)|[(? & _ & [=])|[E _]]]; [done|].
  change ((fix go (l : list entity) : M (list nat) :=
                 match l with
                 | [] => retS []
                 | x :: l' => a <-- visit_all w n x ;; b <-- go l' ;; retS (a ++ b)
                 end) subs) with (visit_list w n subs) in E.
  assert (exists before k after s2 ts fs s3, subs = before ++ k :: after /\ visit_runs w before s1 ts fs s2 /\ visit_all w n k s2 = (s3, OutOfFuel)) as
    (before & k & after & s2 & ts & fs & s3 & -> & Hr & Ek).
  { clear E1. revert s1 s' E. induction subs as [|x l IHl]; intros s1 s'; [done|]. rewrite visit_list_cons.
    intros [(s2 & fs & E1 & E)|[(? & _ & [=])|[E _]]]%bindS_inv.
    - apply bindS_inv in E as [(? & ? & _ & E)|[(? & _ & [=])|[E _]]]; [done|].
      destruct (IHl _ _ E) as (before & k & after & s3 & ts & fs' & s4 & -> & Hr & Ek).
      destruct (proj1 (visit_all_run w n) _ _ _ _ E1) as [t Ht].
      exists (x :: before), k, after, s3. eexists _, _, s4. split; [done|]. split; [|exact Ek]. econstructor; eassumption.
    - exists [], x, l, s1, [], [], s'. split; [done|]. split; [constructor|done]. }
  destruct (IH _ _ _ Ek) as (i & x & s5 & Hb & H). exists (S i), x, s5. split; [by econstructor|].
  destruct H as [->|(m & a & c & src & args & -> & <- & H)]; [by left|]. right. exists m, a, c, src, args. done.
Qed.
Lemma visit_ends n m e s : (forall i x s', below w i e s x s' -> (i < n)%nat) ->
  (forall i a c src args s', below w i e s (EAct a c (AInclude src args)) s' -> ~ file_deep w s' src m) ->
  (visit_all w (n + m) e s).2 <> OutOfFuel.
Proof.
  intros Hn Hm H. destruct (visit_all w (n + m) e s) as [s' r] eqn:E. simpl in H. subst r.
  destruct (visit_nests _ _ _ _ E) as (i & x & s1 & Hb & [->|(k & a & c & src & args & -> & Hk & Hd)]); pose proof (Hn _ _ _ Hb); [lia|].
  eapply Hm; [exact Hb|]. destruct Hd as (ld & c' & known & ? & ? & ? & Hd). exists ld, c', known. split_and!; [done..|]. eapply deep_less; [|exact Hd]. lia.
Qed.

(** ** Plain descriptions *)
Definition none {A} (m : st -> st * res (list A)) : Prop := forall s s' r, m s = (s', Ok r) -> r = [].
Lemma none_bind {A B} (m : st -> st * res A) (k : A -> st -> st * res (list B)) : (forall a, none (k a)) -> none (bindS m k).
Proof. intros H s s' r [(s1 & a & _ & E)|[(x & _ & [=])|[_ [=]]]]%bindS_inv. by eapply H. Qed.
Lemma none_ret {A} : none (retS (@nil A)).
Proof. by intros s s' r [= _ <-]. Qed.
Ltac nn := repeat first [ apply none_ret | apply none_bind; intros ? ].
Lemma none_need {A} (m : st -> st * res (list A)) : none m -> none (need_loop m).
Proof. intros H s s' r. rewrite /need_loop. destruct (loop_set (cx s)); [apply H|done]. Qed.
Lemma simple_none fuel a k : simple k = true -> none (exec_action w fuel a k).
Proof.
  destruct k; try done; intros _; simpl; try solve [nn].
  - rewrite /exec_reset_lc. destruct cfgs; nn.
  - rewrite /exec_declare. apply none_bind. intros _. destruct choices; nn. intros s s' r. destruct (lc (cx s) !! n); [|done]. destruct (existsb _ _); [by intros [= _ <-]|done].
  - rewrite /exec_timer. apply none_need. intros s s' r. simpl. set (canc := match timers s !! a with Some t => t_canceled t | None => _ end). set (s3 := _ <| timers ::= _ |>).
    destruct canc.
    + destruct (set_result _ s3) as [s4 [u|x|]]; simpl; solve [by intros [= _ <-] | done].
    + match goal with |- ?m s3 = _ -> _ => assert (none m) as HP; [|apply HP] end. nn.
  - rewrite /exec_proc. nn. intros s s' r. destruct (procs s !! a); [|done]. destruct (x_executed p); [done|]. destruct (is_shutdown _); [by intros [= _ <-]|].
    match goal with |- ?m ?s3 = _ -> _ => assert (none m) as HP; [|apply HP] end. nn.
  - rewrite /exec_coro. apply none_need. intros s s' r. simpl.
    match goal with |- ?m ?s3 = _ -> _ => assert (none m) as HP; [|apply HP] end. nn.
Qed.
Lemma plain_sets n cfgs : Forall (plain n) (set_lcs cfgs).
Proof. rewrite /set_lcs. apply Forall_map, Forall_forall. intros [k v] _. by constructor. Qed.
Lemma visit_one_plain fuel n e s s' subs : plain n e -> visit_one w fuel e s = (s', Ok subs) ->
  (subs = [] \/ exists n', n = S n' /\ Forall (plain n') subs).
Proof.
  intros Hp E. destruct Hp as [n a c k Hk|n a c sc fw cfgs body Hb|n l Hl].
  - left. revert E. rewrite /visit_one. intros [(s1 & b & _ & E)|[(? & _ & [=])|[E [=]]]]%bindS_inv. destruct b; [|by injection E as _ <-].
    destruct (exec_action w fuel a k _) as [s2 r2] eqn:E2. injection E as _ ->. by eapply simple_none.
  - revert E. rewrite /visit_one. intros [(s1 & b & _ & E)|[(? & _ & [=])|[E [=]]]]%bindS_inv. destruct b; [|left; by injection E as _ <-].
    right. exists n. split; [done|]. injection E as _ <-. rewrite /group_entities. pose proof (plain_sets n cfgs).
    destruct sc; [destruct fw|]; rewrite ?Forall_app; repeat split; try done; repeat constructor.
  - right. exists n. split; [done|]. injection E as _ <-. done.
Qed.
Lemma plain_not_include n a c src args : ~ plain n (EAct a c (AInclude src args)).
Proof. intros H. inversion H; subst. done. Qed.
Lemma plain_ends n e : plain n e -> nf (visit_all w (S n) e).
Proof.
  revert e. induction n as [n IH] using lt_wf_ind. intros e Hp s s'. cbn [visit_all].
  intros [(s1 & subs & E1 & E)|[(? & _ & [=])|[E _]]]%bindS_inv.
  2:{ apply visit_one_deep in E as (a & c & src & args & -> & _). by eapply plain_not_include. }
  apply bindS_inv in E as [(s2 & fs & _ & E)|[(? & _ & [=])|[E _]]]; [done|].
  destruct (visit_one_plain _ _ _ _ _ _ Hp E1) as [->|(n' & -> & Hs)]; [done|]. clear E1.
  revert s1 s' E. induction Hs as [|x l Hx Hl IHl]; [done|]. intros s1 s' [(s2 & fs & E1 & E)|[(? & _ & [=])|[E _]]]%bindS_inv.
  - apply bindS_inv in E as [(? & ? & _ & E)|[(? & _ & [=])|[E _]]]; [done|]. by eapply IHl.
  - eapply (IH n'); [lia|exact Hx|exact E].
Qed.
End visits.
