(** Lemmas for C101. *)
From Coq Require Import ssreflect.
From Verif Require Import StrFacts SubstFacts ExecFacts VisitFacts ActionFacts SpecThisFile.

(** Nothing changes the two context variables. *)
Record kept (s s' : st) : Prop := {
  k_locals : forall k, names_file k -> locals (cx s') !! k = locals (cx s) !! k;
  k_globals : forall k, names_file k -> globals (cx s') !! k = globals (cx s) !! k;
  k_cache : remembers (cx s) -> remembers (cx s');
  k_srcs : forall src l x, srcs s !! src = Some (Some l, x) -> exists x', srcs s' !! src = Some (Some l, x') }.
#[global] Instance kept_pre : PreOrder kept.
Proof.
  split.
  - intros s. constructor; eauto.
  - intros a b c [L1 G1 C1 S1] [L2 G2 C2 S2]. constructor.
    + intros k Hk. rewrite L2 // L1 //.
    + intros k Hk. rewrite G2 // G1 //.
    + auto.
    + intros src l x H. destruct (S1 _ _ _ H) as [x' H']. eauto.
Qed.
Lemma kept_same s s' : locals (cx s') = locals (cx s) -> globals (cx s') = globals (cx s) ->
  cache (cx s') = cache (cx s) \/ cache (cx s') = None -> srcs s' = srcs s -> kept s s'.
Proof.
  intros EL EG EC ES. constructor; rewrite ?EL ?EG ?ES; eauto.
  intros H d. rewrite EL EG. destruct EC as [-> | ->]; [apply H|done].
Qed.
Lemma kept_sframe s c : sframe (cx s) c -> kept s (s <| cx := c |>).
Proof.
  intros [E _ _ C _]. constructor; simpl; [by rewrite E|by rewrite E| |eauto].
  intros H d. assert (locals c = locals (cx s)) as -> by (by rewrite E). assert (globals c = globals (cx s)) as -> by (by rewrite E).
  destruct C as [-> |[_ ->]]; [apply H|by intros [= <-]].
Qed.
Lemma kept_extend s m : (forall k, names_file k -> m !! k = None) -> kept s (s <| cx ::= extend_locals m |>).
Proof.
  intros H. constructor; simpl; [|done|by intros _ d|eauto]. intros k Hk. rewrite lookup_union (H k Hk).
  by destruct (locals (cx s) !! k).
Qed.
Lemma kept_extend_g s m : (forall k, names_file k -> m !! k = None) -> kept s (s <| cx ::= extend_globals m |>).
Proof.
  intros H. constructor; simpl; [done| |by intros _ d|eauto]. intros k Hk. rewrite lookup_union (H k Hk).
  by destruct (globals (cx s) !! k).
Qed.
Lemma pres_kept_ctx {A} (m : ctx -> ctx * res A) : frames m -> pres kept (on_ctx m).
Proof.
  intros Hm s s' r. rewrite /on_ctx. destruct (m (cx s)) as [c x] eqn:E. intros [= <- <-]. apply kept_sframe. by eapply Hm.
Qed.
Ltac ks := apply kept_same; simpl; auto.

Section exec.
Context (w : world) (Hw : tame w).
Notation P := (pres kept).
Lemma P_bind {A B} (m : st -> st * res A) (k : A -> st -> st * res B) : P m -> (forall a, P (k a)) -> P (bindS m k).
Proof. apply pres_bind, _. Qed.
Lemma P_ret {A} (a : A) : P (retS a).
Proof. apply pres_ret, _. Qed.
Lemma P_raise {A} e : P (@raiseS st A e).
Proof. apply pres_raise, _. Qed.
Lemma P_lift {A} (f : st -> res A) : P (fun s => (s, f s)).
Proof. apply pres_lift, _. Qed.
Lemma P_mod f : (forall s, kept s (f s)) -> P (modS f).
Proof. apply pres_mod. Qed.
Lemma P_perform l : P (perform_st w l).
Proof. apply pres_kept_ctx, perform_substitutions_frames. Qed.
Lemma P_bval b : P (on_ctx (perform_bval w b)).
Proof. apply pres_kept_ctx, perform_bval_frame. Qed.
Lemma P_fval b : P (on_ctx (perform_fval w b)).
Proof. apply pres_kept_ctx, perform_fval_frame. Qed.
Lemma P_list l : P (on_ctx (perform_list w l)).
Proof. apply pres_kept_ctx, perform_list_frame. Qed.
Lemma P_evaluate c : P (on_ctx (evaluate w c)).
Proof. apply pres_kept_ctx, evaluate_frame. Qed.
Lemma P_get_local k : P (on_ctx (get_local k)).
Proof. apply pres_kept_ctx, frames_get_local. Qed.
Lemma set_result_kept f s s' r : set_result f s = (s', r) -> kept s s'.
Proof. rewrite /set_result. destruct (futs s !! f) as [[]|]; intros [= <- _]; ks. Qed.
Lemma P_set_result f : P (set_result f).
Proof. intros s s' r. apply set_result_kept. Qed.
Lemma P_fresh : P fresh.
Proof. intros s s' r [= <- _]. ks. Qed.
Lemma P_need_loop {A} (m : st -> st * res A) : P m -> P (need_loop m).
Proof. intros H s s' r. rewrite /need_loop. destruct (loop_set (cx s)); [apply H|]. by intros [= <- _]. Qed.
Lemma reg_kept h ap s : kept s (obs1 (OReg h) (s <| cx ::= register_event_handler h ap |>)).
Proof. destruct ap; ks. Qed.
Lemma unreg_kept i s : kept s (unregister i s).1.
Proof. rewrite /unregister /on_ctx /unregister_event_handler. destruct (remove_first i _) as [l|] eqn:E; simpl; ks. Qed.
Lemma cancel_kept a s : kept s (timer_cancel a s).
Proof.
  rewrite /timer_cancel. destruct (timers s !! a) as [t|]; [|ks].
  assert (kept s (upd_timer a (fun t => t <| t_canceled := true |>) s)) as H1 by ks.
  destruct (t_canceled_fut t) as [f|]; [|done]. destruct (f_is_done f _); [done|]. etrans; [exact H1|].
  destruct (set_result f _) as [s2 r] eqn:E. by eapply set_result_kept.
Qed.
Ltac pr := repeat first
  [ apply P_ret | apply P_raise | apply P_perform | apply P_bval | apply P_fval | apply P_list
  | apply P_evaluate | apply P_get_local | apply P_set_result | apply P_fresh
  | apply P_bind; [|intros ?] ].
Ltac cxf := let s0 := fresh "s0" in intros s0; solve [ks | ks; by repeat case_match].

Lemma P_call_user f : P (call_user w f).
Proof.
  intros s s' r. rewrite /call_user. destruct (w_fun w f (cx s)) as [ops x] eqn:Ef. intros [= <- <-].
  pose proof (Hw _ _ _ _ Ef) as HT. clear Ef.
  assert (forall s, kept s (apply_ops ops s)) as HA; [|etrans; [|apply HA]; ks].
  induction ops as [|o ops IH]; intros s1; [done|]. etrans; [|apply IH; intros k v [H|H]; eapply HT; [left; right|right; right]; exact H].
  destruct o; simpl; try solve [ks].
  - apply kept_extend. intros k0 Hk. apply lookup_singleton_None. intros <-. by apply (HT k v); [left; left|].
  - apply kept_extend_g. intros k0 Hk. apply lookup_singleton_None. intros <-. by apply (HT k v); [right; left|].
  - apply reg_kept.
  - apply unreg_kept.
  - apply cancel_kept.
Qed.
Lemma P_eval_cfgs l acc : P (eval_cfgs w l acc).
Proof. revert acc. induction l as [|[k v] l IH]; intros acc; simpl; pr. apply IH. Qed.
Lemma P_eval_env l acc : P (eval_env w l acc).
Proof. revert acc. induction l as [|[k v] l IH]; intros acc; simpl; pr. apply IH. Qed.
Lemma srcs_insert s s' src l x : cx s' = cx s -> srcs s' = <[src := (Some l, x)]> (srcs s) ->
  (forall l' x', srcs s !! src = Some (Some l', x') -> l' = l) -> kept s s'.
Proof.
  intros Ec Es H. constructor; rewrite ?Ec; auto. intros i l' x' Hi. rewrite Es. destruct (decide (i = src)) as [->|Hne].
  - rewrite lookup_insert. rewrite (H _ _ Hi). eauto.
  - rewrite lookup_insert_ne //. eauto.
Qed.
Lemma get_ld_kept src s s' r : get_launch_description w src s = (s', r) -> kept s s' /\
  forall loc ld, r = Ok (loc, ld) -> exists x, srcs s' !! src = Some (Some loc, x).
Proof.
  rewrite /get_launch_description {1}/bindS.
  assert (forall s s1 r1, match srcs s !! src with Some (Some l, _) => (s, Ok l) | x => (l <-- perform_st w (w_loc w src) ;;
            modS (fun s => s <| srcs ::= <[src := (Some l, match x with Some (_, ld) => ld | None => None end)]> |>) ;;;
            retS l) s end = (s1, r1) -> kept s s1 /\ forall l, r1 = Ok l -> exists x, srcs s1 !! src = Some (Some l, x)) as HL.
  { clear s s' r. intros s s1 r1. destruct (srcs s !! src) as [[[l|] x]|] eqn:Es.
    { intros [= <- <-]. split; [done|]. intros ? [= <-]. eauto. }
    all: rewrite /bindS; destruct (perform_st w (w_loc w src) s) as [s2 r2] eqn:E2; pose proof (P_perform _ _ _ _ E2) as H2;
      (assert (srcs s2 = srcs s) as Es2 by (rewrite /perform_st /on_ctx in E2; destruct (perform_substitutions w _ _); by simplify_eq));
      destruct r2 as [l|e|]; rewrite /modS /retS /=; intros [= <- <-]; (split; [|intros ? [=]; subst; simpl; rewrite ?lookup_insert; eauto]); try exact H2;
      (etrans; [exact H2|]); (eapply srcs_insert; [done|done|]); rewrite Es2 Es; done. }
  destruct (match srcs s !! src with Some (Some l, _) => _ | x => _ end) as [s1 r1] eqn:E1.
  destruct (HL _ _ _ E1) as [H1 H1']. clear HL E1. destruct r1 as [loc|e|]; [|intros [= <- <-]; split; [done|intros; done]..].
  destruct (H1' loc eq_refl) as [x Ex]. rewrite Ex.
  destruct x as [ld|]; [intros [= <- <-]; split; [done|]; intros ? ? [= <- <-]; eauto|].
  set (s2 := s1 <| cx ::= _ |>). assert (kept s1 s2) as H2 by ks.
  destruct (w_load w src loc _) as [ld|e|]; intros [= <- <-]; (split; [|intros ? ? [=]; subst; simpl; rewrite ?lookup_insert; eauto]); (etrans; [exact H1|]); [|exact H2..].
  etrans; [exact H2|]. eapply srcs_insert; [done|done|]. change (srcs s2) with (srcs s1). rewrite Ex. by intros l' x' [= <- _].
Qed.
Lemma P_event_of_locals : P event_of_locals.
Proof. rewrite /event_of_locals. pr. destruct a; pr. Qed.
Lemma P_exec_timer a p b c : P (exec_timer w a p b c).
Proof.
  rewrite /exec_timer. apply P_need_loop. intros s s' r. simpl.
  set (canc := match timers s !! a with Some t => _ | None => _ end).
  set (s3 := _ <| timers ::= _ |>). assert (kept s s3) as H3 by ks.
  destruct canc.
  - destruct (set_result _ s3) as [s4 r4] eqn:E4. intros [= <- _]. etrans; [exact H3|]. by eapply set_result_kept.
  - intros H. etrans; [exact H3|]. revert H.
    match goal with |- ?m s3 = _ -> _ => assert (P m) as HP; [|apply HP] end.
    apply P_bind.
    { intros s4 s5 r5. destruct (timer_installed (cx s4)); [by intros [= <- _]|].
      match goal with |- ?m s4 = _ -> _ => assert (P m) as HP; [|apply HP] end.
      pr. apply P_mod. cxf. }
    intros _. apply P_bind.
    { apply pres_kept_ctx. intros c1 c2 r1. destruct (get_combined_locals c1) as [c3 d] eqn:Eg.
      intros [= <- _]. pose proof (frames_get_local "" c1) as Hf. rewrite /get_local Eg in Hf. by eapply Hf. }
    intros d. apply P_bind; [apply P_mod; cxf|]. intros _. apply P_bind; [apply P_mod; cxf|]. intros _. pr.
    destruct a0; pr. apply P_mod. intros s4. apply reg_kept.
Qed.
Lemma P_exec_coro a : P (exec_coro a).
Proof.
  rewrite /exec_coro. apply P_need_loop. intros s s' r. simpl. intros H.
  match type of H with _ ?s1 = _ => assert (kept s s1) as H1 by ks end. etrans; [exact H1|]. revert H.
  match goal with |- ?m ?s3 = _ -> _ => assert (P m) as HP; [|apply HP] end.
  pr. apply P_mod. intros s4. apply reg_kept.
Qed.
Lemma P_upd_proc a f : P (modS (upd_proc a f)).
Proof. apply P_mod. cxf. Qed.
Lemma P_prepare_executable c : P (prepare_executable w c).
Proof.
  rewrite /prepare_executable. pr.
  - destruct (p_prefix c); pr. destruct a; pr.
  - destruct a0; pr.
  - destruct (p_name c); pr. destruct a1; pr.
  - apply P_mod. cxf.
  - intros s s' r. match goal with |- ?m ?s3 = _ -> _ => assert (P m) as HP; [|apply HP] end. pr.
    + destruct (p_cwd c); pr.
    + destruct (p_env c); [apply P_eval_env|apply P_lift].
    + destruct (p_addenv c); [apply P_eval_env|pr].
Qed.
Lemma P_prepare_proc a : P (prepare_proc w a).
Proof.
  intros s s' r. rewrite /prepare_proc. destruct (procs s !! a) as [p|]; [|by intros [= <- _]].
  match goal with |- ?m ?s3 = _ -> _ => assert (P m) as HP; [|apply HP] end.
  apply P_bind; [apply P_prepare_executable|intros d]. pr; apply P_upd_proc.
Qed.
Lemma register_all_kept hs s : kept s (register_all hs s).
Proof.
  revert s. induction hs as [|h hs IH]; intros s; [by destruct s|]. rewrite register_all_cons. etrans; [|apply IH]. apply reg_kept.
Qed.
Lemma unregister_all_kept hs s : kept s (unregister_all hs s).1.
Proof.
  revert s. induction hs as [|h hs IH]; intros s; [done|].
  rewrite /= /bindS. pose proof (unreg_kept (h_id h) s) as H1.
  destruct (unregister (h_id h) s) as [s1 [u|e|]]; simpl in *; [|done..]. etrans; [exact H1|apply IH].
Qed.
Lemma P_guard hs m : P m -> P (guard_handlers hs m).
Proof.
  intros Hm s s' r. rewrite /guard_handlers. destruct (m s) as [s1 [u|e|]] eqn:E; [intros [= <- _]; by eapply Hm| |intros [= <- _]; by eapply Hm].
  pose proof (unregister_all_kept hs s1) as H1.
  destruct (unregister_all hs s1) as [s2 [u|e'|]]; simpl in H1; intros [= <- _]; (etrans; [by eapply Hm|done]).
Qed.
Lemma P_start_proc a o : P (start_proc w a o).
Proof.
  rewrite /start_proc. apply P_need_loop. intros s s' r. simpl. intros H.
  match type of H with _ ?s1 = _ => assert (kept s s1) as H1 by ks end. etrans; [exact H1|]. revert H.
  match goal with |- ?m ?s3 = _ -> _ => assert (P m) as HP; [|apply HP] end.
  pr; [destruct (w_output_ok w a0); pr|]. apply P_mod. cxf.
Qed.
Lemma P_exec_proc a c oe : P (exec_proc w a c oe).
Proof.
  rewrite /exec_proc. apply P_bind; [apply P_mod; cxf|]. intros _.
  apply P_bind; [apply P_prepare_proc|]. intros _ s s' r.
  destruct (procs s !! a) as [p|]; [|by intros [= <- _]].
  destruct (x_executed p); [by intros [= <- _]|].
  set (s1 := upd_proc a _ s). assert (kept s s1) as H1 by ks.
  destruct (is_shutdown (cx s1)); [intros [= <- _]; done|].
  set (hs := proc_handlers _ _ _). set (s2 := s1 <| next ::= _ |>).
  assert (kept s (register_all hs s2)) as H2. { etrans; [exact H1|]. etrans; [|apply register_all_kept]. ks. }
  intros H. etrans; [exact H2|]. revert H.
  match goal with |- ?m ?s3 = _ -> _ => assert (P m) as HP; [|apply HP] end.
  pr. apply P_guard, P_start_proc.
Qed.
Lemma P_shutdown_process a b : P (shutdown_process a b).
Proof.
  intros s0 s' r. rewrite /shutdown_process. intros H.
  assert (kept s0 (obs1 (OAsked a) s0)) as H0 by ks.
  etrans; [exact H0|]. revert H. generalize (obs1 (OAsked a) s0). clear s0 H0. intros s.
  destruct (procs s !! a) as [p|]; [|by intros [= <- _]].
  destruct (x_shutdown p) as [sf|]; [|by intros [= <- _]].
  destruct (f_is_done sf s); [by intros [= <- _]|].
  match goal with |- ?m = _ -> _ => assert (exists m', P m' /\ m = m' s) as (m' & HP & ->); [|apply HP] end.
  destruct (x_completed p) as [cf|]; [|eexists; split; [|done]; pr].
  destruct (f_is_done cf s); [eexists; split; [|done]; pr|].
  destruct (x_det p) as [d|]; [destruct (x_transport p) as [tr|]|].
  - eexists; split; [|done]. pr; [|apply P_upd_proc|]; apply P_mod; [|cxf]. intros s1. apply kept_extend. intros k [->| ->]; done.
  - eexists; split; [|done]. pr. apply P_mod. intros s1. apply reg_kept.
  - eexists; split; [|done]. pr. apply P_mod. intros s1. apply reg_kept.
Qed.
Lemma P_exec_proc_shutdown a : P (exec_proc_shutdown w a).
Proof.
  rewrite /exec_proc_shutdown. apply P_bind; [apply P_event_of_locals|]. intros e. destruct e; try apply P_raise.
  apply P_bind; [apply P_lift|]. intros []; [apply P_shutdown_process|apply P_ret].
Qed.
Lemma P_exec_proc_signal a : P (exec_proc_signal w a).
Proof.
  rewrite /exec_proc_signal. apply P_bind; [apply P_event_of_locals|]. intros e. destruct e; try apply P_raise.
  apply P_bind; [apply P_lift|]. intros []; [|apply P_ret]. intros s1 s' r.
  destruct (procs s1 !! a) as [p|]; [|by intros [= <- _]].
  destruct (x_det p), (x_transport p); try by intros [= <- _].
  destruct (f_is_done n s1); intros [= <- _]; [done|]. ks.
Qed.
Lemma P_exec_test a c oe t : P (exec_test w a c oe t).
Proof.
  rewrite /exec_test. apply P_bind; [apply P_exec_proc|]. intros l. destruct t; [|apply P_ret]. destruct (no_timeout _); [apply P_ret|].
  pr. apply P_mod. intros s1. apply reg_kept.
Qed.
Lemma P_exec_action fuel a k : (forall src args, k <> AInclude src args) -> k <> ITimerHandle -> P (exec_action w fuel a k).
Proof.
  intros Hi Ht. destruct k; try done; simpl.
  - rewrite /exec_set. pr. apply P_mod. cxf.
  - rewrite /exec_unset. pr. apply P_mod. cxf.
  - rewrite /exec_reset_lc. destruct cfgs; pr; [apply P_eval_cfgs| |]; apply P_mod; cxf.
  - pr. apply P_mod. cxf.
  - pr. intros s s' r. rewrite /on_ctx /pop_lc. destruct (lc_stack (cx s)); intros [= <- _]; ks.
  - pr. apply P_mod. cxf.
  - pr. intros s s' r. rewrite /on_ctx /pop_env. destruct (env_stack (cx s)); intros [= <- _]; ks.
  - pr. apply P_mod. cxf.
  - rewrite /exec_set. pr. apply P_mod. cxf.
  - rewrite /exec_unset. pr. apply P_mod. cxf.
  - rewrite /exec_append_env. pr. apply P_mod. intros s. apply kept_same; simpl; repeat case_match; auto.
  - rewrite /exec_declare. apply P_bind.
    + intros s s' r. destruct (lc (cx s) !! n); [by intros [= <- _]|]. destruct default; [|by intros [= <- _]].
      match goal with |- ?m ?s3 = _ -> _ => assert (P m) as HP; [|apply HP] end. pr. apply P_mod. cxf.
    + intros _. destruct choices; pr. intros s s' r. destruct (lc (cx s) !! n); [|by intros [= <- _]].
      destruct (existsb _ _); by intros [= <- _].
  - pr.
  - by destruct (Hi src args).
  - apply P_call_user.
  - pr. apply P_mod. cxf.
  - apply P_bind; [|intros _; pr; apply P_mod; cxf].
    apply pres_kept_ctx. intros c c' r. intros [= <- _].
    destruct (get_local "event" c) as [c1 x] eqn:E. simpl. by eapply frames_get_local.
  - pr. apply P_mod. intros s0. apply reg_kept.
  - apply P_bind; [|intros _; pr]. intros s s' r H. pose proof (unreg_kept (h_id h) s) as HF. by rewrite H in HF.
  - pr. apply P_mod. cxf.
  - apply P_exec_timer.
  - apply P_exec_proc.
  - apply P_exec_coro.
  - apply P_exec_test.
  - apply P_bind; [apply P_event_of_locals|]. intros e; destruct e; pr.
  - pr. apply P_mod. intros. apply cancel_kept.
  - apply P_exec_proc_shutdown.
  - apply P_exec_proc_signal.
  - pr. destruct t; pr.
  - apply P_shutdown_process.
Qed.
End exec.

(** ** Visits *)
Definition file_is (w : world) (loc : string) (c : ctx) : Prop :=
  locals c !! "current_launch_file_path" = Some (LStr (w_abspath w loc)) /\
  locals c !! "current_launch_file_directory" = Some (LStr (w_launchdir w loc)).
Record moved (w : world) (o : option nat) (s s' : st) : Prop := {
  m_cache : remembers (cx s) -> remembers (cx s');
  m_srcs : forall src l x, srcs s !! src = Some (Some l, x) -> exists x', srcs s' !! src = Some (Some l, x');
  m_file : match o with
           | Some src => exists loc x, srcs s' !! src = Some (Some loc, x) /\ file_is w loc (cx s')
           | None => forall k, names_file k -> locals (cx s') !! k = locals (cx s) !! k /\ globals (cx s') !! k = globals (cx s) !! k
           end }.
Lemma moved_kept w s s' : kept s s' -> moved w None s s'.
Proof. intros [L G C S]. constructor; auto. Qed.
Lemma moved_trans w o1 o2 a b c : moved w o1 a b -> moved w o2 b c -> moved w (match o2 with Some _ => o2 | None => o1 end) a c.
Proof.
  intros [C1 S1 F1] [C2 S2 F2]. constructor; [auto|intros src l x H; destruct (S1 _ _ _ H); eauto|].
  destruct o2 as [src|]; [done|]. destruct o1 as [src|].
  - destruct F1 as (loc & x & Hx & [Hp Hd]). destruct (S2 _ _ _ Hx) as [x' Hx']. exists loc, x'. split; [done|].
    split; [destruct (F2 "current_launch_file_path") as [-> _]|destruct (F2 "current_launch_file_directory") as [-> _]]; try done; [by left|by right].
  - intros k Hk. destruct (F1 k Hk) as [<- <-]. by apply F2.
Qed.
Lemma last_include_app l1 l2 : last_include (l1 ++ l2) = match last_include l2 with Some _ => last_include l2 | None => last_include l1 end.
Proof. induction l1 as [|x l1 IH]; simpl; [by destruct (last_include l2)|]. rewrite IH. by destruct (last_include l2). Qed.
Definition known (k : string) (c : ctx) : res string :=
  match (locals c ∪ globals c) !! k with Some v => local_text v | None => Exn XSubst end.
Lemma this_file_known w s : remembers (cx s) ->
  this_file w s = known "current_launch_file_path" (cx s) /\ this_dir w s = known "current_launch_file_directory" (cx s).
Proof.
  intros HR. rewrite /this_file /this_dir /known /=. rewrite /bindS /= /get_combined_locals.
  destruct (cache (cx s)) as [d|] eqn:E; [rewrite -(HR _ E)|].
  - split; [destruct (d !! _) as [[]|]|destruct (d !! _) as [[]|]]; simpl; rewrite ?str_app_nil; done.
  - set (d := locals (cx s) ∪ globals (cx s)). split; [destruct (d !! _) as [[]|]|destruct (d !! _) as [[]|]]; simpl; rewrite ?str_app_nil; done.
Qed.
Lemma this_file_is w loc s : remembers (cx s) -> file_is w loc (cx s) -> this_file w s = Ok (w_abspath w loc) /\ this_dir w s = Ok (w_launchdir w loc).
Proof.
  intros HR [Hp Hd]. destruct (this_file_known w s HR) as [-> ->]. rewrite /known !lookup_union Hp Hd.
  by destruct (globals (cx s) !! "current_launch_file_path"), (globals (cx s) !! "current_launch_file_directory").
Qed.
Lemma this_file_same w s s' : remembers (cx s) -> moved w None s s' -> this_file w s' = this_file w s /\ this_dir w s' = this_dir w s.
Proof.
  intros HR [C _ F]. destruct (this_file_known w s HR) as [-> ->]. destruct (this_file_known w s' (C HR)) as [-> ->].
  rewrite /known !lookup_union. destruct (F "current_launch_file_path") as [-> ->]; [by left|]. destruct (F "current_launch_file_directory") as [-> ->]; [by right|]. done.
Qed.
Lemma moved_says w o s s' : remembers (cx s) -> moved w o s s' ->
  match o with
  | Some src => is_at w src s'
  | None => this_file w s' = this_file w s /\ this_dir w s' = this_dir w s
  end.
Proof.
  intros HR HM. destruct o as [src|]; [|by apply this_file_same].
  destruct HM as [C _ (loc & x & Hx & HF)]. exists loc, x. split; [done|]. by apply this_file_is; [apply C|].
Qed.

Lemma log_lines_eq a fd ls s : log_lines a fd ls s = s <| log := rev (map (OLine a fd) ls) ++ log s |>.
Proof.
  rewrite /log_lines. revert s. induction ls as [|l ls IH]; intros s; simpl; [by destruct s|]. rewrite IH. destruct s. rewrite /obs1 /set /=. by rewrite -app_assoc.
Qed.
Section visits.
Context (w : world) (Hw : tame w).
Lemma include_moved fuel a src args s s' ents : exec_action w fuel a (AInclude src args) s = (s', Ok ents) ->
  moved w (Some src) s s' /\ ents <> [].
Proof.
  simpl. rewrite /exec_include {1}/bindS. destruct (get_launch_description w src s) as [s1 r1] eqn:E1.
  destruct (get_ld_kept w src _ _ _ E1) as [[L1 G1 C1 S1] H1]. destruct r1 as [[loc ld]|x|]; [|done..].
  destruct (H1 _ _ eq_refl) as [x Hx]. clear H1 E1. rewrite /bindS /modS.
  set (s2 := s1 <| cx ::= _ |>). set (s3 := s2 <| cx ::= _ |>).
  destruct (on_ctx (perform_list w (map fst args)) s3) as [s4 r4] eqn:E4.
  pose proof (P_list w _ _ _ _ E4) as [L4 G4 C4 S4]. clear E4. destruct r4 as [names|y|]; [|done..].
  destruct (res_bind _ _) as [[]|y|]; [|done..]. rewrite /retS. intros [= <- <-]. split; [|by destruct (set_lcs args)].
  constructor.
  - intros _. apply C4. intros d. done.
  - intros i l y Hi. destruct (S1 _ _ _ Hi) as [y' Hy]. exact (S4 i l y' Hy).
  - destruct (S4 src loc x Hx) as [x' Hx']. exists loc, x'. split; [done|]. split.
    + rewrite L4; [by left|]. simpl. apply lookup_union_Some_raw. right. split; [done|]. apply lookup_union_Some_raw. left. apply lookup_singleton.
    + rewrite L4; [by right|]. simpl. apply lookup_union_Some_raw. left. apply lookup_singleton.
Qed.
Lemma visit_one_moved fuel e s s1 subs : (forall a c, e <> EAct a c ITimerHandle) -> visit_one w fuel e s = (s1, Ok subs) ->
  moved w (begins (e, match subs with [] => false | _ => true end)) s s1.
Proof.
  intros Ht. destruct e as [l|a c k].
  { intros [= <- <-]. simpl. apply moved_kept. ks. }
  rewrite visit_one_act. cbv zeta. destruct (cond_result w c (cx s)) as [c1 rc] eqn:Ec.
  assert (sframe (cx s) c1) as F.
  { destruct c as [c|]; simpl in Ec; [by eapply evaluate_frame|]. injection Ec as <- _. apply sframe_refl. }
  assert (kept s (obs1 (OVisit (EAct a c k)) s <| cx := c1 |>)) as K0.
  { etrans; [apply kept_sframe; exact F|]. ks. }
  destruct rc as [[]|x|]; try done.
  2:{ intros [= <- <-]. destruct k; simpl; by apply moved_kept. }
  destruct (exec_action _ _ _ _ _) as [s2 r2] eqn:E2. intros [= <- ->].
  set (s3 := complete_action _ _ _ _).
  assert (kept s2 s3) as K3.
  { rewrite /s3 /complete_action. destruct (would_handle_event _ _ _); [destruct (get_future _ _)|]; ks. }
  match type of E2 with exec_action _ _ _ _ ?s0 = _ => assert (kept s s0) as K1 by (etrans; [exact K0|]; ks) end.
  assert ((exists src args, k = AInclude src args) \/ forall src args, k <> AInclude src args) as [(src & args & ->)|Hn]
    by (destruct k; solve [left; eauto|right; done]).
  - destruct (include_moved _ _ _ _ _ _ _ E2) as [HM HN]. destruct subs as [|x subs]; [done|]. simpl.
    pose proof (moved_trans w _ _ _ _ _ (moved_kept w _ _ K1) (moved_trans w _ _ _ _ _ HM (moved_kept w _ _ K3))) as H. exact H.
  - assert (begins (EAct a c k, match subs with [] => false | _ => true end) = None) as ->.
    { destruct k; try done. by destruct (Hn src args). }
    apply moved_kept. etrans; [exact K1|]. etrans; [|exact K3]. eapply P_exec_action; [exact Hw|exact Hn| |exact E2]. intros ->. by destruct (Ht a c).
Qed.
Lemma runs_moved :
  (forall e s t fs s', visit_run w e s t fs s' -> no_timers (outcomes t) -> moved w (last_include (outcomes t)) s s') /\
  (forall l s ts fs s', visit_runs w l s ts fs s' -> no_timers (flat_map outcomes ts) -> moved w (last_include (flat_map outcomes ts)) s s').
Proof.
  apply visit_run_mutind.
  - intros fuel e s subs s1 kids fs s2 E Hk IH Hn. simpl in Hn |- *.
    assert (match kids with [] => false | _ => true end = match subs with [] => false | _ => true end) as Ekids.
    { destruct subs as [|x subs]; [by apply visit_runs_nil_inv in Hk as (-> & _ & _)|].
      by apply visit_runs_cons_inv in Hk as (t & ts' & f1 & gs & s3 & -> & _). }
    rewrite Ekids. assert (forall a c, e <> EAct a c ITimerHandle) as Ht. { intros a c ->. eapply Hn. by left. }
    pose proof (visit_one_moved _ _ _ _ _ Ht E) as H1.
    assert (no_timers (flat_map outcomes kids)) as Hn' by (intros a c b Hin; eapply Hn; right; exact Hin).
    pose proof (moved_trans w _ _ _ _ _ H1 (IH Hn')) as H. by destruct (last_include (flat_map outcomes kids)).
  - intros s _. simpl. by apply moved_kept.
  - intros e l s t fs s1 ts gs s2 _ IH1 _ IH2 Hn. simpl in *. rewrite last_include_app.
    assert (no_timers (outcomes t) /\ no_timers (flat_map outcomes ts)) as [N1 N2].
    { split; intros a c b Hin; eapply Hn; apply in_or_app; [left|right]; exact Hin. }
    exact (moved_trans w _ _ _ _ _ (IH1 N1) (IH2 N2)).
Qed.
Lemma at_moved e s seen x s' : visit_at w e s seen x s' -> no_timers seen -> moved w (last_include seen) s s'.
Proof.
  induction 1 as [e s|fuel e s before k after s1 ts fs s2 seen x s3 E Hr _ IH]; intros Hn; [by apply moved_kept|].
  assert (forall a c, e <> EAct a c ITimerHandle) as Ht. { intros a c ->. eapply Hn. by left. }
  pose proof (visit_one_moved _ _ _ _ _ Ht E) as H1.
  replace (match before ++ k :: after with [] => false | _ => true end) with true in H1 by (by destruct before).
  assert (no_timers (flat_map outcomes ts) /\ no_timers seen) as [N1 N2].
  { split; intros a c b Hin; eapply Hn; right; apply in_or_app; [left|right]; exact Hin. }
  pose proof (moved_trans w _ _ _ _ _ H1 (moved_trans w _ _ _ _ _ (proj2 runs_moved _ _ _ _ _ Hr N1) (IH N2))) as H.
  simpl. rewrite last_include_app. by destruct (last_include seen), (last_include (flat_map outcomes ts)).
Qed.
Lemma where_lemma e s seen x s' : remembers (cx s) -> visit_at w e s seen x s' -> no_timers seen ->
  match last_include seen with
  | Some src => is_at w src s'
  | None => this_file w s' = this_file w s /\ this_dir w s' = this_dir w s
  end.
Proof. intros HR H Hn. apply moved_says; [done|]. by eapply at_moved. Qed.

(** ** Event handlers *)
Lemma run_body_kept b e : pres kept (run_body w b e).
Proof.
  assert (forall a, pres kept (proc_io a e)) as HIO.
  { intros a s s' r E. apply kept_same; revert E; rewrite /proc_io; destruct e; try (intros [= <- _]; auto); destruct (procs s !! _) as [p|]; try (intros [= <- _]; auto).
    all: destruct ((if p_cached (x_cfg p) then on_output_cached else on_output) _ _ _ _ _) as [b' s1] eqn:E; intros [= <- _]; simpl;
      revert E; destruct (p_cached _); rewrite /on_output_cached /on_output; try (destruct (b_closed _); [by intros [= _ <-]; auto|]); destruct (split_lines _ _); intros [= _ <-];
      rewrite log_lines_eq; simpl; auto. }
  destruct b; simpl; try apply pres_ret, _; try apply P_call_user, Hw; try apply HIO.
  - destruct l; [apply pres_raise, _|apply pres_ret, _].
  - destruct e; try apply pres_ret, _; try destruct fd.
    all: match goal with |- context [match ?o with _ => _ end] => destruct o end; try apply pres_ret, _; apply P_call_user, Hw.
  - apply pres_bind; [apply _| |intros; apply pres_ret, _]. apply pres_mod. intros s. ks.
  - intros s s' r. destruct e; try (intros [= <- _]; done). apply P_shutdown_process.
  - intros s s' r. rewrite /proc_flush. destruct (procs s !! a) as [p|]; [|by intros [= <- _]].
    destruct (p_cached _).
    + rewrite /flush_cached_one. destruct (split_lines _ _) as [l1 r1]. destruct (split_lines _ _) as [l2 r2]. intros [= <- _]. rewrite !log_lines_eq. ks.
    + destruct (b_closed _); [by intros [= <- _]|]. intros [= <- _]. rewrite /flush_one.
      destruct (_ =? "")%string; destruct (_ =? "")%string; ks.
  - apply P_shutdown_process.
  - intros s s' r. destruct (coros s !! a) as [f|]; intros [= <- _]; [|done]. destruct (f_is_done f s); ks.
  - apply pres_bind; [apply _| |intros; apply pres_ret, _]. apply pres_mod. intros s. apply cancel_kept.
Qed.
Lemma handle_kept h e s s' ents : handle w h e s = (s', Ok ents) -> moved w None s s' /\ remembers (cx s').
Proof.
  rewrite /handle /base_handle. set (s1 := s <| cx ::= extend_locals {["event" := LEv e]} |>). rewrite /bindS /modS -/s1.
  assert (kept s s1) as K1. { apply kept_extend. intros k [-> | ->]; done. }
  assert (remembers (cx s1)) as R1 by (intros d; done).
  destruct ((if h_once h then _ else _) s1) as [s2 r2] eqn:E2.
  assert (kept s1 s2) as K2.
  { destruct (h_once h); [|injection E2 as <- _; done]. pose proof (unreg_kept (h_id h) s1) as H. by rewrite E2 in H. }
  destruct r2 as [[]|x|]; [|done..]. set (s3 := obs1 _ s2). intros E.
  assert (kept s1 s') as K. { etrans; [exact K2|]. etrans; [|eapply run_body_kept; exact E]. ks. }
  split; [apply moved_kept; by etrans|]. by apply (k_cache _ _ K).
Qed.
End visits.

(** ** Timers *)
Lemma timer_keeps w fuel a p b c s s1 r t0 : exec_action w fuel a (ATimer p b c) s = (s1, Ok r) ->
  (forall t, timers s !! a = Some t -> t_canceled t = false) -> remembers (cx s) -> timers s1 !! a = Some t0 -> t_locals t0 = locals (cx s) ∪ globals (cx s).
Proof.
  intros E Hc HR H0. simpl in E. rewrite /exec_timer /need_loop in E. destruct (loop_set (cx s)); [|done]. simpl in E.
  assert (match timers s !! a with Some t => t_canceled t | None => false end = false) as Ec.
  { destruct (timers s !! a) as [t|]; [by apply Hc|done]. }
  rewrite Ec in E. revert E. set (s2 := _ <| timers ::= _ |>).
  assert (cx s2 = cx s) as Ecx by done. assert (is_Some (timers s2 !! a)) as Ht2 by (simpl; rewrite lookup_insert; eauto).
  clearbody s2. intros E. apply bindS_inv in E as [(s3 & u & E3 & E)|[(? & ? & ?)|(? & ?)]]; [|done..].
  assert (locals (cx s3) = locals (cx s) /\ globals (cx s3) = globals (cx s) /\ cache (cx s3) = cache (cx s) /\ timers s3 = timers s2) as (L3 & G3 & C3 & T3).
  { revert E3. rewrite Ecx. destruct (timer_installed (cx s)); [intros [= <- _]; by rewrite Ecx|]. intros [= <- _]. simpl. by rewrite Ecx. }
  apply bindS_inv in E as [(s4 & d & E4 & E)|[(? & ? & ?)|(? & ?)]]; [|done..].
  assert (d = locals (cx s) ∪ globals (cx s) /\ timers s4 = timers s3) as [-> T4].
  { revert E4. rewrite /on_ctx /get_combined_locals C3. destruct (cache (cx s)) as [d'|] eqn:Ed; intros [= <- <-]; [|by rewrite L3 G3].
    split; [|done]. by apply HR. }
  clear E3 E4. rewrite /bindS /modS /retS /register_noted /fresh in E.
  destruct (on_ctx (perform_bval w c) _) as [s5 r5] eqn:E5 in E.
  assert (timers s5 !! a = Some t0 -> t_locals t0 = locals (cx s) ∪ globals (cx s)) as HT.
  { revert E5. rewrite /on_ctx. destruct (perform_bval w c _). intros [= <- _]. simpl. rewrite T4 T3. destruct Ht2 as [t Ht].
    rewrite /upd_timer /= lookup_alter Ht /=. by intros [= <-]. }
  apply HT. destruct r5 as [[]|x|]; [|injection E as <- _; done|done..]. injection E as <- _. exact H0.
Qed.
Lemma timer_handle_extends w fuel a a' s s' l t : exec_action w fuel a' ITimerHandle s = (s', Ok l) ->
  (get_local "event" (cx s)).2 = Ok (LEv (EvTimer a)) -> timers s !! a = Some t ->
  locals (cx s') = t_locals t ∪ locals (cx s) /\ cache (cx s') = None.
Proof.
  simpl. rewrite /exec_timer_handle /event_of_locals {1 2}/bindS. rewrite /on_ctx. destruct (get_local "event" (cx s)) as [c1 r1] eqn:E1. simpl.
  intros E -> Ht. simpl in E. rewrite Ht in E. injection E as <- _. simpl. split; [|done].
  assert (sframe (cx s) c1) as F by (by eapply frames_get_local). by rewrite (sf_eq _ _ F).
Qed.
Lemma timer_file w fuel fuel' a a' p b c s s1 r s2 s3 l t1 t2 f d :
  remembers (cx s) -> this_file w s = Ok f -> this_dir w s = Ok d ->
  (forall t, timers s !! a = Some t -> t_canceled t = false) -> exec_action w fuel a (ATimer p b c) s = (s1, Ok r) ->
  timers s1 !! a = Some t1 -> timers s2 !! a = Some t2 -> t_locals t2 = t_locals t1 ->
  (get_local "event" (cx s2)).2 = Ok (LEv (EvTimer a)) -> exec_action w fuel' a' ITimerHandle s2 = (s3, Ok l) ->
  this_file w s3 = Ok f /\ this_dir w s3 = Ok d.
Proof.
  intros HR Hf Hd Hc E T1 T2 ET He E3. pose proof (timer_keeps _ _ _ _ _ _ _ _ _ _ E Hc HR T1) as K.
  destruct (timer_handle_extends _ _ _ _ _ _ _ _ E3 He T2) as [L C]. rewrite ET K in L.
  destruct (this_file_known w s HR) as [Kf Kd]. rewrite Kf in Hf. rewrite Kd in Hd.
  assert (remembers (cx s3)) as R3 by (intros x; by rewrite C). destruct (this_file_known w s3 R3) as [-> ->].
  rewrite /known L in Hf Hd |- *. rewrite -!map_union_assoc.
  split; [destruct ((locals (cx s) ∪ globals (cx s)) !! _) as [v|] eqn:Ev in Hf|destruct ((locals (cx s) ∪ globals (cx s)) !! _) as [v|] eqn:Ev in Hd]; try done.
  all: rewrite map_union_assoc; erewrite lookup_union_Some_l; [|exact Ev]; done.
Qed.

(** ** Entities of event handlers *)
Lemma moved_outside w s s' : moved w None s s' -> outside (cx s) -> remembers (cx s') -> this_file w s' = Exn XSubst /\ this_dir w s' = Exn XSubst.
Proof.
  intros [_ _ F] HO HR. destruct (this_file_known w s' HR) as [-> ->]. rewrite /known !lookup_union.
  destruct (F "current_launch_file_path") as [-> ->]; [by left|]. destruct (F "current_launch_file_directory") as [-> ->]; [by right|].
  destruct (HO "current_launch_file_path") as [-> ->]; [by left|]. destruct (HO "current_launch_file_directory") as [-> ->]; [by right|]. done.
Qed.
Lemma handler_file w h ev s s1 before x after ts fs s2 seen y s3 : tame w ->
  handle w h ev s = (s1, Ok (before ++ x :: after)) -> visit_runs w before s1 ts fs s2 -> visit_at w x s2 seen y s3 ->
  no_timers (flat_map outcomes ts ++ seen) ->
  match last_include (flat_map outcomes ts ++ seen) with
  | Some src => is_at w src s3
  | None => (remembers (cx s) -> this_file w s3 = this_file w s /\ this_dir w s3 = this_dir w s) /\
            (outside (cx s) -> this_file w s3 = Exn XSubst /\ this_dir w s3 = Exn XSubst)
  end.
Proof.
  intros Hw E R A N. destruct (handle_kept w Hw _ _ _ _ _ E) as [M1 R1].
  assert (no_timers (flat_map outcomes ts)) as N1 by (intros a c b H; eapply N; apply in_app_iff; eauto).
  assert (no_timers seen) as N2 by (intros a c b H; eapply N; apply in_app_iff; eauto).
  pose proof (proj2 (runs_moved w Hw) _ _ _ _ _ R N1) as M2. pose proof (at_moved w Hw _ _ _ _ _ A N2) as M3.
  pose proof (moved_trans _ _ _ _ _ _ M2 M3) as M. rewrite last_include_app.
  assert ((match last_include seen with Some _ => last_include seen | None => last_include (flat_map outcomes ts) end) =
    (match last_include seen with Some n => Some n | None => last_include (flat_map outcomes ts) end)) as Eq by (by destruct (last_include seen)).
  destruct (match last_include seen with Some _ => last_include seen | None => last_include (flat_map outcomes ts) end) as [src|] eqn:El.
  - exact (moved_says w (Some src) _ _ R1 M).
  - split; intros H.
    + exact (moved_says w None _ _ H (moved_trans _ _ _ _ _ _ M1 M)).
    + apply (moved_outside w s); [exact (moved_trans _ _ _ _ _ _ M1 M)|done|]. by apply M.
Qed.
Lemma after_file w a c src args s t fs s' : tame w -> remembers (cx s) -> visit_run w (EAct a c (AInclude src args)) s t fs s' ->
  no_timers (outcomes t) -> t <> VNode (EAct a c (AInclude src args)) [] -> exists src', last_include (outcomes t) = Some src' /\ is_at w src' s'.
Proof.
  intros Hw HR E N Hk. pose proof (proj1 (runs_moved w Hw) _ _ _ _ _ E N) as M. apply moved_says in M; [|done].
  assert (is_Some (last_include (outcomes t))) as [src' Hs].
  { inversion E; subst. simpl. destruct (last_include (flat_map outcomes kids)); [by eauto|]. destruct kids; [done|]. by eauto. }
  rewrite Hs in M. eauto.
Qed.
