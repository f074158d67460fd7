(** What one step of the service can and cannot change. *)
From Coq Require Import ssreflect.
From Verif Require Import SubstFacts SpecContext SpecVisit ExecFacts VisitFacts HandleFacts.

(** Every future owned by user code exists; numbers are given once. *)
Definition wfu (s : st) : Prop := wf s /\ Forall (fun f => is_Some (futs s !! f)) (ufuts s).

(** The common part of all steps. *)
Record tframe (w : world) (q : obs -> bool) (s s' : st) : Prop := {
  tf_log : exists l, hist s' = hist s ++ l /\ Forall (fun o => q o = true) l /\
                     queue (cx s') = queue (cx s) ++ emitted l;
  tf_futs : futs_le s s';
  tf_ufuts : exists l, ufuts s' = l ++ ufuts s /\ Forall (newf s s') l;
  tf_srcs : srcs_le w s s';
  tf_regs : regs_le s s';
  tf_hsrc : hsrc s s';
  tf_env : env_reset (cx s') = env_reset (cx s);
  tf_nonint : noninteractive (cx s') = noninteractive (cx s);
  tf_pcount : (pcount s <= pcount s')%Z;
  tf_cbs : exists l, cbs s' = cbs s ++ l;
  tf_ldom : q (OHandle (Gen 0) (EvUser 0)) = false -> ldom s s' }.
(** Steps other than processing an event. *)
Definition unhandled (o : obs) : bool := match o with OProcess _ | OHandle _ _ | OBody _ _ _ => false | _ => true end.
(** Processing an event, once it was taken from the queue. *)
Definition untaken (o : obs) : bool := match o with OProcess _ => false | _ => true end.

Section step.
Context (w : world).
Section generic.
Context (q : obs -> bool).
Notation tframe := (tframe w q).
Lemma tframe_refl s : tframe s s.
Proof.
  constructor; try done.
  - exists []. by rewrite !app_nil_r.
  - apply futs_le_refl.
  - by exists [].
  - by apply srcs_le_same.
  - apply hsrc_hreg; [constructor|by exists []].
  - exists []. by rewrite app_nil_r.
Qed.
Lemma tframe_trans a b c : tframe a b -> tframe b c -> tframe a c.
Proof.
  intros [L1 F1 U1 Y1 R1 I1 E1 N1 P1 B1 D1] [L2 F2 U2 Y2 R2 I2 E2 N2 P2 B2 D2].
  destruct B1 as (b1 & Hb1), B2 as (b2 & Hb2).
  pose proof F1 as (M1 & _). pose proof F2 as (M2 & _).
  destruct L1 as (l1 & Hl1 & Q1 & Hq1), L2 as (l2 & Hl2 & Q2 & Hq2).
  destruct U1 as (u1 & Hu1 & Un1), U2 as (u2 & Hu2 & Un2).
  constructor.
  - exists (l1 ++ l2). split_and!; [by rewrite Hl2 Hl1 app_assoc|by apply Forall_app|].
    by rewrite Hq2 Hq1 emitted_app app_assoc.
  - by eapply futs_le_trans.
  - exists (u2 ++ u1). split; [by rewrite Hu2 Hu1 app_assoc|].
    apply Forall_app; split; [by eapply newf_l|by eapply newf_r].
  - intros src ld Hld. destruct (Y2 _ _ Hld) as [H|]; [|by right]. exact (Y1 _ _ H).
  - intros n. specialize (R1 n). specialize (R2 n). lia.
  - destruct I1 as [I1 J1], I2 as [I2 J2]. split; [auto|].
    intros h Hh. destruct (J2 _ Hh) as [H|[H|H]]; [|by auto..].
    destruct (J1 _ H) as [H1|[H1|H1]]; auto.
  - congruence.
  - congruence.
  - lia.
  - exists (b1 ++ b2). by rewrite Hb2 Hb1 app_assoc.
  - intros Hq k Hk. apply (D2 Hq), (D1 Hq), Hk.
Qed.
#[global] Instance tframe_preorder : PreOrder tframe.
Proof. split; [exact tframe_refl|exact tframe_trans]. Qed.
Lemma wfu_tframe s s' : wfu s -> tframe s s' -> wfu s'.
Proof.
  intros [Hw Hu] HF. destruct (tf_futs _ _ _ _ HF) as (N & F & G). split.
  - intros f Hf. destruct (futs s' !! f) eqn:E; [|done]. exfalso.
    destruct (decide (futs s !! f = None)) as [Hn|Hn].
    + assert (is_Some (futs s' !! f)) as Hs by (by rewrite E). specialize (G f Hn Hs). lia.
    + apply Hn, Hw. lia.
  - destruct (tf_ufuts _ _ _ _ HF) as (l & -> & Hl). apply Forall_app. split.
    + apply (Forall_impl _ _ _ Hl). by intros f [_ ?].
    + apply (Forall_impl _ _ _ Hu). intros f [x Hx]. destruct (F _ _ Hx) as (x' & Hx' & _). by rewrite Hx'.
Qed.
(** Fields not mentioned in the frame may change. *)
Lemma tframe_same s s' :
  log s' = log s -> queue (cx s') = queue (cx s) -> futs_le s s' ->
  (exists l, ufuts s' = l ++ ufuts s /\ Forall (newf s s') l) ->
  srcs s' = srcs s -> handlers (cx s') = handlers (cx s) -> env_reset (cx s') = env_reset (cx s) ->
  noninteractive (cx s') = noninteractive (cx s) -> pcount s' = pcount s ->
  cbs s' = cbs s -> locals (cx s') = locals (cx s) -> tframe s s'.
Proof.
  intros Hl Hq Hf Hu Hs Hh He Hn Hp Hb Hlo. constructor; try done.
  - exists []. rewrite !app_nil_r /hist Hl. by split_and!.
  - by apply srcs_le_same.
  - apply regs_le_hreg; [rewrite Hh; constructor|exists []; by rewrite Hl].
  - apply hsrc_hreg; [rewrite Hh; constructor|exists []; by rewrite Hl].
  - by rewrite Hp.
  - exists []. by rewrite app_nil_r.
  - intros _ k. by rewrite Hlo.
Qed.
Lemma tframe_same' s s' :
  log s' = log s -> queue (cx s') = queue (cx s) -> futs s' = futs s -> next s' = next s -> ufuts s' = ufuts s ->
  srcs s' = srcs s -> handlers (cx s') = handlers (cx s) -> env_reset (cx s') = env_reset (cx s) ->
  noninteractive (cx s') = noninteractive (cx s) -> pcount s' = pcount s ->
  cbs s' = cbs s -> locals (cx s') = locals (cx s) -> tframe s s'.
Proof.
  intros Hl Hq Hf Hn Hu. apply tframe_same; try done.
  - apply futs_le_same; [done|by rewrite Hn].
  - by exists [].
Qed.
Lemma tframe_emit e s : q (OEmit e) = true -> tframe s (emit e s).
Proof.
  intros Hq. constructor; simpl; try done.
  - exists [OEmit e]. split_and!; [done|by repeat constructor|done].
  - by apply futs_le_same.
  - by exists [].
  - by apply srcs_le_same.
  - apply hsrc_hreg; [constructor|by eexists [_]].
  - exists []. by rewrite app_nil_r.
Qed.
Lemma tframe_obs o s : q o = true -> (forall e, o <> OEmit e) -> noreg o = true -> tframe s (obs1 o s).
Proof.
  intros Hq He Hnr. constructor; simpl; try done.
  - exists [o]. split_and!; [done|by repeat constructor|].
    destruct o; simpl; rewrite ?app_nil_r //. by destruct (He e).
  - by apply futs_le_same.
  - by exists [].
  - by apply srcs_le_same.
  - apply regs_le_hreg; [constructor|]. exists [o]. by rewrite /= Hnr.
  - apply hsrc_hreg; [constructor|by eexists [_]].
  - exists []. by rewrite app_nil_r.
Qed.
Lemma gframe_tframe q' b s s' : (forall o, q' o = true -> q o = true) -> gframe w q' b s s' -> tframe s s'.
Proof.
  intros Hq HF. destruct HF as [L ? S ? ? ? ? ? ? ? ? ? ? ? ? ?]. constructor; try done; try apply S.
  destruct L as (l & ? & HF & ?). exists l. split_and!; [done| |done]. apply (Forall_impl _ _ _ HF). auto.
Qed.
End generic.
Lemma hframe_tframe s s' : hframe w s s' -> tframe w untaken s s'.
Proof.
  intros HF. destruct HF as [L ? S ? ? ? ? ? ? ? ? ? ?]. constructor; try done; try apply S.
  destruct L as (l & ? & HF & ?). exists l. split_and!; [done| |done]. apply (Forall_impl _ _ _ HF). by intros [].
Qed.
Notation T := (tframe w unhandled).
Lemma inner_unhandled o : inner o = true -> unhandled o = true.
Proof. by destruct o. Qed.
Ltac same := apply tframe_same'; done.

Lemma set_flags_frame s : T s (set_flags s).
Proof. same. Qed.
Lemma svc_shutdown_frame r b s : T s (svc_shutdown r b s).
Proof. rewrite /svc_shutdown. destruct (shutting_down s); [|etrans; [by apply tframe_emit|]]; apply set_flags_frame. Qed.
Lemma prune_frame s : T s (prune s).
Proof. same. Qed.
Lemma main_step_frame s : T s (main_step s).
Proof.
  rewrite /main_step. case_match; [etrans; [apply prune_frame|apply svc_shutdown_frame]|].
  case_match; same.
Qed.
Lemma wake_step_frame ws s s' : wake_step ws s = Some s' -> T s s'.
Proof.
  rewrite /wake_step. destruct (_ || existsb _ ws); [|done]. intros [= <-].
  destruct (existsb _ ws); [same|]. destruct (_ || existsb _ ws); [|same].
  etrans; [apply svc_shutdown_frame|]. same.
Qed.
Lemma move_events_eq old new : move_events old new = new ++ old.
Proof. revert new. induction old as [|e old IH]; intros new; simpl; [by rewrite app_nil_r|]. by rewrite IH -app_assoc. Qed.
Lemma run_step_frame wi s s' : run_step wi s = Some s' -> T s s'.
Proof.
  rewrite /run_step. destruct (sdt s); try done. destruct (loop_thread s).
  - destruct (in_loop s); [|done]. intros [= <-]. etrans; [|by apply tframe_obs]. same.
  - destruct (rpc s); try done. intros [= <-]. etrans; [|by apply tframe_obs]. apply tframe_same'; try done.
    by rewrite /= move_events_eq.
Qed.
Lemma set_result_tframe f s s' r : set_result f s = (s', r) -> T s s'.
Proof. intros E. eapply gframe_tframe; [apply inner_unhandled|]. by eapply (set_result_frame (nb:=true)). Qed.
Lemma timer_cancel_tframe a s : T s (timer_cancel a s).
Proof. eapply gframe_tframe; [apply inner_unhandled|apply timer_cancel_frame]. Qed.
Lemma new_future_tframe s : wf s -> T s (new_future s).1.
Proof. intros Hw. eapply gframe_tframe; [apply inner_unhandled|]. by apply (new_future_frame (nb:=true)). Qed.
Lemma cleanup_frame a s s' r : cleanup a s = (s', r) -> T s s'.
Proof.
  rewrite /cleanup. destruct (procs s !! a) as [p|]; [|by intros [= <- _]].
  set (s1 := match x_sigterm p with Some t => _ | None => _ end).
  set (s2 := match x_sigkill p with Some t => _ | None => _ end).
  set (s3 := match x_transport p with Some t => _ | None => _ end).
  assert (T s s3) as H3.
  { trans s1; [rewrite /s1; destruct (x_sigterm p); [apply timer_cancel_tframe|done]|].
    trans s2; [rewrite /s2; destruct (x_sigkill p); [apply timer_cancel_tframe|done]|].
    rewrite /s3. destruct (x_transport p); [same|done]. }
  destruct (x_completed p); [|by intros [= <- _]]. intros E. etrans; [exact H3|by eapply set_result_tframe].
Qed.
Lemma task_res_frame i s s1 r : T s s1 -> T s (task_res i (s1, r)).
Proof. intros H. etrans; [exact H|]. destruct r; same. Qed.
Lemma on_ctx_tframe {A} (m : ctx -> ctx * res A) s s' r : frames m -> on_ctx m s = (s', r) -> T s s'.
Proof. intros Hm E. eapply gframe_tframe; [apply inner_unhandled|]. by eapply (pres_on_ctx (nb:=true) m Hm). Qed.
Lemma timer_init_frame i a s s' : timer_init w i a s = Some s' -> T s s'.
Proof.
  rewrite /timer_init. destruct (timers s !! a) as [t|]; [|done].
  destruct (on_ctx _ s) as [s1 r] eqn:E.
  assert (T s s1) as H1. { eapply on_ctx_tframe; [apply (perform_fval_frame w (t_period t))|exact E]. }
  intros H. etrans; [exact H1|]. destruct (t_canceled_fut t), r as [p| |]; simplify_eq; try same.
  etrans; [by apply (tframe_obs _ (OArmed a p (now s1)))|]. same.
Qed.
Lemma timer_wake_frame i a f dl s s' : timer_wake i a f dl s = Some s' -> T s s'.
Proof.
  rewrite /timer_wake. case_match; [|done]. destruct (timers s !! a) as [t|]; [|done].
  destruct (t_canceled_fut t) as [fx|], (t_completed t) as [fc|]; try done. intros [= <-].
  set (s1 := if f_is_done fx s then _ else _).
  assert (T s s1) as H1. { rewrite /s1. destruct (f_is_done fx s); [done|]. etrans; [by apply (tframe_obs _ (OFire a (now s)))|by apply tframe_emit]. }
  destruct (set_result fc s1) as [s2 r] eqn:E. apply task_res_frame. etrans; [exact H1|by eapply set_result_tframe].
Qed.
Lemma proc_init_frame i a s s' : proc_init w i a s = Some s' -> T s s'.
Proof.
  rewrite /proc_init. destruct (procs s !! a) as [p|]; [|done]. destruct (x_det p) as [d|]; [|intros [= <-]; same].
  destruct (lc (cx s) !! "emulate_tty") as [v|].
  - destruct (on_ctx _ s) as [s1 r] eqn:E.
    assert (T s s1) as H1. { eapply on_ctx_tframe; [apply (evaluate_frame w (CIf [SText v]))|exact E]. }
    destruct r; intros [= <-]; (etrans; [exact H1|same]).
  - intros [= <-]. same.
Qed.
Lemma proc_again_frame i a s : T s (proc_again i a s).
Proof. rewrite /proc_again. case_match; same. Qed.
Lemma proc_exited_frame i a d rc s s' : proc_exited i a d rc s = Some s' -> T s s'.
Proof.
  rewrite /proc_exited. destruct (procs s !! a) as [p|]; [|done].
  set (s1 := emit _ _). assert (T s s1) as H1.
  { etrans; [by apply (tframe_obs _ (OLife (EvExited a d rc)))|by apply tframe_emit]. }
  destruct (negb _ && _ && _ && _).
  - set (s2 := upd_proc a _ s1). assert (T s s2) as H2. { etrans; [exact H1|same]. }
    destruct (p_delay (x_cfg p)) as [dl|]; [case_match|]; intros [= <-]; (etrans; [exact H2|]);
      [apply proc_again_frame|same|apply proc_again_frame].
  - intros [= <-]. destruct (cleanup a s1) as [s2 r] eqn:E. apply task_res_frame.
    etrans; [exact H1|by eapply cleanup_frame].
Qed.
Lemma proc_delay_frame i a dl s s' : proc_delay i a dl s = Some s' -> T s s'.
Proof.
  rewrite /proc_delay. destruct (procs s !! a) as [p|]; [|done].
  set (sd := match x_shutdown p with Some f => _ | None => _ end). destruct sd.
  - intros [= <-]. destruct (cleanup a s) as [s2 r] eqn:E. apply task_res_frame. by eapply cleanup_frame.
  - destruct (Qle_bool dl (now s)); [|done]. intros [= <-]. apply proc_again_frame.
Qed.
Lemma task_step_frame i s s' : task_step w i s = Some s' -> T s s'.
Proof.
  rewrite /task_step. destruct (tasks s !! i) as [t|]; [|done]. destruct t as [a|a f dl|a|a d|a f d rc|a f d rc|a dl|]; try done.
  - apply timer_init_frame.
  - apply timer_wake_frame.
  - apply proc_init_frame.
  - intros [= <-]. etrans; [|by apply tframe_emit]. etrans; [|by apply tframe_obs]. same.
  - destruct rc; [apply proc_exited_frame|done].
  - apply proc_delay_frame.
Qed.
Lemma set_nth_length {A} i (x : A) l : length (set_nth i x l) = length l.
Proof. revert i. induction l as [|y l IH]; intros [|i]; simpl; auto. Qed.

Definition deq (s : st) (e : event) (q : list event) : st :=
  obs1 (OProcess e) (s <| cx ::= (fun c => c <| queue := q |>) |>).
(** A step either processes an event or touches no handler and takes no event. *)
Lemma step_cases l s s' : wfu s -> step w l s = Some s' ->
  (T s s' /\ (forall fuel, l <> LEvent fuel) /\ forall i, l <> LCallback i) \/
  (exists i f e, l = LCallback i /\ in_loop s = true /\ cbs s !! i = Some (f, e) /\ f_is_done f s = true /\
     s' = emit e (s <| cbs ::= del_nth i |>)) \/
  (exists fuel e q s2 r, l = LEvent fuel /\ in_loop s = true /\ evt s = ETPending /\ queue (cx s) = e :: q /\
     process_event w fuel e (deq s e q) = (s2, r) /\ r <> OutOfFuel /\ s' = s2 <| evt := ETDone r |>).
Proof.
  intros [Hw Hu]. destruct l; cbn [step]; rewrite /loop_step.
  all: try match goal with |- (if in_loop ?x then _ else _) = _ -> _ => destruct (in_loop x) eqn:Hil; [|done] end.
  all: lazymatch goal with
    | |- _ -> _ \/ (exists j g x, LCallback _ = _ /\ _) \/ _ => idtac
    | |- _ => try (intros Hst; left; split; [revert Hst|done])
    end.
  - apply run_step_frame.
  - destruct (rpc s); try done. intros [= <-]. apply main_step_frame.
  - destruct (rpc s); try done. apply wake_step_frame.
  - destruct (rpc s), (sdt s); try done. intros [= <-]. etrans; [|by apply tframe_obs]. same.
  - destruct (evt s) eqn:He; try done. destruct (queue (cx s)) as [|e q] eqn:Hq; [done|].
    rewrite /process_one Hq. destruct (process_event w fuel e _) as [s2 r] eqn:E. intros Hst. right. right.
    exists fuel, e, q, s2, r. split_and!; try done; [by destruct r|]. destruct r; by simplify_eq.
  - destruct (rpc s); try done. destruct (unretrieved s); [|done]. intros [= <-]. same.
  - destruct (rpc s); try done. intros [= <-]. destruct (sigint_seen s); [done|].
    etrans; [apply svc_shutdown_frame|same].
  - destruct (rpc s); try done. intros [= <-]. same.
  - intros [= <-]. by apply tframe_emit.
  - destruct (sdt s); try done. destruct (loop_thread s); [destruct (shutting_down s)|]; intros [= <-]; [same|same|done].
  - destruct (sdt s); try done. intros [= <-]. same.
  - destruct (sdt s); try done. destruct (in_loop s); [|done]. intros [= <-]. etrans; [by apply tframe_emit|same].
  - destruct (sdt s); try done. intros [= <-]. same.
  - destruct (sdt s); try done. destruct (in_loop s); [|done]. destruct (loop_thread s); [|by intros [= <-]].
    destruct awaited; intros [= <-]; [apply svc_shutdown_frame|same].
  - intros [= <-]. eapply gframe_tframe; [apply inner_unhandled|]. by apply (apply_ops_frame w).
  - destruct (existsb (Nat.eqb f) (ufuts s)) eqn:Hf; [|done]. destruct (f_is_done f s) eqn:Hd; [done|].
    destruct (f_done o); [|done]. intros [= <-]. apply tframe_same; try done; [|by exists []].
    apply existsb_exists in Hf as (g & Hg & Hfg%Nat.eqb_eq). subst g.
    rewrite ->List.Forall_forall in Hu. destruct (Hu _ Hg) as [x Hx].
    rewrite /f_is_done /f_get Hx /= in Hd. split_and!; simpl; [lia| |].
    + intros g y Hy. destruct (decide (g = f)) as [->|Hne].
      * rewrite lookup_insert. eexists. split; [done|]. intros; simplify_eq; congruence.
      * rewrite lookup_insert_ne //. eauto.
    + intros g Hg' [y Hy]. destruct (decide (g = f)) as [->|Hne]; [congruence|].
      rewrite lookup_insert_ne // in Hy. congruence.
  - apply task_step_frame.
  - destruct (cbs s !! i) as [[f e]|] eqn:Hcb; [|done]. destruct (f_is_done f s) eqn:Hd; [|done]. intros [= <-].
    right. left. by exists i, f, e.
  - destruct (Qle_bool 0 d); [|done]. intros [= <-]. same.
  - rewrite /spawn_ok. destruct (tasks s !! i) as [[]|]; try done.
    destruct (new_future s) as [s1 f] eqn:E. intros [= <-]. etrans; [|by apply tframe_obs].
    etrans; [by apply new_future_tframe|]. rewrite E. same.
  - rewrite /spawn_fail. destruct (tasks s !! i) as [[]|]; try done. intros [= <-].
    destruct (cleanup a s) as [s2 r] eqn:E. apply task_res_frame. by eapply cleanup_frame.
  - destruct (pipes s !! i) as [[[? ?] ?]|]; [|done]. intros [= <-]. by apply tframe_emit.
  - rewrite /proc_exit. destruct (tasks s !! i) as [[]|]; try done; destruct rc0; try done; intros [= <-].
    all: (etrans; [|by apply tframe_obs]); destruct (set_result complete s) as [s2 r] eqn:E;
      (etrans; [by eapply set_result_tframe|]); simpl; same.
Qed.
End step.
