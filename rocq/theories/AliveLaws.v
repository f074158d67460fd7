(** What a run waits for (C82). *)
From Coq Require Import ssreflect.
From Verif Require Import SpecAlive ServiceFacts SubstFacts SpecEvents ExecFacts VisitFacts HandleFacts StepFacts EventFacts MicroSteps OwnFacts ProcFacts LifeFacts EscalateFacts ProgressFacts AliveFacts.

Definition K (s : st) (f : nat) : Prop :=
  In f (ufuts s) \/ (exists a, completes_process a f s) \/ (exists a, completes_timer a f s) \/ (exists a, executed_again a s).
Record jinv (s : st) : Prop := {
  ji_own : own s; ji_alive : ainv s;
  ji_coros : forall a f, coros s !! a = Some f -> In f (ufuts s);
  ji_cfuts : forall f, In f (cfuts (cx s)) -> In f (ufuts s) }.

Section laws.
Context (w : world).
Notation R := (rtc (micro w)).
Lemma jinv_micro s s' : micro w s s' -> jinv s -> jinv s'.
Proof.
  intros H [O A C F]. pose proof (lent_micro w s s' H) as [_ L1 L2 L3]. split.
  - by eapply own_micro.
  - by eapply ainv_micro.
  - intros a f [Hf|[Hf _]]%L2; [|done]. by eapply L1, C.
  - intros f [Hf|Hf]%L3; [|done]. by apply L1, F.
Qed.
Lemma jinv_init n e : jinv (init n e).
Proof.
  split; [apply own_init| |done|done].
  split; [intros [a|a]; simpl; intros x f Hx; by rewrite lookup_empty in Hx|]. split; intros a x; simpl; rewrite lookup_empty //.
Qed.
Lemma jinv_reachable s : reachable w s -> jinv s.
Proof. apply (micro_reachable w jinv); [apply jinv_init|apply jinv_micro]. Qed.
Lemma jinv_rtc s s' : R s s' -> jinv s -> jinv s'.
Proof. induction 1 as [|s s1 s2 H1 _ IH]; [done|]. intros HJ. apply IH. by eapply jinv_micro. Qed.
Lemma K_rtc s s' f : R s s' -> jinv s -> K s f -> K s' f.
Proof.
  induction 1 as [|s s1 s2 H1 _ IH]; [done|]. intros HJ HK. apply IH; [by eapply jinv_micro|]. clear IH.
  destruct HJ as [O A _ _]. destruct (micro_actions w s s1 O (ai_regs _ A) H1) as (M1 & M2 & M3).
  destruct HK as [Hf|[[a Ha]|[[a Ha]|[a Ha]]]].
  - left. by apply (lent_micro w s s1 H1).
  - right. left. exists a. auto.
  - right. right. destruct (M2 _ _ Ha); [left|right]; by exists a.
  - right. right. right. exists a. auto.
Qed.
Lemma K_own e s : jinv s -> Forall (K s) (own_future e s).
Proof.
  intros HJ. rewrite /own_future. destruct (get_future e s) as [f|] eqn:E; constructor; [|constructor].
  destruct e as [l|a c k]; [done|]. destruct k; try done; simpl in E.
  - destruct (timers s !! a) as [t|] eqn:Et; [|done]. right. right. left. exists a, t. done.
  - destruct (procs s !! a) as [p|] eqn:Ep; [|done]. right. left. exists a, p. done.
  - left. by eapply (ji_coros _ HJ).
  - destruct (procs s !! a) as [p|] eqn:Ep; [|done]. right. left. exists a, p. done.
Qed.
Lemma K_all_rtc s s' l : R s s' -> jinv s -> Forall (K s) l -> Forall (K s') l.
Proof. intros HR HJ HF. eapply (Forall_impl _ _ _ HF). intros f. by apply K_rtc. Qed.
Lemma K_visit fuel : forall e s s' fs, jinv s -> visit_all w fuel e s = (s', Ok fs) -> Forall (K s') fs.
Proof.
  induction fuel as [|fuel IH]; intros e s s' fs HJ; rewrite visit_all_eq; [done|].
  intros [(s1 & subs & E1 & E2)|[(x & _ & ?)|[_ ?]]]%bindS_inv; [|done..].
  assert (jinv s1) as J1. { eapply jinv_rtc; [|exact HJ]. by eapply (R_visit_one w). }
  revert E2. intros [(s2 & gs & E2 & E3)|[(x & _ & ?)|[_ ?]]]%bindS_inv; [|done..]. injection E3 as <- <-.
  assert (R s1 s2 /\ Forall (K s2) gs) as [R2 F2].
  { clear HJ E1. revert s1 s2 gs J1 E2. induction subs as [|x subs IHs]; intros s1 s2 gs J1; cbn [visit_list].
    - intros [= <- <-]. by split; [|constructor].
    - intros [(s3 & ga & E4 & E5)|[(y & _ & ?)|[_ ?]]]%bindS_inv; [|done..].
      assert (R s1 s3) as R3 by (by eapply (R_visit_all w)).
      revert E5. intros [(s4 & gb & E5 & E6)|[(y & _ & ?)|[_ ?]]]%bindS_inv; [|done..]. injection E6 as <- <-.
      assert (jinv s3) as J3 by (by eapply jinv_rtc).
      destruct (IHs s3 s4 gb J3 E5) as [R4 F4]. split; [by etrans|]. apply Forall_app. split; [|done].
      eapply K_all_rtc; [exact R4|done|]. exact (IH _ _ _ _ J1 E4). }
  apply Forall_app. split; [done|]. apply K_own. by eapply jinv_rtc.
Qed.
(** ** Events *)
Definition D (s s' : st) : Prop := R s s' /\ (jinv s -> Forall (K s) (efuts s) -> Forall (K s') (efuts s')).
#[local] Instance D_pre : PreOrder D.
Proof.
  split; [intros s; split; [apply rtc_refl|auto]|]. intros s1 s2 s3 [R1 H1] [R2 H2]. split; [by etrans|]. intros J1 F1. apply H2; [by eapply jinv_rtc|auto].
Qed.
Lemma D_same s s' : R s s' -> (jinv s -> efuts s' = efuts s) -> D s s'.
Proof. intros HR E. split; [done|]. intros HJ HF. rewrite E //. by eapply K_all_rtc. Qed.
Lemma jinv_wf s : jinv s -> ExecFacts.wf s.
Proof. intros HJ f. apply (ow_wf _ (ji_own _ HJ)). Qed.
Lemma D_gframe {A} q b (m : st -> st * res A) : pres R m -> pres (gframe_wf w q b) m -> pres D m.
Proof. intros HR HG s s' r E. apply D_same; [by eapply HR|]. intros HJ. by apply (vf_efuts _ _ _ _ _ (HG _ _ _ E (jinv_wf _ HJ))). Qed.
Lemma D_mod f : (forall s, R s (f s)) -> (forall s, efuts (f s) = efuts s) -> pres D (modS f).
Proof. intros HR HE. apply pres_mod. intros s. apply D_same; [apply HR|]. intros _. apply HE. Qed.
Lemma D_body b e : pres D (run_body w b e).
Proof.
  assert (b = HSvcShutdown \/ b <> HSvcShutdown) as [->|Hb] by (destruct b; by (left + right)).
  - intros s s' r E. apply D_same; [by eapply (R_run_body w)|]. by injection E as <- _.
  - eapply D_gframe; [apply R_run_body|]. by apply P_run_body.
Qed.
Lemma D_ents fuel l : pres D (visit_ents w fuel l).
Proof.
  induction l as [|x l IH]; cbn [visit_ents]; [apply pres_ret, _|]. intros s s' r.
  intros [(s1 & fs & E1 & E2)|[(y & E1 & ->)|[E1 ->]]]%bindS_inv.
  2,3: by eapply (D_gframe _ _ _ (R_visit_all w fuel x) (visit_all_frame w fuel x)).
  revert E2. rewrite {1}/bindS /=. set (s2 := s1 <| efuts ::= _ |>). intros E2.
  assert (R s s1) as R1 by (by eapply (R_visit_all w)).
  assert (R s1 s2) as R2 by (apply Ru; utf).
  etrans; [|by eapply IH]. split; [by etrans|]. intros HJ HF.
  assert (efuts s1 = efuts s) as E3 by (by apply (vf_efuts _ _ _ _ _ (visit_all_frame w _ _ _ _ _ E1 (jinv_wf _ HJ)))).
  assert (jinv s1) as J1 by (by eapply jinv_rtc).
  eapply K_all_rtc; [exact R2|done|]. simpl. apply Forall_app. split.
  - rewrite E3. exact (K_all_rtc _ _ _ R1 HJ HF).
  - exact (K_visit _ _ _ _ _ HJ E1).
Qed.
Lemma D_handle_one fuel h e : pres D (handle_one w fuel h e).
Proof.
  rewrite handle_one_eq. apply pres_bind; [apply _|apply D_mod; [intros; by apply Robs|done]|intros _].
  apply pres_bind; [apply _|apply D_mod; [|done]|intros _]. { intros s. apply Rcx; try done; auto. }
  apply pres_bind; [apply _| |intros ents].
  { rewrite /handle. apply pres_bind; [apply _| |intros _; apply pres_bind; [apply _| |intros _; apply D_body]].
    - eapply D_gframe; [|apply P_base_handle]. rewrite /base_handle. apply R_bind; [apply R_mod; intros s; by apply Rcx|intros _].
      destruct (h_once h); [|apply R_ret]. intros s s' r E. pose proof (R_unregister w (h_id h) s) as HF. by rewrite E in HF.
    - apply D_mod; [intros; by apply Robs|done]. }
  apply pres_bind; [apply _|apply D_ents|intros _]. intros s s' r. rewrite /on_ctx /pop_locals.
  destruct (locals_stack (cx s)); intros [= <- _]; apply D_same; try done; by apply Rcx.
Qed.
Lemma D_event fuel e : pres D (process_event w fuel e).
Proof.
  intros s. rewrite /process_event. generalize (handlers (cx s)) as hs. intros hs. revert s.
  change (pres D (handle_list w fuel hs e)). induction hs as [|h hs IH]; simpl; [apply pres_ret, _|].
  apply pres_bind; [apply _| |by intros _]. destruct (matches w h e); [apply D_handle_one|apply pres_ret, _].
Qed.
(** ** Steps *)
Lemma efuts_step l s s' : wfu s -> (forall fuel, l <> LEvent fuel) -> step w l s = Some s' -> forall f, In f (efuts s') -> In f (efuts s).
Proof.
  intros Hw Hl. destruct (foreign l) eqn:Hf.
  - intros E%(misc_step w l s s' Hw Hf). destruct E as (E & _). by destruct (svf_inv _ _ E) as (_ & _ & _ & _ & ->).
  - destruct l; try done; cbn [step]; rewrite /loop_step.
    all: try match goal with |- (if in_loop ?x then _ else _) = _ -> _ => destruct (in_loop x) eqn:Hil; [|done] end.
    + rewrite /run_step. destruct (sdt s); try done. destruct (loop_thread s); [destruct (in_loop s); [|done]|destruct (rpc s); try done]; by intros [= <-].
    + destruct (rpc s); try done. intros [= <-]. rewrite /main_step. case_match; [|case_match].
      * destruct (svc_shutdown_sv "idle" false (prune s)) as (_ & _ & _ & E & _). rewrite E /=. by intros f [Hi _]%filter_In.
      * simpl. by intros f [Hi _]%filter_In.
      * simpl. by intros f [Hi _]%filter_In.
    + destruct (rpc s); try done. intros [(_ & ->)|[(_ & _ & ->)|(_ & _ & ->)]]%wake_inv; try done.
      destruct (svc_shutdown_sv "exception" false s) as (_ & _ & _ & E & _). by rewrite /= E.
    + destruct (rpc s), (sdt s); try done. by intros [= <-].
    + by destruct (Hl fuel).
    + destruct (rpc s); try done. destruct (unretrieved s); [|done]. by intros [= <-].
    + destruct (rpc s); try done. intros [= <-]. destruct (sigint_seen s); [done|].
      destruct (svc_shutdown_sv "ctrl-c (SIGINT)" true s) as (_ & _ & _ & E & _). by rewrite /= E.
    + destruct (rpc s); try done. by intros [= <-].
    + destruct (sdt s); try done. destruct (loop_thread s); [destruct (shutting_down s)|]; by intros [= <-].
    + destruct (sdt s); try done. by intros [= <-].
    + destruct (sdt s); try done. destruct (in_loop s); [|done]. by intros [= <-].
    + destruct (sdt s); try done. by intros [= <-].
    + destruct (sdt s); try done. destruct (in_loop s); [|done]. destruct (loop_thread s); [|by intros [= <-]].
      destruct awaited; intros [= <-]; [|done]. destruct (svc_shutdown_sv "LaunchService.shutdown() called" false s) as (_ & _ & _ & E & _). by rewrite E.
Qed.
Lemma K_reachable s : reachable w s -> Forall (K s) (efuts s).
Proof.
  revert s. apply reachable_ind'; [constructor|]. intros l s s' Hr IH E.
  pose proof (jinv_reachable s Hr) as HJ. pose proof (reachable_wfu w s Hr) as Hw.
  assert (R s s') as HR by (by eapply R_step).
  assert ((exists fuel, l = LEvent fuel) \/ forall fuel, l <> LEvent fuel) as [[fuel ->]|Hl].
  { destruct l; try (by right). left. by eexists. }
  - destruct (step_cases w _ s s' Hw E) as [(_ & Hne & _)|[(i & f & e & ? & _)|(fu & e & q & s2 & r & _ & Hi & He & Hq & Ep & Hr' & ->)]]; [by destruct (Hne fuel)|done|].
    destruct (D_event fu e _ _ _ Ep) as [_ HD].
    assert (R s (deq s e q)) as R1. { rewrite /deq. etrans; [|by apply Robs]. by apply Rcx. }
    assert (Forall (K s2) (efuts s2)) as HK.
    { apply HD; [by eapply jinv_rtc|]. exact (K_all_rtc _ _ _ R1 HJ IH). }
    exact HK.
  - apply List.Forall_forall. intros f Hf. apply (K_rtc s s' f HR HJ).
    rewrite List.Forall_forall in IH. apply IH. by eapply efuts_step.
Qed.
Lemma busy_process a s : busy (ByProcess a) s -> process_alive a s \/ crashed (ByProcess a) s.
Proof.
  intros (t & Ht & Ho). destruct t; try done; simpl in Ho; simplify_eq.
  all: try by (left; eexists; split; [exact Ht|]).
  right. by exists e.
Qed.
Lemma busy_timer a s : busy (ByTimer a) s -> timer_waits a s \/ crashed (ByTimer a) s.
Proof.
  intros (t & Ht & Ho). destruct t; try done; simpl in Ho; simplify_eq.
  all: try by (left; eexists; split; [exact Ht|]).
  right. by exists e.
Qed.
Lemma alive_law s f : reachable w s -> awaited f s -> f_is_done f s = false ->
  In f (ufuts s) \/
  (exists a, completes_process a f s /\ (process_alive a s \/ crashed (ByProcess a) s \/ never_began a s)) \/
  (exists a, completes_timer a f s /\ (timer_waits a s \/ crashed (ByTimer a) s)) \/
  (exists a, executed_again a s).
Proof.
  intros Hr Ha Hd. pose proof (jinv_reachable s Hr) as HJ.
  assert (K s f) as HK.
  { destruct Ha as [Ha|Ha]; [|left; by apply (ji_cfuts _ HJ)].
    pose proof (K_reachable s Hr) as HF. rewrite List.Forall_forall in HF. by apply HF. }
  destruct HK as [Hf|[[a Ha']|[[a Ha']|Hx]]]; [by left| | |by right; right; right].
  - right. left. exists a. split; [done|]. destruct Ha' as (p & Hp & Hf). destruct (x_begun p) eqn:Hb.
    + destruct (ai_fine _ (ji_alive _ HJ) (ByProcess a) p f Hp Hf Hb) as [H|H%busy_process]; [congruence|tauto].
    + right. right. exists p. by rewrite Hf.
  - destruct Ha' as (t & Ht & Hf). destruct (decide (2 <= t_gen t)%nat) as [Hg|Hg].
    + right. right. right. by exists a, t.
    + right. right. left. exists a. split; [by exists t|].
      destruct (ai_fine _ (ji_alive _ HJ) (ByTimer a) t f Ht Hf) as [H|H%busy_timer]; [lia|congruence|done].
Qed.
Lemma done_law s : reachable w s -> queue (cx s) = [] -> (forall f, In f (ufuts s) -> f_is_done f s = true) ->
  (forall a, ~ process_alive a s /\ ~ crashed (ByProcess a) s /\ ~ never_began a s) ->
  (forall a, ~ timer_waits a s /\ ~ crashed (ByTimer a) s /\ ~ executed_again a s) -> nothing_left s.
Proof.
  intros Hr Hq Hu Hp Ht. split; [done|]. intros f Ha. destruct (f_is_done f s) eqn:Hd; [done|].
  destruct (alive_law s f Hr Ha Hd) as [H|[(a & _ & H)|[(a & _ & H)|(a & H)]]].
  - by rewrite (Hu f H) in Hd.
  - destruct (Hp a) as (? & ? & ?). tauto.
  - destruct (Ht a) as (? & ? & ?). tauto.
  - by destruct (Ht a) as (_ & _ & []).
Qed.

(** ** A run that waits for an action that is gone *)
Definition gone (v : aview) : Prop := v_on v = true /\ v_comp v = Some false /\ v_ph v = [].
Lemma gone_step a v l v' : astep a v l v' -> avok v -> gone v -> gone v'.
Proof.
  intros H [A1 _ _ _ _ _ _] (G1 & G2 & G3). rewrite /gone. destruct H; try (by split_and!); try congruence.
  rewrite A1 in G1; done.
Qed.
Lemma completes_rtc a f s s' : R s s' -> jinv s -> completes_process a f s -> completes_process a f s'.
Proof.
  induction 1 as [|s s1 s2 H1 _ IH]; [done|]. intros HJ Hc. apply IH; [by eapply jinv_micro|].
  by apply (micro_actions w s s1 (ji_own _ HJ) (ai_regs _ (ji_alive _ HJ)) H1).
Qed.
Lemma ptasks_alive a s : ~ process_alive a s -> ptasks a s = [].
Proof.
  intros Hn. rewrite /ptasks. destruct (List.filter (ptask a) (tasks s)) as [|t l] eqn:E; [done|].
  assert (In t (List.filter (ptask a) (tasks s))) as [Ht Hp]%filter_In by (rewrite E; by left).
  destruct Hn. exists t. split; [done|]. destruct t; try done; simpl in Hp; by apply bool_decide_eq_true in Hp.
Qed.
Lemma phases_none l : phases l = [] -> l = [].
Proof. by destruct l. Qed.
Lemma gone_view a f s : reachable w s -> completes_process a f s -> f_is_done f s = false -> ~ process_alive a s -> gone (view a s).
Proof.
  intros Hr (p & Hp & Hf) Hd Ha. pose proof (okst_reachable w s Hr) as [HP _ _]. rewrite /gone /view /viewf (ptasks_alive a s Ha) /key Hp /= Hf /=.
  assert (linked a s) as HL by apply HP. rewrite /linked /link /key Hp /= in HL. destruct HL as [L1 _ _ _].
  split_and!; [|by f_equal|done]. destruct (x_executed p) eqn:Ee; [done|]. destruct (L1 Ee) as (_ & _ & Hn & _). simpl in Hn. congruence.
Qed.
Lemma gone_rtc a f s s' : reachable w s -> R s s' -> completes_process a f s -> f_is_done f s = false -> ~ process_alive a s ->
  completes_process a f s' /\ f_is_done f s' = false /\ ~ process_alive a s'.
Proof.
  intros Hr HR Hc Hd Ha. pose proof (completes_rtc a f s s' HR (jinv_reachable s Hr) Hc) as Hc'.
  pose proof (closed_rtc w a gone s s' (okst_reachable w s Hr) HR (gone_step a) (gone_view a f s Hr Hc Hd Ha)) as (_ & G2 & G3).
  split; [done|]. destruct Hc' as (p & Hp & Hf). rewrite /view /viewf /key Hp /= in G2 G3. rewrite Hf /= in G2. split; [by injection G2|].
  apply phases_none in G3. intros (t & Ht & Hm).
  assert (In t (ptasks a s')) as Hx; [|by rewrite G3 in Hx].
  apply filter_In. split; [done|]. destruct t; try done; simpl; subst; by apply bool_decide_eq_true.
Qed.
Lemma R_steps s ls s' : reachable w s -> steps w s ls s' -> R s s'.
Proof.
  intros Hr H. induction H as [|s l s1 ls s2 H1 _ IH]; [done|]. etrans; [by eapply R_step|]. apply IH. by eapply reachable_step.
Qed.
Lemma gone_steps a f s ls s' : reachable w s -> steps w s ls s' -> completes_process a f s -> f_is_done f s = false -> ~ process_alive a s -> awaited f s ->
  completes_process a f s' /\ f_is_done f s' = false /\ ~ process_alive a s' /\ awaited f s'.
Proof.
  intros Hr Hs Hc Hd Ha Hw. destruct (gone_rtc a f s s' Hr (R_steps s ls s' Hr Hs) Hc Hd Ha) as (H1 & H2 & H3). split_and!; [done..|].
  destruct (awaited_steps w f s ls s' Hr Hs (or_introl Hw)) as [|H4]; [done|congruence].
Qed.
Lemma gone_returns a f s ls s1 l s2 : reachable w s -> completes_process a f s -> f_is_done f s = false -> ~ process_alive a s -> awaited f s ->
  steps w s ls s1 -> step w l s1 = Some s2 -> in_run s1 = true -> in_run s2 = false -> run_cancelled w s1.
Proof.
  intros Hr Hc Hd Ha Hw Hs H1 H2 H3. destruct (gone_steps a f s ls s1 Hr Hs Hc Hd Ha Hw) as (_ & Hd1 & _).
  destruct (returns_done w f s ls l s1 s2 Hr Hw Hs H1 H2 H3) as [|H4]; [done|congruence].
Qed.
End laws.
