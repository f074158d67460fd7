(** Proofs about starting and stopping processes (C28, C30). *)
From Coq Require Import ssreflect.
From Verif Require Import SubstFacts SpecTimer SpecEscalate ExWorld ExecFacts VisitFacts HandleFacts EventFacts StepFacts MicroSteps OwnFacts ProcFacts NameFacts LifeFacts TimerSteps StayFacts TimerFacts TimerLaws ProcLaws EscalateFacts.

Section stop.
Context (w : world).

(** ** What an execution registers *)
Lemma prepare_only a s s' : prepare_proc w a s = (s', Ok tt) ->
  log s' = log s /\ tasks s' = tasks s /\ is_shutdown (cx s') = is_shutdown (cx s) /\
  exists p p', procs s !! a = Some p /\ procs s' !! a = Some p' /\ x_onexit p' = x_onexit p /\ x_cfg p' = x_cfg p.
Proof.
  rewrite /prepare_proc. destruct (procs s !! a) as [p|] eqn:Ep; [|done].
  intros [(s1 & d & E1 & E2)|[(y & _ & ?)|[_ ?]]]%bindS_inv; [|done..].
  apply O_prepare_executable in E1 as (c1 & n1 & pc1 & _ & _ & Hs1 & _ & ->). revert E2. rewrite {1}/bindS /=.
  intros [(s3 & b & E5 & E6)|[(y & _ & ?)|[_ ?]]]%bindS_inv; [|done..].
  apply (O_on_ctx _ (perform_bval_frame w _)) in E5 as (c5 & n5 & pc5 & _ & _ & Hs5 & _ & ->).
  revert E6. intros [= <-]. split_and!; [done|done|by rewrite /= Hs5 /= Hs1|].
  exists p. eexists. split; [done|]. rewrite /= !lookup_alter Ep /=. done.
Qed.
Lemma start_only a out s s' : start_proc w a out s = (s', Ok tt) -> is_Some (procs s !! a) ->
  log s' = log s /\ tasks s' = tasks s ++ [TProcInit a] /\ completion a s' = Some false.
Proof.
  rewrite /start_proc /need_loop. destruct (loop_set (cx s)); [|done]. intros H [p Ep]. revert H. rewrite /new_future /=.
  intros [(s3 & b & E5 & E6)|[(y & _ & ?)|[_ ?]]]%bindS_inv; [|done..].
  apply (O_on_ctx _ (perform_substitutions_frames w _)) in E5 as (c5 & n5 & pc5 & _ & _ & Hs5 & _ & ->). revert E6.
  intros [(s3 & [] & E5 & E6)|[(y & _ & ?)|[_ ?]]]%bindS_inv; [|done..].
  revert E5. destruct (w_output_ok w b); [|done]. intros [= <-]. revert E6. intros [= <-]. split_and!; [done|done|].
  rewrite /completion /=. rewrite !lookup_alter Ep /=. f_equal. rewrite /f_is_done /f_get /=.
  rewrite lookup_insert_ne; [lia|]. by rewrite lookup_insert.
Qed.
Lemma listens a c oe s s' l : exec_proc w a c oe s = (s', Ok l) -> is_shutdown (cx s) = false ->
  l = [] /\ tasks s' = tasks s ++ [TProcInit a] /\ completion a s' = Some false /\
  exists h1 h2 h3 h4 h5 h6, on_shutdown_process_of a h1 /\ on_signal_of a h2 /\ on_output_of a h3 /\ on_shutdown_of a h4 /\
    (procs s !! a = None -> on_exit_of a oe h5) /\ on_exit_of a (HProcFlush a) h6 /\
    NoDup (map h_id [h1; h2; h3; h4; h5; h6]) /\
    hist s' = hist s ++ map OReg [h1; h2; h3; h4; h5; h6].
Proof.
  intros H Hs. revert H. rewrite /exec_proc {1}/bindS /=.
  intros [(s1 & [] & E1 & E2)|[(y & _ & ?)|[_ ?]]]%bindS_inv; [|done..].
  apply prepare_only in E1 as (L1 & T1 & S1 & p & p' & Ep & Ep' & X1 & X2). revert E2. rewrite Ep'.
  destruct (x_executed p'); [done|]. simpl in L1, T1, S1, Ep. rewrite lookup_insert in Ep. injection Ep as <-.
  set (s2 := upd_proc a _ s1). assert (is_shutdown (cx s2) = false) as S2. { by transitivity (is_shutdown (cx s1)); [|rewrite S1]. }
  rewrite S2. set (hs := proc_handlers _ _ _). set (s3 := register_all hs _).
  intros [(s4 & [] & E1 & E2)|[(y & _ & ?)|[_ ?]]]%bindS_inv; [|done..]. revert E2. intros [= <- <-].
  assert (start_proc w a (p_output (x_cfg p')) s3 = (s4, Ok tt)) as E3.
  { revert E1. rewrite /guard_handlers. destruct (start_proc _ _ _ _) as [s5 [[]|y|]]; [done| |done].
    destruct (unregister_all _ _) as [? []]; done. }
  apply start_only in E3 as (L3 & T3 & C3); [|rewrite /= lookup_alter Ep' /=; by eexists].
  split_and!; [done|by rewrite T3 /= T1|done|].
  set (n := next s1).
  exists (MkH (Gen n) MShutdownProc false (HEntity (anon (IProcShutdown a)))), (MkH (Gen (n + 1)) MSignalProc false (HEntity (anon (IProcSignal a)))),
    (MkH (Gen (n + 2)) (MAct CIO (TgtAct a)) false (HProcIO a)), (MkH (Gen (n + 3)) MShutdown false (HProcShutdown a)),
    (MkH (Gen (n + 4)) (MAct CExit (TgtAct a)) false (x_onexit p')), (MkH (Gen (n + 5)) (MAct CExit (TgtAct a)) false (HProcFlush a)).
  split_and!; try by eexists.
  - intros Hn. exists (Gen (n + 4)). f_equal. rewrite X1 /get_proc Hn. done.
  - simpl. repeat (apply NoDup_cons; split; [rewrite ?elem_of_cons elem_of_nil; intros H'; repeat (destruct H' as [H'|H']; [injection H'; lia|]); done|]). by apply NoDup_nil.
  - rewrite /hist L3 /=. rewrite L1 -!app_assoc. done.
Qed.

(** ** What an escalation visits *)
Definition tell (o : obs) : option (entity + (sig * pmatch)) :=
  match o with OVisit e => Some (inl e) | OEmit (EvSignalProcess sg m) => Some (inr (sg, m)) | _ => None end.
Definition tells (l : list obs) := omap tell l.
Lemma tells_app l l' : tells (l ++ l') = tells l ++ tells l'.
Proof. by rewrite /tells omap_app. Qed.
Lemma complete_log e a s : exists l, log (complete_action w e a s) = l ++ log s /\ tells l = [].
Proof.
  rewrite /complete_action. destruct (would_handle_event _ _ _); [|by exists []].
  destruct (get_future e s); [by exists []|]. by exists [OEmit (EvComplete a)].
Qed.
Lemma leaf fuel a k X s s' fs :
  (forall fuel s s' r, exec_action w fuel a k s = (s', Ok r) -> r = [] /\ exists l, log s' = l ++ log s /\ tells l = X) ->
  visit_all w fuel (EAct a None k) s = (s', Ok fs) -> exists l, log s' = l ++ log s /\ tells l = X ++ [inl (EAct a None k)].
Proof.
  intros Hk. destruct fuel as [|fuel]; [done|]. cbn [visit_all].
  intros [(s1 & subs & E1 & E2)|[(y & _ & ?)|[_ ?]]]%bindS_inv; [|done..].
  rewrite visit_one_act in E1. cbv zeta in E1. simpl cond_result in E1. cbv iota beta in E1.
  change (cx s) with (cx (obs1 (OVisit (EAct a None k)) s)) in E1. rewrite st_cx_id in E1.
  destruct (exec_action _ _ _ _ _) as [s2 r2] eqn:E. injection E1 as <- ->.
  destruct (Hk _ _ _ _ E) as (-> & l & L & HX). revert E2.
  intros [(s3 & fs3 & E1 & E2)|[(y & _ & ?)|[_ ?]]]%bindS_inv; [|done..]. injection E1 as <- <-. injection E2 as <- <-.
  destruct (complete_log (EAct a None k) a (obs1 (OExecDone a) s2)) as (l1 & L1 & H1).
  exists (l1 ++ OExecDone a :: l ++ [OExecuted a; OVisit (EAct a None k)]). split.
  - rewrite L1 /= L /=. by rewrite -!app_assoc /= -app_assoc.
  - by rewrite !tells_app H1 /= -/(tells _) tells_app HX.
Qed.
Lemma timer_leaf fuel a p b s s' r : exec_action w fuel a (ATimer p b (BV false)) s = (s', Ok r) -> r = [] /\ exists l, log s' = l ++ log s /\ tells l = [].
Proof.
  intros H. cbn [exec_action] in H. destruct (cancelled a s) eqn:Ec.
  - assert (loop_set (cx s) = true) as Hl. { revert H. rewrite /exec_timer /need_loop. by destruct (loop_set (cx s)). }
    destruct (exec_cancelled w a p b (BV false) s Ec Hl) as (s1 & E & _ & _ & _ & L & _). rewrite E in H. injection H as <- <-.
    split; [done|]. by exists [].
  - destruct (exec_started w a p b (BV false) s s' r Ec H) as (-> & _ & _ & _ & _ & _ & c1 & c2 & v & Ev & _ & _ & Hv).
    split; [done|]. injection Ev as _ <-. destruct Hv as [-> _]. by exists [OTimer a].
Qed.
Lemma emit_leaf fuel a e s s' r : exec_action w fuel a (AEmit e) s = (s', Ok r) -> r = [] /\ exists l, log s' = l ++ log s /\ tells l = tells [OEmit e].
Proof. cbn [exec_action]. rewrite /bindS /=. intros [= <- <-]. split; [done|]. by exists [OEmit e]. Qed.
Lemma ents_cons fuel x l s s' : visit_ents w fuel (x :: l) s = (s', Ok tt) ->
  exists s1 s2 fs, visit_all w fuel x s = (s1, Ok fs) /\ log s2 = log s1 /\ visit_ents w fuel l s2 = (s', Ok tt).
Proof.
  cbn [visit_ents]. intros [(s1 & fs & E1 & E2)|[(y & _ & ?)|[_ ?]]]%bindS_inv; [|done..].
  revert E2. intros [(s2 & [] & E2 & E3)|[(y & _ & ?)|[_ ?]]]%bindS_inv; [|done..]. injection E2 as <-. eexists s1, _, fs. split; [exact E1|]. split; [|exact E3]. done.
Qed.
Lemma stops_visit fuel a c t1 t2 sg s s' : visit_ents w fuel (stop_actions a c t1 t2 sg) s = (s', Ok tt) ->
  exists l, log s' = l ++ log s /\ rev (tells l) = map inl (stop_actions a c t1 t2 sg) ++ (if sg then [inr (SIGINT, PMAction a)] else []).
Proof.
  rewrite /stop_actions. cbn [app]. intros (s1 & s2 & f1 & E1 & L1 & E)%ents_cons.
  apply ents_cons in E as (s3 & s4 & f2 & E2 & L2 & E).
  destruct (leaf _ _ _ [] _ _ _ (fun fuel s s' r => timer_leaf fuel _ _ _ s s' r) E1) as (l1 & M1 & T1).
  destruct (leaf _ _ _ [] _ _ _ (fun fuel s s' r => timer_leaf fuel _ _ _ s s' r) E2) as (l2 & M2 & T2).
  destruct sg.
  - apply ents_cons in E as (s5 & s6 & f3 & E3 & L3 & E). injection E as <-.
    destruct (leaf _ _ _ _ _ _ _ (fun fuel s s' r => emit_leaf fuel _ _ s s' r) E3) as (l3 & M3 & T3).
    exists (l3 ++ l2 ++ l1). split; [by rewrite L3 M3 L2 M2 L1 M1 -!app_assoc|]. by rewrite !tells_app T1 T2 T3.
  - injection E as <-. exists (l2 ++ l1). split; [by rewrite L2 M2 L1 M1 -!app_assoc|]. by rewrite !tells_app T1 T2.
Qed.
Lemma tells_visited l : visited l = omap (fun x => match x with inl e => Some e | _ => None end) (tells l).
Proof. induction l as [|o l IH]; [done|]. destruct o; cbn; try exact IH; [f_equal; exact IH|]. destruct e; exact IH. Qed.
Lemma tells_signals l : signals_emitted l = omap (fun x => match x with inr e => Some e | _ => None end) (tells l).
Proof. induction l as [|o l IH]; [done|]. destruct o; cbn; try exact IH. destruct e; try exact IH. cbn. f_equal. exact IH. Qed.
Lemma tells_rev l : tells (rev l) = rev (tells l).
Proof. induction l as [|o l IH]; [done|]. cbn [rev]. rewrite tells_app IH. destruct o; cbn; rewrite ?app_nil_r; try done. destruct e; cbn; by rewrite ?app_nil_r. Qed.
(** ** Handlers that ask a process to shut down *)
Lemma body_state fuel h e s s' : h_once h = false -> handle_one w fuel h e s = (s', Ok tt) ->
  exists s1 s2 s3 ents, (procs s1 = procs s /\ futs s1 = futs s /\ now s1 = now s /\ next s1 = next s /\ noninteractive (cx s1) = noninteractive (cx s)) /\
    log s1 = OBody (h_id h) (locals (cx s1)) (get_local "event" (cx s1)).2 :: OHandle (h_id h) e :: log s /\
    run_body w (h_body h) e s1 = (s2, Ok ents) /\ visit_ents w fuel ents s2 = (s3, Ok tt) /\ log s' = log s3.
Proof.
  intros Ho. rewrite handle_one_eq.
  intros [(s1 & [] & E1 & E2)|[(y & _ & ?)|[_ ?]]]%bindS_inv; [|done..]. injection E1 as <-. revert E2.
  intros [(s2 & [] & E1 & E2)|[(y & _ & ?)|[_ ?]]]%bindS_inv; [|done..]. injection E1 as <-. revert E2.
  set (sb := set cx push_locals _).
  intros [(s3 & ents & E1 & E2)|[(y & _ & ?)|[_ ?]]]%bindS_inv; [|done..]. revert E1. rewrite /handle.
  intros [(s4 & [] & E1 & E3)|[(y & _ & ?)|[_ ?]]]%bindS_inv; [|done..]. revert E1. rewrite /base_handle {1}/bindS /= Ho. intros [= <-].
  revert E3. rewrite {1}/bindS /=. set (sc := obs1 _ _). intros E3.
  revert E2. intros [(s4 & [] & E1 & E2)|[(y & _ & ?)|[_ ?]]]%bindS_inv; [|done..].
  exists sc, s3, s4, ents. split_and!; try done.
  revert E2. rewrite /on_ctx /pop_locals. destruct (locals_stack (cx s4)); [done|]. by intros [= <-].
Qed.
Lemma asked_exact a c sg s : stoppable a c s ->
  exists s' t1 t2, shutdown_process a sg s = (s', Ok (stop_actions a c t1 t2 sg)) /\ t1 <> t2 /\
    log s' = OEscalate a t1 t2 (now s) :: OAsked a :: log s.
Proof.
  intros (p & sf & cf & d & f & Ep & <- & Es & Hp & Ec & Hd & Ed & Et).
  assert (f_is_done sf s = false) as Hsf by (by rewrite /f_is_done /f_get Hp).
  rewrite /shutdown_process /=. rewrite Ep Es.
  change (f_is_done sf (obs1 (OAsked a) s)) with (f_is_done sf s). rewrite Hsf.
  rewrite Ec. change (f_is_done cf (obs1 (OAsked a) s)) with (f_is_done cf s). rewrite Hd Ed Et.
  rewrite /bindS /set_result. change (futs (obs1 (OAsked a) s)) with (futs s). rewrite Hp.
  eexists _, (Gen (next s)), (Gen (S (next s))). split; [done|]. split; [intros [= ?]; lia|]. done.
Qed.
Lemma begins fuel h e a c sg s s' : handle_one w fuel h e s = (s', Ok tt) -> h_once h = false ->
  asks a s (h_body h) e sg -> stoppable a c s ->
  exists t1 t2 l, hist s' = hist s ++ l /\ t1 <> t2 /\ In (OEscalate a t1 t2 (now s)) l /\
    visited l = stop_actions a c t1 t2 sg /\ signals_emitted l = if sg then [(SIGINT, PMAction a)] else [].
Proof.
  intros H Ho Ha Hs. destruct (body_state fuel h e s s' Ho H) as (s1 & s2 & s3 & ents & (Q1 & Q2 & Q3 & Q4 & Q5) & L1 & E1 & E2 & L3).
  assert (shutdown_process a sg s1 = (s2, Ok ents)) as E. { revert E1. destruct Ha; simpl; try done. by rewrite Q5. }
  assert (stoppable a c s1) as Hs1.
  { destruct Hs as (p & sf & cf & d & f & HH). exists p, sf, cf, d, f. by rewrite Q1 Q2 /f_is_done /f_get Q2. }
  destruct (asked_exact a c sg s1 Hs1) as (s4 & t1 & t2 & E4 & Hne & L4). rewrite E4 in E. injection E as <- <-.
  destruct (stops_visit fuel a c t1 t2 sg s4 s3 E2) as (l & L & HT).
  eexists t1, t2, (rev (l ++ [OEscalate a t1 t2 (now s1); OAsked a; OBody (h_id h) (locals (cx s1)) (get_local "event" (cx s1)).2; OHandle (h_id h) e])).
  split_and!.
  - rewrite /hist L3 L L4 L1. rewrite -rev_app_distr. f_equal. by rewrite -app_assoc.
  - done.
  - rewrite -in_rev. apply in_or_app. right. rewrite Q3. by left.
  - rewrite tells_visited tells_rev tells_app. simpl tells. rewrite app_nil_r HT omap_app.
    transitivity (stop_actions a c t1 t2 sg ++ []); [|by rewrite app_nil_r]. f_equal; [|by destruct sg].
    generalize (stop_actions a c t1 t2 sg). intros ll. induction ll as [|x ll IH]; [done|]. cbn. f_equal. exact IH.
  - rewrite tells_signals tells_rev tells_app. simpl tells. rewrite app_nil_r HT omap_app.
    match goal with |- ?x ++ ?y = ?z => assert (x = []) as ->; [|by destruct sg] end.
    generalize (stop_actions a c t1 t2 sg). intros ll. induction ll as [|x ll IH]; [done|]. exact IH.
Qed.
Lemma can_stop a s : reachable w s -> completion a s = Some false -> ~ shut_requested a s -> has_started a s ->
  exists c, config a s = Some c /\ stoppable a c s.
Proof.
  intros Hr Hc Hn Ht. pose proof (okst_reachable w s Hr) as HO. destruct (completion_both a s _ HO Hc) as (p & cf & sf & d & Ep & Ec & Hd & Es & Ed).
  pose proof (requested_no a s p sf Ep Es Hn) as Hsf. pose proof (shut_pending a s p sf HO Ep Es Hsf) as Hp.
  destruct Ht as (p' & f & Ep' & Et). rewrite Ep in Ep'. injection Ep' as <-.
  exists (x_cfg p). split; [by rewrite /config Ep|]. by exists p, sf, cf, d, f.
Qed.
Lemma escalates a h r g s s' : reachable w s -> on_shutdown_of a h -> still_registered h s -> completion a s <> None -> has_started a s ->
  processes w s (EvShutdown r g) (Ok tt) s' -> escalations a (hist s') = 1%nat \/ completion a s' = Some true.
Proof.
  intros Hr [i ->] Hreg Hc Ht Hp. pose proof (okst_reachable w s Hr) as HO.
  assert (reachable w s') as Hr' by (destruct Hp as (fu & Hst & _); exact (reachable_step w _ s s' Hr Hst)).
  apply (requested_escalates w); [done|].
  destruct (receives w _ _ _ _ Hr Hp (still_in w _ _ Hr Hreg)) as (fuel & s1 & s2 & H1 & H2 & H3); [done|].
  assert (okst s1) as O1 by (by eapply okst_rtc).
  assert (rtc (micro w) s1 s2) as R12 by (by eapply R_handle_one). assert (okst s2) as O2 by (by eapply okst_rtc).
  destruct (asks_handler w fuel (MkH i MShutdown false (HProcShutdown a)) (EvShutdown r g) a (fun s => negb g || noninteractive (cx s)) s1 s2 O1 eq_refl) as [HH|[HH _]]; try done.
  - exact (comp_rtc w a s s1 HO H1 Hc).
  - exact (requested_rtc w a s2 s' O2 H3 HH).
  - destruct HH. exact (started_rtc w a s s1 HO H1 Ht).
Qed.
(** ** ShutdownProcess *)
Notation R := (rtc (micro w)).
Lemma list_R fuel l : pres R ((fix go (l : list entity) : M (list nat) :=
                 match l with
                 | [] => retS []
                 | x :: l' => a <-- visit_all w fuel x ;; b <-- go l' ;; retS (a ++ b)
                 end) l).
Proof.
  induction l as [|x l IH]; [by intros s s' r [= <- _]|].
  apply R_bind; [apply R_visit_all|]. intros fs. apply R_bind; [exact IH|]. intros gs s s' r [= <- _]. done.
Qed.
Lemma shut_entity fuel a s s' fs : okst s -> (get_local "event" (cx s)).2 = Ok (LEv (EvShutdownProcess (PMAction a))) ->
  completion a s <> None -> visit_all w fuel (anon (IProcShutdown a)) s = (s', Ok fs) ->
  shut_requested a s' \/ (~ has_started a s /\ has_deferred a s').
Proof.
  intros HO He Hc. destruct fuel as [|fuel]; [done|]. cbn [visit_all].
  intros [(s1 & subs & E1 & E2)|[(y & _ & ?)|[_ ?]]]%bindS_inv; [|done..].
  apply visit_one_anon in E1 as (s2 & E1 & ->).
  revert E2. intros [(s3 & gs & E2 & E3)|[(y & _ & ?)|[_ ?]]]%bindS_inv; [|done..]. injection E3 as <- _.
  apply list_R in E2. set (s0 := obs1 _ (obs1 _ s)) in E1.
  assert (R s s0) as R0. { etrans; [by apply (Robs w (OVisit (anon (IProcShutdown a))))|by apply Robs]. }
  assert ((get_local "event" (cx s0)).2 = Ok (LEv (EvShutdownProcess (PMAction a)))) as He0 by exact He.
  cbn [exec_action] in E1. rewrite /exec_proc_shutdown in E1. revert E1.
  intros [(s4 & e & E1 & E4)|[(y & _ & ?)|[_ ?]]]%bindS_inv; [|done..].
  assert (e = EvShutdownProcess (PMAction a)) as ->.
  { revert E1. rewrite /event_of_locals. intros [(s5 & v & E1 & E3)|[(y & _ & ?)|[_ ?]]]%bindS_inv; [|done..].
    revert E1. rewrite /on_ctx. destruct (get_local "event" (cx s0)) as [c1 r1]. simpl in He0. subst r1. intros [= <- <-].
    revert E3. by intros [= _ <-]. }
  apply (R_event_of_locals w) in E1. revert E4. rewrite {1}/bindS /= bool_decide_true //. intros E4.
  assert (okst s4) as O4. { exact (okst_rtc w s s4 HO (rtc_transitive _ _ _ R0 E1)). }
  assert (R s s4) as R4 by (by etrans).
  pose proof (R_shut w a true s4) as R2. pose proof (asked_kept a true s4 O4 (comp_rtc w a s s4 HO R4 Hc)) as HK.
  rewrite E4 /= in R2 HK. assert (okst s2) as O2 by (by eapply okst_rtc).
  assert (R s2 s3) as R3. { etrans; [by apply (Robs w (OExecDone (Gen 0)))|]. etrans; [apply R_complete_action|done]. }
  destruct HK as [HK|(HK & _ & _ & h0 & Hd & El)]; [left; exact (requested_rtc w a s2 s3 O2 R3 HK)|right]. split.
  - intros Hs. apply HK. exact (started_rtc w a s s4 HO R4 Hs).
  - destruct (log_rtc w s2 s3 O2 R3) as [l Hl]. exists h0, true. split; [done|]. rewrite Hl El. apply in_or_app. right. by left.
Qed.
Lemma not_lost_process a h s s' : reachable w s -> on_shutdown_process_of a h -> still_registered h s -> completion a s <> None ->
  processes w s (EvShutdownProcess (PMAction a)) (Ok tt) s' -> shut_requested a s' \/ (~ has_started a s /\ request_waits a s').
Proof.
  intros Hr [i ->] Hreg Hc Hp. pose proof (okst_reachable w s Hr) as HO.
  destruct (receives w _ _ _ _ Hr Hp (still_in w _ _ Hr Hreg)) as (fuel & s1 & s2 & H1 & H2 & H3); [done|].
  assert (okst s1) as O1 by (by eapply okst_rtc).
  destruct (handled w fuel (MkH i MShutdownProc false (HEntity (anon (IProcShutdown a)))) _ s1 s2 eq_refl H2) as (s4 & s5 & s6 & ents & R4 & He & _ & E1 & E2 & _ & R6).
  injection E1 as <- <-. assert (okst s4) as O4 by (by eapply okst_rtc).
  assert (R s s4) as Rs4 by (by etrans).
  cbn [visit_ents] in E2. revert E2. intros [(s7 & fs & E2 & E3)|[(y & _ & ?)|[_ ?]]]%bindS_inv; [|done..].
  pose proof (R_visit_all w _ _ _ _ _ E2) as R7. assert (okst s7) as O7 by (by eapply okst_rtc).
  assert (R s7 s') as R8. { injection E3 as <-. etrans; [|exact H3]. etrans; [|exact R6]. apply (Ru w). utf. }
  destruct (shut_entity fuel a s4 s7 fs O4 He (comp_rtc w a s s4 HO Rs4 Hc) E2) as [HH|[HH1 HH]].
  - left. exact (requested_rtc w a s7 s' O7 R8 HH).
  - right. split. { intros Hs. apply HH1. exact (started_rtc w a s s4 HO Rs4 Hs). }
    destruct HH as (h & sg & Hd & Hin). exists h, sg. split; [done|]. destruct (log_rtc w s7 s' O7 R8) as [l El].
    rewrite /hist -in_rev El. apply in_or_app. by right.
Qed.
(** ** Delivery *)
Lemma ends_with_iff x y : ends_with x y = true <-> exists pre, y = (pre ++ x)%string.
Proof.
  rewrite /ends_with. split.
  - destruct (_ <=? _)%nat eqn:El; [|done]. apply Nat.leb_le in El. intros E%String.eqb_eq.
    assert (forall n t, (n <= String.length t)%nat -> exists pre, t = (pre ++ drop_str n t)%string) as HD.
    { induction n as [|n IH]; intros t Hn; [by exists ""%string|]. destruct t as [|c t]; simpl in Hn; [lia|].
      destruct (IH t) as [pre Hp]; [lia|]. exists (String c pre). by rewrite {1}Hp. }
    destruct (HD (String.length y - String.length x)%nat y) as [pre Hp]; [lia|]. exists pre. by rewrite {1}Hp E.
  - intros [pre ->]. assert (forall t u, String.length (t ++ u) = (String.length t + String.length u)%nat) as HL.
    { intros t u. induction t as [|c t IH]; [done|]. change (String c t ++ u)%string with (String c (t ++ u)). simpl. by rewrite IH. }
    rewrite HL. assert ((String.length x <=? String.length pre + String.length x)%nat = true) as -> by (apply Nat.leb_le; lia).
    apply String.eqb_eq. replace (String.length pre + String.length x - String.length x)%nat with (String.length pre) by lia.
    clear. induction pre as [|c pre IH]; [done|]. change (String c pre ++ x)%string with (String c (pre ++ x)). exact IH.
Qed.
Lemma pm_cases m a s :
  (addressed w a s m /\ pm_matches w m a s = Ok true) \/ (~ addressed w a s m /\ (forall x, ~ cannot_tell a s m x) /\ pm_matches w m a s = Ok false) \/
  (~ addressed w a s m /\ exists x, cannot_tell a s m x /\ pm_matches w m a s = Exn x).
Proof.
  rewrite /pm_matches. fold (details a s). destruct m as [b|z|n|x|n].
  - destruct (bool_decide (a = b)) eqn:E; [apply bool_decide_eq_true in E as <-; left; split; [constructor|done]|].
    apply bool_decide_eq_false in E. right; left. split_and!; [by inversion 1|by inversion 1|done].
  - destruct (details a s) as [d|] eqn:Ed; [|right; left; split_and!; [inversion 1; congruence|inversion 1; congruence|done]].
    destruct (d_pid d) as [y|] eqn:Ep; last first.
    { right; right. split; [inversion 1; congruence|]. exists XKey. split; [by econstructor|done]. }
    destruct (Z.eqb_spec y z) as [->|Hne]; [left; split; [by econstructor|done]|]. right; left. split_and!; [inversion 1; congruence|inversion 1; congruence|done].
  - destruct (details a s) as [d|] eqn:Ed; [|right; left; split_and!; [inversion 1; congruence|by inversion 1|done]].
    destruct (String.eqb_spec (d_name d) n) as [<-|Hne]; [left; split; [by constructor|done]|].
    right; left. split_and!; [inversion 1; congruence|by inversion 1|done].
  - destruct (details a s) as [d|] eqn:Ed; [|right; left; split_and!; [inversion 1; congruence|inversion 1; congruence|done]].
    destruct (d_cmd d) as [|y rest] eqn:Ec.
    { right; right. split; [inversion 1; congruence|]. exists XIndex. split; [by econstructor|done]. }
    destruct (ends_with x y) eqn:Ee.
    + apply ends_with_iff in Ee as [pre ->]. left. split; [by econstructor|done].
    + right; left. split_and!; [|inversion 1; congruence|done]. inversion 1 as [| | |d' pre x' rest' Hd Hc|]; subst. rewrite Ed in Hd. injection Hd as <-.
      rewrite Ec in Hc. injection Hc as -> _. assert (ends_with x (pre ++ x) = true) by (apply ends_with_iff; eauto). congruence.
  - destruct (w_pmatch w n a) eqn:E; [left; split; [by constructor|done]|]. right; left. split_and!; [inversion 1; congruence|by inversion 1|done].
Qed.
Lemma event_local e s : (get_local "event" (cx s)).2 = Ok (LEv e) -> exists c, event_of_locals s = (s <| cx := c |>, Ok e).
Proof. intros He. rewrite /event_of_locals /bindS /on_ctx. destruct (get_local "event" (cx s)) as [c1 r1]. simpl in He. subst r1. by exists c1. Qed.
Lemma addressed_ctx m a s c : (addressed w a (s <| cx := c |>) m <-> addressed w a s m) /\ pm_matches w m a (s <| cx := c |>) = pm_matches w m a s.
Proof. split; [|done]. split; intros []; by econstructor. Qed.
Lemma delivers a sg m s s' r : (get_local "event" (cx s)).2 = Ok (LEv (EvSignalProcess sg m)) -> exec_proc_signal w a s = (s', r) ->
  (addressed w a s m /\ running a s = true /\ r = Ok [] /\ log s' = OSignal a sg :: log s) \/
  (log s' = log s /\ procs s' = procs s /\ tasks s' = tasks s /\
   ((addressed w a s m /\ running a s = false /\ details a s <> None /\ has_started a s /\ r = Ok []) \/
    (addressed w a s m /\ (details a s = None \/ ~ has_started a s) /\ r = Exn XRuntime) \/
    (~ addressed w a s m /\ (forall x, ~ cannot_tell a s m x) /\ r = Ok []) \/
    (exists x, cannot_tell a s m x /\ r = Exn x))).
Proof.
  intros He. destruct (event_local _ s He) as [c Ec]. rewrite /exec_proc_signal /bindS Ec.
  rewrite (proj2 (addressed_ctx m a s c)). destruct (pm_cases m a s) as [(Ha & ->)|[(Ha & Hc & ->)|(Ha & x & Hx & ->)]].
  - rewrite /details /running /has_started. simpl. destruct (procs s !! a) as [p|] eqn:Ep.
    + destruct (x_det p) as [d|] eqn:Ed; [|intros [= <- <-]; right; split_and!; try done; right; left; split_and!; try done; by left].
      destruct (x_transport p) as [f|] eqn:Et.
      * assert (f_is_done f (s <| cx := c |>) = f_is_done f s) as -> by done. destruct (f_is_done f s) eqn:Ef; intros [= <- <-].
        -- right. split_and!; try done. left. split_and!; try done. by exists p, f.
        -- left. by split_and!.
      * intros [= <- <-]. right. split_and!; try done. right; left. split_and!; try done. right. intros (p' & f & Hp & Hf). congruence.
    + intros [= <- <-]. right. split_and!; try done. right; left. split_and!; try done. by left.
  - intros [= <- <-]. right. split_and!; try done. right; right; left. done.
  - intros [= <- <-]. right. split_and!; try done. right; right; right. by exists x.
Qed.
Lemma delivers_ok a sg m s s' l : (get_local "event" (cx s)).2 = Ok (LEv (EvSignalProcess sg m)) -> exec_proc_signal w a s = (s', Ok l) ->
  (addressed w a s m /\ running a s = true /\ log s' = OSignal a sg :: log s) \/ (~ (addressed w a s m /\ running a s = true) /\ log s' = log s).
Proof.
  intros He H. destruct (delivers _ _ _ _ _ _ He H) as [(H1 & H2 & _ & H3)|(Hl & _ & _ & [(H1 & H2 & _)|[(_ & _ & H1)|[(H1 & _)|(x & _ & H1)]]])]; try done.
  - by left.
  - right. split; [|done]. intros [_ ?]. congruence.
  - right. split; [|done]. by intros [? _].
Qed.
Lemma asked_shutdown a m s : (get_local "event" (cx s)).2 = Ok (LEv (EvShutdownProcess m)) -> exists c, 
  (addressed w a s m /\ exec_proc_shutdown w a s = shutdown_process a true (s <| cx := c |>)) \/
  (~ addressed w a s m /\ (forall x, ~ cannot_tell a s m x) /\ exec_proc_shutdown w a s = (s <| cx := c |>, Ok [])) \/
  (~ addressed w a s m /\ exists x, cannot_tell a s m x /\ exec_proc_shutdown w a s = (s <| cx := c |>, Exn x)).
Proof.
  intros He. destruct (event_local _ s He) as [c Ec]. exists c. rewrite /exec_proc_shutdown /bindS Ec.
  rewrite (proj2 (addressed_ctx m a s c)). destruct (pm_cases m a s) as [(Ha & ->)|[(Ha & Hc & ->)|(Ha & x & Hx & ->)]].
  - by left.
  - right; left. by split_and!.
  - right; right. split; [done|]. by exists x.
Qed.
Lemma shutdown_other a m s s' r : (get_local "event" (cx s)).2 = Ok (LEv (EvShutdownProcess m)) -> exec_proc_shutdown w a s = (s', r) -> ~ addressed w a s m ->
  hist s' = hist s /\ procs s' = procs s /\ tasks s' = tasks s /\ futs s' = futs s /\ queue (cx s') = queue (cx s) /\ handlers (cx s') = handlers (cx s) /\
  (r = Ok [] \/ exists x, cannot_tell a s m x /\ r = Exn x).
Proof.
  intros He H Hn. assert (queue (cx s') = queue (cx s) /\ handlers (cx s') = handlers (cx s)) as [Hq Hh].
  { destruct (event_local _ s He) as [c Ec]. assert (queue c = queue (cx s) /\ handlers c = handlers (cx s)) as [E1 E2].
    { revert Ec. rewrite /event_of_locals /bindS /on_ctx. destruct (get_local "event" (cx s)) as [c1 r1] eqn:Eg. simpl in He. subst r1.
      intros E. injection E as <-. revert Eg. rewrite /get_local /get_combined_locals. destruct (cache (cx s)); intros [= <- _]; done. }
    revert H. rewrite /exec_proc_shutdown /bindS Ec. rewrite (proj2 (addressed_ctx m a s c)). destruct (pm_cases m a s) as [(Ha & _)|[(_ & _ & ->)|(_ & x & _ & ->)]]; [done| |]; intros [= <- _]; done. }
  destruct (asked_shutdown a m s He) as (c & [(Ha & _)|[(_ & _ & E)|(_ & x & Hx & E)]]); [done| |]; rewrite E in H; injection H as <- <-; split_and!; try done; [by left|right; by exists x].
Qed.
Lemma shutdown_asked a m s s' r : (get_local "event" (cx s)).2 = Ok (LEv (EvShutdownProcess m)) -> exec_proc_shutdown w a s = (s', r) -> addressed w a s m ->
  (exists l, hist s' = hist s ++ OAsked a :: l) /\
  forall cf, stoppable a cf s -> exists t1 t2, t1 <> t2 /\ r = Ok (stop_actions a cf t1 t2 true) /\ hist s' = hist s ++ [OAsked a; OEscalate a t1 t2 (now s)].
Proof.
  intros He H Hn. destruct (asked_shutdown a m s He) as (c & [(_ & E)|[(Ha & _)|(Ha & _)]]); [|done|done]. rewrite E in H. split.
  - assert (exists l, log s' = l ++ OAsked a :: log s) as [l Hl]; [|exists (rev l); by rewrite /hist Hl rev_app_distr /= -app_assoc].
    revert H. rewrite /shutdown_process /set_result /bindS /fresh /modS /retS /register_noted. simpl.
    repeat case_match; intros [= <- _]; simpl in *; simplify_eq; simpl;
      first [by exists []|by exists [OReg (MkH (Gen (next s)) (MAct CStart TgtAny) false (HProcDeferred a true))]|by eexists [_]].
  - intros cf Hs. assert (stoppable a cf (s <| cx := c |>)) as Hs1 by exact Hs. destruct (asked_exact a cf true _ Hs1) as (s4 & t1 & t2 & E4 & Hne & L4).
    rewrite H in E4. injection E4 as -> ->. exists t1, t2. split_and!; try done. rewrite /hist L4 /=. by rewrite -app_assoc.
Qed.
(** ** The wait of a timer *)
Lemma arms i a s s' : tasks s !! i = Some (TTimerInit a) -> step w (LTask i) s = Some s' ->
  exists t c, timers s !! a = Some t /\
    ((exists p, perform_fval w (t_period t) (cx s) = (c, Ok p) /\ log s' = OArmed a p (now s) :: log s) \/
     (exists x, perform_fval w (t_period t) (cx s) = (c, Exn x) /\ log s' = log s)).
Proof.
  intros Ht. rewrite /step /loop_step. destruct (in_loop s); [|done]. rewrite /task_step Ht /timer_init.
  destruct (timers s !! a) as [t|]; [|done]. rewrite /on_ctx. destruct (perform_fval w (t_period t) (cx s)) as [c [p|x|]] eqn:E; destruct (t_canceled_fut t); try done.
  - intros [= <-]. exists t, c. split; [done|]. left. by exists p.
  - intros [= <-]. exists t, c. split; [done|]. right. by exists x.
  - intros [= <-]. exists t, c. split; [done|]. right. by exists x.
Qed.
End stop.
