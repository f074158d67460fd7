(** Lemmas about stopping processes (C28, C30). *)
From Coq Require Import ssreflect.
From Verif Require Import SubstFacts SpecEscalate SpecTimer ExWorld ExecFacts VisitFacts HandleFacts EventFacts StepFacts MicroSteps OwnFacts ProcFacts NameFacts LifeFacts TimerSteps StayFacts TimerFacts TimerLaws ProcLaws.

(** ** More about the automaton *)
Record avok2 (v : aview) : Prop := {
  ak_both : v_comp v = None <-> v_sd v = None;
  ak_esc : v_sd v = Some true -> v_comp v = Some false -> v_tr v <> None }.
Lemma avok2_step a v l v' : astep a v l v' -> avok v -> avok2 v -> avok2 v'.
Proof.
  intros H [A1 A2 A3 A4 A5 A6 A7] [B1 B2]. destruct H; try by constructor.
  all: try (assert (v_comp v = Some false /\ v_sd v <> None) as [Hcomp Hsd] by (apply A4; congruence)).
  all: constructor; simpl; try done; try congruence; auto.
  all: split; intros; try congruence; tauto.
Qed.
Lemma tr_step a v l v' : astep a v l v' -> avok v -> v_tr v <> None -> v_tr v' <> None.
Proof.
  intros H [A1 A2 A3 A4 A5 A6 A7] Ht. destruct H; simpl; try done.
  destruct (A2 (A1 H)) as (_ & ? & _). done.
Qed.
Lemma comp_step a v l v' : astep a v l v' -> avok v -> v_comp v <> None -> v_comp v' <> None.
Proof.
  intros H [A1 A2 A3 A4 A5 A6 A7] Ht. destruct H; simpl; try done.
  destruct (A2 (A1 H)) as (_ & _ & ? & _). done.
Qed.

Section esc.
Context (w : world).
Notation R := (rtc (micro w)).

(** ** States inside the processing of an event *)
Record okst (s : st) : Prop := { ok_pinv : pinv s; ok_view : forall a, avok (view a s); ok_view2 : forall a, avok2 (view a s) }.
Lemma okst_reachable s : reachable w s -> okst s.
Proof.
  intros Hr. split; [by apply (pinv_reachable w)| |]; intros a.
  - by destruct (life_all w a s Hr) as (_ & _ & ?).
  - apply (arun_inv0 a (fun _ v => avok2 v)) with (l := abouts a (log s)); [by split| |by apply (sim_reachable w)].
    intros. by eapply avok2_step.
Qed.
Lemma closed_rtc a (J : aview -> Prop) s s' : okst s -> R s s' ->
  (forall v l v', astep a v l v' -> avok v -> J v -> J v') -> J (view a s) -> J (view a s').
Proof.
  intros [HP HA _] H HJ. revert HP HA. induction H as [|s s1 s2 H1 _ IH]; [done|]. intros HP HA H0.
  destruct (sim_micro w a s s1) as [_ (l1 & E1 & A1)]; [apply HP|apply HP|done|].
  apply IH.
  - by eapply pinv_micro.
  - intros b. destruct (sim_micro w b s s1) as [_ (l2 & E2 & A2)]; [apply HP|apply HP|done|].
    by destruct (arun_inv b (fun _ _ => True) ltac:(done) _ _ _ [] A2 (HA b) I).
  - by destruct (arun_inv a (fun _ v => J v) ltac:(intros; by eapply HJ) _ _ _ [] A1 (HA a) H0).
Qed.
Lemma okst_rtc s s' : okst s -> R s s' -> okst s'.
Proof.
  intros HO H. split.
  - destruct HO as [HP _ _]. revert HP. induction H as [|s s1 s2 H1 _ IH]; [done|]. intros HP. apply IH. by eapply pinv_micro.
  - intros a. eapply (closed_rtc a avok s s'); [done|done| |apply HO]. intros v l v' H0 H1 _. by eapply avok_step.
  - intros a. eapply (closed_rtc a avok2 s s'); [done|done| |apply HO]. intros v l v' H0 H1 H2. by eapply avok2_step.
Qed.
(** ** The run of one handler *)
Lemma handled fuel h e s s' : h_once h = false -> handle_one w fuel h e s = (s', Ok tt) ->
  exists s1 s2 s3 ents, R s s1 /\ (get_local "event" (cx s1)).2 = Ok (LEv e) /\ log s1 = OBody (h_id h) (locals (cx s1)) (Ok (LEv e)) :: OHandle (h_id h) e :: log s /\
    run_body w (h_body h) e s1 = (s2, Ok ents) /\ visit_ents w fuel ents s2 = (s3, Ok tt) /\ log s' = log s3 /\ R s3 s'.
Proof.
  intros Ho. rewrite handle_one_eq.
  intros [(s1 & [] & E1 & E2)|[(y & _ & ?)|[_ ?]]]%bindS_inv; [|done..]. injection E1 as <-. revert E2.
  intros [(s2 & [] & E1 & E2)|[(y & _ & ?)|[_ ?]]]%bindS_inv; [|done..]. injection E1 as <-. revert E2.
  set (sb := set cx push_locals _). assert (R s sb) as Hsb. { etrans; [|by apply Rcx]. by apply Robs. }
  intros [(s3 & ents & E1 & E2)|[(y & _ & ?)|[_ ?]]]%bindS_inv; [|done..]. revert E1. rewrite /handle.
  intros [(s4 & [] & E1 & E3)|[(y & _ & ?)|[_ ?]]]%bindS_inv; [|done..]. revert E1. rewrite /base_handle {1}/bindS /= Ho. intros [= <-].
  revert E3. rewrite {1}/bindS /=. set (sc := obs1 _ _). intros E3.
  assert ((get_local "event" (cx sc)).2 = Ok (LEv e)) as Hev.
  { rewrite /get_local /get_combined_locals /sc /=. rewrite !lookup_union lookup_singleton.
    by destruct (locals (cx s) !! "event"), (globals (cx s) !! "event"). }
  assert (R sb sc) as Hsc. { etrans; [|by apply Robs]. by apply Rcx. }
  revert E2. intros [(s4 & [] & E1 & E2)|[(y & _ & ?)|[_ ?]]]%bindS_inv; [|done..].
  exists sc, s3, s4, ents. split_and!; try done.
  - by etrans.
  - rewrite -Hev. done.
  - revert E2. rewrite /on_ctx /pop_locals. destruct (locals_stack (cx s4)); [done|]. by intros [= <-].
  - revert E2. rewrite /on_ctx /pop_locals. destruct (locals_stack (cx s4)); [done|]. intros [= <-]. by apply Rcx.
Qed.

(** ** Reading the view *)
Lemma v_tr_some a s : v_tr (view a s) <> None <-> has_started a s.
Proof.
  rewrite /view /key /viewf /has_started. destruct (procs s !! a) as [p|]; simpl.
  - destruct (x_transport p) as [f|] eqn:Ef; simpl; split; try done.
    + intros _. by exists p, f.
    + intros (p' & f & [= <-] & ?). congruence.
  - split; [done|]. by intros (p' & f & ? & _).
Qed.
Lemma started_rtc a s s' : okst s -> R s s' -> has_started a s -> has_started a s'.
Proof. rewrite -!v_tr_some. intros HO H. eapply (closed_rtc a (fun v => v_tr v <> None)); [done|done|]. intros. by eapply tr_step. Qed.
Lemma comp_rtc a s s' : okst s -> R s s' -> completion a s <> None -> completion a s' <> None.
Proof. rewrite -!v_comp_eq. intros HO H. eapply (closed_rtc a (fun v => v_comp v <> None)); [done|done|]. intros. by eapply comp_step. Qed.
Lemma over_rtc a s s' : okst s -> R s s' -> completion a s = Some true -> completion a s' = Some true.
Proof. rewrite -!v_comp_eq. intros HO H. eapply (closed_rtc a (fun v => v_comp v = Some true)); [done|done|]. intros. by eapply over_step. Qed.
Lemma requested_rtc a s s' : okst s -> R s s' -> shut_requested a s -> shut_requested a s'.
Proof. rewrite -!v_sd_true. intros HO H. eapply (closed_rtc a (fun v => v_sd v = Some true)); [done|done|]. intros. by eapply sd_step. Qed.
(** ** Asking an action to shut down *)
Definition has_deferred (a : aid) (s : st) : Prop := exists h sg, deferred a sg h /\ In (OReg h) (log s).
Lemma completion_fut a s b : completion a s = Some b -> exists p cf, procs s !! a = Some p /\ x_completed p = Some cf /\ f_is_done cf s = b.
Proof.
  rewrite /completion. destruct (procs s !! a) as [p|]; [|done]. destruct (x_completed p) as [cf|] eqn:E; [|done].
  intros [= <-]. by exists p, cf.
Qed.
Lemma completion_both a s b : okst s -> completion a s = Some b ->
  exists p cf sf d, procs s !! a = Some p /\ x_completed p = Some cf /\ f_is_done cf s = b /\ x_shutdown p = Some sf /\ x_det p = Some d.
Proof.
  intros HO (p & cf & Ep & Ec & Hd)%completion_fut. destruct (ok_pinv _ HO) as [_ HL]. specialize (HL a).
  rewrite /linked /link /key Ep /= in HL. destruct HL as [_ K1 K2 _]. simpl in *.
  assert (is_Some (x_shutdown p)) as [sf Es] by (apply K1; rewrite Ec; by eexists). rewrite Es in K2. specialize (K2 ltac:(by eexists)).
  destruct (x_det p) as [d|] eqn:Ed; [|done]. by exists p, cf, sf, d.
Qed.
Lemma requested_no a s p sf : procs s !! a = Some p -> x_shutdown p = Some sf -> ~ shut_requested a s -> f_is_done sf s = false.
Proof. intros Ep Es Hn. destruct (f_is_done sf s) eqn:E; [|done]. destruct Hn. by exists p, sf. Qed.
Lemma shut_pending a s p sf : okst s -> procs s !! a = Some p -> x_shutdown p = Some sf -> f_is_done sf s = false -> futs s !! sf = Some FPending.
Proof. intros HO Ep Es Hd. eapply not_done_pending; [apply HO|by eapply us_pshut|done]. Qed.
(** Asked before it has started, the action waits. *)
Lemma asked_waits a sg s : okst s -> completion a s = Some false -> ~ shut_requested a s -> ~ has_started a s ->
  exists h s', deferred a sg h /\ shutdown_process a sg s = (s', Ok []) /\ log s' = OReg h :: OAsked a :: log s /\
    handlers (cx s') = h :: handlers (cx s) /\ futs s' = futs s /\ procs s' = procs s /\ tasks s' = tasks s.
Proof.
  intros HO Hc Hn Ht. destruct (completion_both a s _ HO Hc) as (p & cf & sf & d & Ep & Ec & Hd & Es & Ed).
  exists (MkH (Gen (next s)) (MAct CStart TgtAny) false (HProcDeferred a sg)).
  rewrite /shutdown_process /=. rewrite Ep Es.
  change (f_is_done sf (obs1 (OAsked a) s)) with (f_is_done sf s). rewrite (requested_no a s p sf Ep Es Hn).
  rewrite Ec. change (f_is_done cf (obs1 (OAsked a) s)) with (f_is_done cf s). rewrite Hd Ed.
  destruct (x_transport p) as [f|] eqn:Et; [destruct Ht; by exists p, f|].
  eexists. split; [by eexists|]. split; [done|]. done.
Qed.
(** Asked after it has started, it stops its process. *)
Lemma asked_stops a sg s : okst s -> completion a s = Some false -> ~ shut_requested a s -> has_started a s ->
  exists c s', config a s = Some c /\ shutdown_process a sg s = (s', Ok (stop_actions a c (Gen (next s)) (Gen (S (next s))) sg)) /\
    log s' = OEscalate a (Gen (next s)) (Gen (S (next s))) (now s) :: OAsked a :: log s /\ shut_requested a s' /\ timers s' = timers s.
Proof.
  intros HO Hc Hn Ht. destruct (completion_both a s _ HO Hc) as (p & cf & sf & d & Ep & Ec & Hd & Es & Ed).
  pose proof (requested_no a s p sf Ep Es Hn) as Hsf. pose proof (shut_pending a s p sf HO Ep Es Hsf) as Hp.
  destruct Ht as (p' & f & Ep' & Et). rewrite Ep in Ep'. injection Ep' as <-.
  exists (x_cfg p). rewrite /shutdown_process /=. rewrite Ep Es.
  change (f_is_done sf (obs1 (OAsked a) s)) with (f_is_done sf s). rewrite Hsf.
  rewrite Ec. change (f_is_done cf (obs1 (OAsked a) s)) with (f_is_done cf s). rewrite Hd Ed Et.
  rewrite /bindS /set_result. change (futs (obs1 (OAsked a) s)) with (futs s). rewrite Hp.
  eexists. split; [by rewrite /config Ep|]. split; [done|]. split_and!; try done.
  eexists _, sf. rewrite /= lookup_alter Ep /=. split; [done|]. split; [done|]. by rewrite /f_is_done /f_get /= lookup_insert.
Qed.
Lemma asked_ignored a sg s : shut_requested a s -> shutdown_process a sg s = (obs1 (OAsked a) s, Ok []).
Proof.
  intros (p & sf & Ep & Es & Hd). rewrite /shutdown_process. change (procs (obs1 (OAsked a) s)) with (procs s). rewrite Ep Es.
  change (f_is_done sf (obs1 (OAsked a) s)) with (f_is_done sf s). by rewrite Hd.
Qed.
Lemma asked_over a sg s : okst s -> completion a s = Some true -> ~ shut_requested a s ->
  exists s', shutdown_process a sg s = (s', Ok []) /\ log s' = OAsked a :: log s /\ shut_requested a s'.
Proof.
  intros HO Hc Hn. destruct (completion_both a s _ HO Hc) as (p & cf & sf & d & Ep & Ec & Hd & Es & Ed).
  pose proof (requested_no a s p sf Ep Es Hn) as Hsf. pose proof (shut_pending a s p sf HO Ep Es Hsf) as Hp.
  rewrite /shutdown_process. change (procs (obs1 (OAsked a) s)) with (procs s). rewrite Ep Es.
  change (f_is_done sf (obs1 (OAsked a) s)) with (f_is_done sf s). rewrite Hsf.
  rewrite Ec. change (f_is_done cf (obs1 (OAsked a) s)) with (f_is_done cf s). rewrite Hd.
  rewrite /bindS /set_result. change (futs (obs1 (OAsked a) s)) with (futs s). rewrite Hp.
  eexists. split; [done|]. split; [done|]. exists p, sf. split; [done|]. split; [done|]. by rewrite /f_is_done /f_get /= lookup_insert.
Qed.
Lemma requested_dec a s : shut_requested a s \/ ~ shut_requested a s.
Proof.
  rewrite /shut_requested. destruct (procs s !! a) as [p|]; [|right; by intros (? & ? & ? & _)].
  destruct (x_shutdown p) as [f|] eqn:E; [|right; intros (p' & ? & [= <-] & ? & _); congruence].
  destruct (f_is_done f s) eqn:Ed; [left; by exists p, f|right; intros (p' & f' & [= <-] & E' & ?); congruence].
Qed.
Lemma started_dec a s : has_started a s \/ ~ has_started a s.
Proof.
  rewrite /has_started. destruct (procs s !! a) as [p|]; [|right; by intros (? & ? & ? & _)].
  destruct (x_transport p) as [f|] eqn:E; [left; by exists p, f|right; intros (p' & ? & [= <-] & ?); congruence].
Qed.
(** Whatever the case: the request is taken into account, or waits. *)
Lemma asked_kept a sg s : okst s -> completion a s <> None ->
  shut_requested a (shutdown_process a sg s).1 \/
  (~ has_started a s /\ ~ shut_requested a s /\ completion a s = Some false /\
   exists h, deferred a sg h /\ log (shutdown_process a sg s).1 = OReg h :: OAsked a :: log s).
Proof.
  intros HO Hc. destruct (requested_dec a s) as [Hr|Hn]; [left; rewrite asked_ignored //|].
  destruct (completion a s) as [[]|] eqn:Ec; [| |done].
  - destruct (asked_over a sg s HO Ec Hn) as (s' & E & _ & ?). rewrite E. by left.
  - destruct (started_dec a s) as [Hs|Hs].
    + destruct (asked_stops a sg s HO Ec Hn Hs) as (c & s' & _ & E & _ & ? & _). rewrite E. by left.
    + destruct (asked_waits a sg s HO Ec Hn Hs) as (h & s' & Hh & E & El & _). right. rewrite E. split_and!; try done. by exists h.
Qed.
Lemma log_rtc s s' : okst s -> R s s' -> exists l, log s' = l ++ log s.
Proof.
  intros HO H. destruct (ok_pinv _ HO) as [Ho _]. clear HO. induction H as [|s s1 s2 H1 _ IH]; [by exists []|].
  destruct (micro_logs w _ _ Ho H1) as (l & El & _). destruct IH as [l' El']; [by eapply own_micro|]. exists (l' ++ l). by rewrite El' El app_assoc.
Qed.
Lemma R_shut a sg s : R s (shutdown_process a sg s).1.
Proof. apply R1, mi_shut. Qed.
Lemma R_ents fuel l s s' r : visit_ents w fuel l s = (s', r) -> R s s'.
Proof. by apply R_visit_ents. Qed.
(** ** C30 *)
(** A handler whose body asks [a] to shut down. *)
Lemma asks_handler fuel h e a sg s s' : okst s -> h_once h = false -> (forall s, run_body w (h_body h) e s = shutdown_process a (sg s) s) ->
  completion a s <> None -> handle_one w fuel h e s = (s', Ok tt) -> shut_requested a s' \/ (~ has_started a s /\ has_deferred a s').
Proof.
  intros HO Hon Hb Hc H. destruct (handled fuel h e s s' Hon H) as (s1 & s2 & s3 & ents & R1 & _ & _ & E1 & E2 & _ & R3).
  assert (okst s1) as O1 by (by eapply okst_rtc). rewrite Hb in E1.
  pose proof (R_shut a (sg s1) s1) as R2. pose proof (asked_kept a (sg s1) s1 O1 (comp_rtc a s s1 HO R1 Hc)) as HK.
  rewrite E1 /= in R2 HK. assert (okst s2) as O2 by (by eapply okst_rtc).
  assert (R s2 s') as R4. { etrans; [by eapply R_ents|done]. }
  destruct HK as [HK|(HK & _ & _ & h0 & Hd & El)]; [left; exact (requested_rtc a s2 s' O2 R4 HK)|right]. split.
  - intros Hs. apply HK. exact (started_rtc a s s1 HO R1 Hs).
  - destruct (log_rtc s2 s' O2 R4) as [l Hl]. exists h0, (sg s1). split; [done|]. rewrite Hl El. apply in_or_app. right. by left.
Qed.
Lemma still_in h s : reachable w s -> still_registered h s -> In h (handlers (cx s)).
Proof.
  intros Hr [H1 H2]. rewrite /hist -in_rev in H1. rewrite /hist -in_rev in H2. by destruct (noted_reachable w s _ Hr H1).
Qed.
Lemma not_lost a h r g s s' : reachable w s -> on_shutdown_of a h -> still_registered h s -> completion a s <> None ->
  processes w s (EvShutdown r g) (Ok tt) s' -> shut_requested a s' \/ (~ has_started a s /\ request_waits a s').
Proof.
  intros Hr [i ->] Hreg Hc Hp. pose proof (okst_reachable s Hr) as HO.
  destruct (receives w _ _ _ _ Hr Hp (still_in _ _ Hr Hreg)) as (fuel & s1 & s2 & H1 & H2 & H3); [done|].
  assert (okst s1) as O1 by (by eapply okst_rtc).
  assert (R s1 s2) as R12 by (by eapply R_handle_one). assert (okst s2) as O2 by (by eapply okst_rtc).
  destruct (asks_handler fuel (MkH i MShutdown false (HProcShutdown a)) (EvShutdown r g) a (fun s => negb g || noninteractive (cx s)) s1 s2 O1 eq_refl) as [HH|[HN HH]]; try done.
  - by apply (comp_rtc a s s1).
  - left. exact (requested_rtc a s2 s' O2 H3 HH).
  - right. split. { intros Hs. apply HN. exact (started_rtc a s s1 HO H1 Hs). } destruct HH as (h & sg & Hd & Hin). exists h, sg. split; [done|]. destruct (log_rtc s2 s' O2 H3) as [l El].
    rewrite /hist -in_rev El. apply in_or_app. by right.
Qed.
Lemma taken_up a sg h b d s s' : reachable w s -> deferred a sg h -> still_registered h s -> completion a s <> None -> has_started a s ->
  processes w s (EvStarted b d) (Ok tt) s' -> shut_requested a s'.
Proof.
  intros Hr [i ->] Hreg Hc Ht Hp. pose proof (okst_reachable s Hr) as HO.
  destruct (receives w _ _ _ _ Hr Hp (still_in _ _ Hr Hreg)) as (fuel & s1 & s2 & H1 & H2 & H3); [done|].
  assert (okst s1) as O1 by (by eapply okst_rtc).
  assert (R s1 s2) as R12 by (by eapply R_handle_one). assert (okst s2) as O2 by (by eapply okst_rtc).
  destruct (asks_handler fuel (MkH i (MAct CStart TgtAny) false (HProcDeferred a sg)) (EvStarted b d) a (fun _ => sg) s1 s2 O1 eq_refl) as [HH|[HH _]]; try done.
  - by apply (comp_rtc a s s1).
  - exact (requested_rtc a s2 s' O2 H3 HH).
  - destruct HH. exact (started_rtc a s s1 HO H1 Ht).
Qed.
Lemma in_abouts a o l : In o l -> about a o = true -> In o (abouts a l).
Proof. intros. by apply filter_In. Qed.
Lemma own_start a d s : reachable w s -> In (OLife (EvStarted a d)) (hist s) -> has_started a s.
Proof.
  intros Hr Hin. rewrite -v_tr_some. rewrite /hist -in_rev in Hin.
  destruct (arun_inv0 a (fun l v => (exists d, In (OLife (EvStarted a d)) l) -> v_tr v <> None)) with (l := abouts a (log s)) (v := view a s) as [HI _].
  - intros b [d0 []].
  - intros l v l1 v' IH Hv H [d0 [Hd|Hd]%in_app_or]; [|eapply tr_step; [done|done|apply IH; by eexists]].
    destruct H; simpl in Hd; try done; destruct Hd as [Hd|Hd]; try done; try by destruct Hd.
  - by apply (sim_reachable w).
  - apply HI. exists d. apply in_abouts; [done|]. simpl. by apply bool_decide_true.
Qed.
(** A request that was taken into account began the escalation, unless the action had completed. *)
Lemma requested_escalates a s : reachable w s -> shut_requested a s -> escalations a (hist s) = 1%nat \/ completion a s = Some true.
Proof.
  intros Hr Hq. rewrite -v_comp_eq. rewrite -v_sd_true in Hq.
  destruct (arun_inv0 a (fun l v => v_sd v = Some true -> (1 <= cnt (is_escal a) l)%nat \/ v_comp v = Some true)) with (l := abouts a (log s)) (v := view a s) as [HI _].
  - done.
  - intros l v l1 v' IH Hv H Hs. rewrite cnt_app.
    assert (v_sd v = Some true -> (1 <= cnt (is_escal a) l1 + cnt (is_escal a) l)%nat \/ v_comp v' = Some true) as HK.
    { intros Hs0. destruct (IH Hs0) as [?|Hc]; [left; lia|right]. by apply (over_step a v l1 v'). }
    destruct H; simpl in *; try by apply HK.
    + by right.
    + left. rewrite /cnt /= bool_decide_true //=. lia.
  - by apply (sim_reachable w).
  - destruct (HI Hq) as [HI1|HI1]; [left|by right]. rewrite cnt_abouts in HI1; [by intros []|].
    pose proof (escal_once w a s Hr) as HE. rewrite escal_cnt /hist cnt_rev in HE |- *. lia.
Qed.
(** ** The requests that wait accumulate *)
Definition dreg (a : aid) (o : obs) : bool := match o with OReg h => is_deferred a h | _ => false end.
Lemma deferred_is a sg h : deferred a sg h -> is_deferred a h = true.
Proof. intros [i ->]. simpl. by apply bool_decide_true. Qed.
Lemma is_deferred_is a h : is_deferred a h = true -> exists sg, deferred a sg h.
Proof.
  destruct h as [i m o b]. simpl. destruct m; try done; destruct c; try done; destruct t; try done; destruct o; try done; destruct b; try done.
  intros ->%bool_decide_eq_true. by eexists _, i.
Qed.
Lemma cnt_rtc f s s' : okst s -> R s s' -> (cnt f (log s) <= cnt f (log s'))%nat.
Proof. intros HO H. destruct (log_rtc s s' HO H) as [l ->]. rewrite cnt_app. lia. Qed.
Lemma acc_list fuel a b d hs s s' : okst s -> handle_list w fuel hs (EvStarted b d) s = (s', Ok tt) ->
  completion a s <> None -> ~ has_started a s' -> completion a s' = Some false ->
  (cnt (dreg a) (log s) + length (List.filter (is_deferred a) hs) <= cnt (dreg a) (log s'))%nat.
Proof.
  revert s. induction hs as [|h hs IH]; intros s HO; [intros [= <-]; simpl; lia|]. cbn [handle_list].
  intros [(s1 & [] & E1 & E2)|[(y & _ & ?)|[_ ?]]]%bindS_inv; [|done..]. intros Hc Ht Hcf.
  assert (R s s1) as R1. { destruct (matches w h _); [by eapply R_handle_one|]. by injection E1 as ->. }
  assert (okst s1) as O1 by (exact (okst_rtc s s1 HO R1)).
  assert (R s1 s') as R2.
  { clear -E2. revert s1 E2. induction hs as [|y hs IH]; intros s1; cbn [handle_list]; [by intros [= <-]|].
    intros [(s2 & [] & E1 & E2)|[(z & _ & ?)|[_ ?]]]%bindS_inv; [|done..]. etrans; [|by eapply IH].
    destruct (matches w y _); [by eapply R_handle_one|]. by injection E1 as ->. }
  specialize (IH s1 O1 E2 (comp_rtc a s s1 HO R1 Hc) Ht Hcf).
  cbn [List.filter]. destruct (is_deferred a h) eqn:Eh; [|pose proof (cnt_rtc (dreg a) s s1 HO R1); lia].
  destruct (is_deferred_is a h Eh) as (sg & i & ->).
  assert (matches w (MkH i (MAct CStart TgtAny) false (HProcDeferred a sg)) (EvStarted b d) = true) as Hm by done. rewrite Hm in E1. clear Hm.
  destruct (handled fuel (MkH i (MAct CStart TgtAny) false (HProcDeferred a sg)) _ s s1 eq_refl E1) as (sa & sb & sc & ents & Ra & _ & _ & Eb & Ev & _ & Rc).
  assert (okst sa) as Oa by (exact (okst_rtc s sa HO Ra)).
  change (shutdown_process a sg sa = (sb, Ok ents)) in Eb.
  assert (R sa sb) as Rb. { pose proof (R_shut a sg sa) as H. by rewrite Eb in H. }
  assert (okst sb) as Ob by (exact (okst_rtc sa sb Oa Rb)).
  assert (R sb s') as Rb'. { etrans; [by eapply R_ents|]. by etrans. }
  assert (R sa s') as Ra' by (by etrans).
  assert (~ has_started a sa) as Ta. { intros H. apply Ht. exact (started_rtc a sa s' Oa Ra' H). }
  assert (completion a sa = Some false) as Ca.
  { destruct (completion a sa) as [[]|] eqn:E; [|done|].
    - pose proof (over_rtc a sa s' Oa Ra' E). congruence.
    - by destruct (comp_rtc a s sa HO Ra Hc). }
  assert (~ shut_requested a sa) as Na.
  { intros H. apply Ta. rewrite -v_tr_some. rewrite -v_sd_true in H. rewrite -v_comp_eq in Ca. by apply (ak_esc _ (ok_view2 _ Oa a)). }
  destruct (asked_waits a sg sa Oa Ca Na Ta) as (h & s2 & Hd & E & El & _).
  rewrite Eb in E. simplify_eq. assert (R s2 s1) as R4. { etrans; [by eapply R_ents|done]. }
  pose proof (cnt_rtc (dreg a) s sa HO Ra) as L1. pose proof (cnt_rtc (dreg a) s2 s1 Ob R4) as L2.
  rewrite El in L2. rewrite (cnt_app _ [_; _]) in L2. rewrite {1}/cnt /= (deferred_is a sg h Hd) /= in L2. cbn [length]. lia.
Qed.
Lemma accumulate a b d s s' : reachable w s -> processes w s (EvStarted b d) (Ok tt) s' ->
  completion a s <> None -> ~ has_started a s' -> completion a s' = Some false ->
  (deferred_ever a s + deferred_now a s <= deferred_ever a s')%nat.
Proof.
  intros Hr Hp Hc Ht Hcf. pose proof (okst_reachable s Hr) as HO.
  destruct (processes_inv _ _ _ _ _ (reachable_wfu _ _ Hr) Hp) as (fuel & q & s2 & Hq & E & _ & ->).
  assert (R s (deq s (EvStarted b d) q)) as R0. { rewrite /deq. etrans; [by apply (Rcx w s (cx s <| queue := q |>))|by apply Robs]. }
  pose proof (acc_list fuel a b d _ _ s2 (okst_rtc _ _ HO R0) E (comp_rtc a _ _ HO R0 Hc) Ht Hcf) as H.
  pose proof (cnt_rtc (dreg a) _ _ HO R0) as H0.
  assert (forall x, deferred_ever a x = cnt (dreg a) (log x)) as HE. { intros x. by rewrite -(cnt_rev _ (log x)). }
  rewrite !HE /deferred_now. change (log (s2 <| evt := ETDone (Ok tt) |>)) with (log s2). change (handlers (cx (deq s (EvStarted b d) q))) with (handlers (cx s)) in H. etrans; [|exact H]. by apply Nat.add_le_mono_r.
Qed.
End esc.
