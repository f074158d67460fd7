(** Lemmas for C104: events. *)
From Coq Require Import ssreflect.
From Verif Require Import StrFacts SubstFacts ArgsFacts ExecFacts VisitFacts ActionFacts HandleFacts StepFacts EventFacts SpecEvents SpecOpen OpenFacts.

Section open.
Context (w : world) (HW : clean_world w).
Definition kept (s s' : st) : Prop := numbered s' /\ clean_sources s' /\ same_stacks s s'.
Lemma kept_refl s : numbered s -> clean_sources s -> kept s s.
Proof. intros Hw Hs. split_and!; [done|done|apply same_stacks_refl]. Qed.
Lemma kept_trans s s1 s2 : kept s s1 -> kept s1 s2 -> kept s s2.
Proof. intros (_ & _ & H1) (Hw & Hs & H2). split_and!; [done|done|by eapply same_stacks_trans]. Qed.
Lemma gframe_kept q s s' : numbered s -> clean_sources s -> gframe w q true s s' -> kept s s'.
Proof.
  intros Hw Hs HF. split_and!; [by eapply wf_vframe|by eapply clean_sources_vframe|by apply (vf_stacks _ _ _ _ _ HF)].
Qed.
Lemma call_user_clean f s s' l : call_user w f s = (s', Ok l) -> Forall clean l.
Proof. rewrite /call_user. destruct (w_fun w f (cx s)) as [ops r] eqn:E. intros [= _ ->]. by eapply (proj1 HW). Qed.
Lemma body_clean b e s s' l : match b with HEntities l | HShut l | HList l => Forall clean l | HEntity x => clean x | _ => True end ->
  run_body w b e s = (s', Ok l) -> Forall clean l.
Proof.
  destruct b; simpl; intros Hb; try by (intros [= _ <-]; auto).
  - apply call_user_clean.
  - destruct l0; [done|]. by intros [= _ <-].
  - destruct e; try by (intros [= _ <-]; auto).
    + destruct fd; [destruct fo|destruct fe]; try apply call_user_clean; by intros [= _ <-].
    + destruct fi; [apply call_user_clean|by intros [= _ <-]].
  - rewrite /proc_io. destruct e; try by (intros [= _ <-]; auto). destruct (procs s !! a) as [p|]; [|by intros [= _ <-]].
    destruct (_ a fd text _ _) as [b' s1]. by intros [= _ <-].
  - destruct e; try done. apply shutdown_process_clean.
  - rewrite /proc_flush. destruct (procs s !! a) as [p|]; [|by intros [= _ <-]]. destruct (p_cached _).
    + destruct (flush_cached_one a Stdout _ _) as [o s1]. destruct (flush_cached_one a Stderr _ s1) as [e' s2]. by intros [= _ <-].
    + destruct (b_closed _); by intros [= _ <-].
  - apply shutdown_process_clean.
  - destruct (coros s !! a); by intros [= _ <-].
Qed.
Lemma body_kept b e s s' r : numbered s -> clean_sources s -> run_body w b e s = (s', r) -> kept s s'.
Proof.
  assert (b = HSvcShutdown \/ b <> HSvcShutdown) as [->|Hb] by (clear; destruct b; first [left; reflexivity|right; discriminate]); intros Hw Hs E.
  - injection E as <- _. done.
  - eapply gframe_kept; [done..|]. by eapply P_run_body.
Qed.

(** How the visits of a list end. *)
Definition raised (s : st) (x : exn) (s' : st) : Prop := exists open,
  (open <> [] -> exists e s1, stops w e s1 open x s') /\
  lc_stack (cx s') = map lc open ++ lc_stack (cx s) /\ env_stack (cx s') = map env open ++ env_stack (cx s).
Definition ends (s : st) (r : res unit) (s' : st) : Prop :=
  match r with Ok _ => kept s s' | Exn x => raised s x s' | OutOfFuel => True end.
Lemma ends_kept s s1 r s2 : kept s s1 -> ends s1 r s2 -> ends s r s2.
Proof.
  intros HK. destruct r as [u|x|]; simpl; [by apply kept_trans| |done].
  intros (cs & Hst & HL & HE). exists cs. destruct HK as (_ & _ & [L1 E1]). by rewrite HL HE L1 E1.
Qed.
Lemma raised_here s x s' : kept s s' -> raised s x s'.
Proof. intros (_ & _ & [L1 E1]). exists []. by rewrite L1 E1. Qed.
(** An entity that is without Push and Pop, or that returns such ones. *)
Definition tame (x : entity) (s : st) : Prop :=
  clean x \/ (visit_push_pop x = false /\ scoped x = false /\ forall fuel s1 subs, visit_one w fuel x s = (s1, Ok subs) -> Forall clean subs).
Lemma include_tame ld s : (get_local "event" (cx s)).2 = Ok (LEv (EvInclude ld)) -> Forall clean ld -> tame (anon IInclude) s.
Proof.
  intros Hl Hc. right. split_and!; [done|done|]. intros fuel s1 subs (s2 & E & _)%visit_one_anon. revert E. simpl.
  rewrite /event_of_locals /bindS /on_ctx /=. destruct (get_local "event" (cx s)) as [c r0]. simpl in Hl. subst r0. intros [= _ <-].
  constructor; [by apply cl_launch|constructor].
Qed.
Lemma timer_tame a s : (get_local "event" (cx s)).2 = Ok (LEv (EvTimer a)) -> (forall t, timers s !! a = Some t -> Forall clean (t_body t)) ->
  tame (anon ITimerHandle) s.
Proof.
  intros Hl Hc. right. split_and!; [done|done|]. intros fuel s1 subs (s2 & E & _)%visit_one_anon. revert E. simpl.
  rewrite /exec_timer_handle /event_of_locals /bindS /on_ctx /=. destruct (get_local "event" (cx s)) as [c r0]. simpl in Hl. subst r0. simpl.
  destruct (timers s !! a) as [t|]; intros [= _ <-]; [by apply Hc|constructor].
Qed.
Lemma one_ends n x s s' r : numbered s -> clean_sources s -> tame x s -> visit_all w n x s = (s', r) ->
  match r with Ok _ => kept s s' | Exn y => raised s y s' | OutOfFuel => True end.
Proof.
  intros Hw Hs [Hc|(Hp & Hsc & Hc)] E; destruct r as [fs|y|]; [| |done| | |done].
  - destruct (proj1 (visit_all_run w n) _ _ _ _ E) as [t Ht]. destruct (proj1 (visit_run_clean w HW) _ _ _ _ _ Ht Hw Hs) as [Hs' HN].
    split; [by destruct (proj1 (visit_run_log w) _ _ _ _ _ Ht Hw)|]. split; [done|].
    eapply visit_run_stacks; [exact Ht|done|]. by apply HN.
  - destruct (scopes_open w HW n x s y s' Hw Hs Hc E) as (cs & Hst & HL & HE). exists cs. split; [|done]. intros _. by exists x, s.
  - destruct (proj1 (visit_all_run w n) _ _ _ _ E) as [t Ht].
    apply visit_run_inv in Ht as (fuel & subs & s1 & kids & gs & E1 & Hr & _ & _).
    assert (kept s s1) as HK. { eapply gframe_kept; [done..|]. pose proof (P_visit_one w fuel x _ _ _ E1 Hw) as HF. by rewrite Hp in HF. }
    eapply kept_trans; [exact HK|]. destruct HK as (Hw1 & Hs1 & _).
    eapply (runs_clean w HW); [exact Hr|done|done|]. by eapply Hc.
  - destruct (proj1 (visit_all_fails w n) _ _ _ _ E) as [l Hf].
    inversion Hf as [fuel e0 s0 x0 s1 E1|fuel e0 s0 before k after s1 ts fs s2 l0 x0 s3 E1 Hr Hk]; subst.
    { apply raised_here. eapply gframe_kept; [done..|]. pose proof (P_visit_one w fuel x _ _ _ E1 Hw) as HF. by rewrite Hp in HF. }
    pose proof (Hc _ _ _ E1) as HF. apply Forall_app in HF as [HF1 HF2]. apply Forall_cons in HF2 as [Hck _].
    assert (kept s s1) as (Hw1 & Hs1 & [L1 Es1]).
    { eapply gframe_kept; [done..|]. pose proof (P_visit_one w fuel x _ _ _ E1 Hw) as HF. by rewrite Hp in HF. }
    destruct (runs_clean w HW _ _ _ _ _ Hr Hw1 Hs1 HF1) as (Hw2 & Hs2 & [L2 Es2]).
    destruct (fails_open w HW _ _ _ _ _ Hk Hw2 Hs2 Hck) as (cs & Hst & HL & HE). exists cs. rewrite HL HE L2 Es2 L1 Es1. split; [|done].
    intros _. by eexists _, _.
Qed.
Lemma ents_ends n l s s' r : numbered s -> clean_sources s -> Forall clean l -> visit_ents w n l s = (s', r) -> ends s r s'.
Proof.
  revert s. induction l as [|x l IH]; intros s Hw Hs Hc; simpl.
  - intros [= <- <-]. by apply kept_refl.
  - apply Forall_cons in Hc as [Hx Hc].
    intros [(s1 & fs & E1 & E)|[(y & E1 & ->)|[_ ->]]]%bindS_inv; [| |done].
    + pose proof (one_ends _ _ _ _ _ Hw Hs (or_introl Hx) E1) as HK. simpl in HK. eapply ends_kept; [exact HK|].
      destruct HK as (Hw1 & Hs1 & _). revert E. rewrite /bindS /modS. by apply IH.
    + exact (one_ends _ _ _ _ _ Hw Hs (or_introl Hx) E1).
Qed.
Definition asked (e : event) (h : handler) (s : st) : Prop :=
  clean_handler e h \/ (h_body h = HEntity (anon ITimerHandle) /\ exists a, e = EvTimer a /\ forall t, timers s !! a = Some t -> Forall clean (t_body t)).
Lemma handle_ends n h e s s' r : numbered s -> clean_sources s -> asked e h s -> handle_one w n h e s = (s', r) -> ends s r s'.
Proof.
  intros Hw Hs Hc. rewrite handle_one_inside inside_after.
  assert (kept s (entered h e s)) as K0 by done.
  assert (kept s (with_event e (entered h e s))) as K1 by done.
  destruct (unreg_once h (with_event e (entered h e s))) as [s1 r1] eqn:E1.
  assert (kept s s1 /\ locals (cx s1) = locals (cx (with_event e (entered h e s))) /\ cache (cx s1) = None /\ timers s1 = timers s) as (K2 & HL & HC & HT).
  { rewrite /unreg_once in E1. destruct (h_once h); [|by injection E1 as <- _].
    rewrite /unregister /on_ctx /unregister_event_handler in E1. destruct (remove_first _ _); by simplify_eq. }
  destruct r1 as [u|x|]; [|intros [= <- <-]; by apply raised_here|by intros [= <- <-]].
  assert (kept s (begin_body h s1)) as K3 by done.
  assert ((get_local "event" (cx s1)).2 = Ok (LEv e)) as HG.
  { rewrite /get_local /get_combined_locals HC /= HL with_event_local lookup_union lookup_insert. by destruct (globals _ !! _). }
  destruct (after_body w n h e (begin_body h s1)) as [s2 r2] eqn:E2.
  assert (ends s r2 s2) as H2.
  { revert E2. rewrite /after_body. intros [(s3 & l & E3 & E)|[(y & E3 & ->)|[_ ->]]]%bindS_inv; [| |done].
    - destruct K3 as (Hw3 & Hs3 & S3). pose proof (body_kept _ _ _ _ _ Hw3 Hs3 E3) as K4.
      assert (kept s s3) as K5. { eapply kept_trans; [|exact K4]. done. }
      eapply ends_kept; [exact K5|]. destruct K5 as (Hw5 & Hs5 & _).
      assert (forall x, h_body h = HEntity x -> tame x (begin_body h s1) -> ends s3 r2 s2) as H1.
      { intros x Hb Ht. rewrite Hb in E3. injection E3 as <- <-. revert E. simpl. intros [(s4 & fs & E4 & E)|[(y & E4 & ->)|[_ ->]]]%bindS_inv; [| |done].
        - injection E as <- <-. exact (one_ends n x _ _ (Ok fs) Hw5 Hs5 Ht E4).
        - exact (one_ends n x _ _ (Exn y) Hw5 Hs5 Ht E4). }
      destruct Hc as [Hc|(Hb & a & -> & Ha)].
      2: { apply (H1 _ Hb). apply (timer_tame a); [by apply HG|]. by rewrite /= HT. }
      unfold clean_handler in Hc.
      destruct (h_body h) as [| x | | | | | | | | | | | | ] eqn:Hb.
      2: { apply (H1 x eq_refl). destruct Hc as [Hc|(-> & ld & -> & Hc)]; [by left|]. apply (include_tame ld); [by apply HG|done]. }
      all: by eapply ents_ends; [done|done|eapply body_clean; [|exact E3]|exact E].
    - apply raised_here. destruct K3 as (Hw3 & Hs3 & S3). eapply kept_trans; [|by eapply body_kept]. done. }
  destruct r2 as [u2|x|]; [|by intros [= <- <-]..]. intros E. eapply ends_kept; [exact H2|]. destruct H2 as (Hw2 & Hs2 & _).
  revert E. rewrite /on_ctx /pop_locals. destruct (locals_stack (cx s2)); intros [= <- <-]; [by apply raised_here|done].
Qed.
Lemma list_ends n hs e s s' r : numbered s -> clean_sources s ->
  (forall before h after, hs = before ++ h :: after -> matches w h e = true ->
   clean_handler e h \/ (h_body h = HEntity (anon ITimerHandle) /\ Forall (fun g => matches w g e = false) before /\
     exists a, e = EvTimer a /\ forall t, timers s !! a = Some t -> Forall clean (t_body t))) ->
  handle_list w n hs e s = (s', r) -> ends s r s'.
Proof.
  revert s. induction hs as [|h hs IH]; intros s Hw Hs Hc; simpl.
  - intros [= <- <-]. by apply kept_refl.
  - destruct (matches w h e) eqn:Hm.
    + assert (forall s1 r1, handle_one w n h e s = (s1, r1) -> ends s r1 s1) as H1.
      { intros s1 r1. apply handle_ends; [done..|]. destruct (Hc [] h hs eq_refl Hm) as [H|(H1 & _ & H2)]; [by left|by right]. }
      intros [(s1 & u & E1 & E)|[(y & E1 & ->)|[_ ->]]]%bindS_inv; [|exact (H1 _ _ E1)|done].
      apply H1 in E1. eapply ends_kept; [exact E1|]. destruct E1 as (Hw1 & Hs1 & _). eapply IH; [done|done| |exact E].
      intros before h' after -> Hm'. destruct (Hc (h :: before) h' after eq_refl Hm') as [H|(_ & H & _)]; [by left|].
      apply Forall_cons in H as [H _]. congruence.
    + rewrite /bindS /retS. apply IH; [done|done|]. intros before h' after -> Hm'.
      destruct (Hc (h :: before) h' after eq_refl Hm') as [H|(H1 & H & H2)]; [by left|right]. by apply Forall_cons in H as [_ H].
Qed.
Lemma sources_le s s' : clean_sources s -> srcs_le w s s' -> clean_sources s'.
Proof.
  intros Hs HF src loc ld Hl. destruct (HF src ld) as [H|(loc' & n & H)].
  - by rewrite /known_srcs Hl.
  - rewrite /known_srcs in H. destruct (srcs s !! src) as [[? ?]|] eqn:E; [|done]. subst. by eapply Hs.
  - by eapply (proj2 HW).
Qed.
Lemma sources_step l s s' : wfu s -> clean_sources s -> step w l s = Some s' -> clean_sources s'.
Proof.
  intros Hw Hs E. destruct (step_cases w _ _ _ Hw E) as [(HT & _)|[(i & f & e & _ & _ & _ & _ & ->)|(fuel & e & q & s2 & r & _ & _ & _ & _ & Hp & _ & ->)]].
  - eapply sources_le; [exact Hs|]. exact (tf_srcs _ _ _ _ HT).
  - exact Hs.
  - change (clean_sources s2). eapply sources_le; [|exact (hf_srcs _ _ _ (H_process_event w fuel e _ _ _ Hp (deq_wf _ _ _ Hw)))]. exact Hs.
Qed.
Lemma sources_reachable s : reachable w s -> clean_sources s.
Proof.
  intros Hr. assert (wfu s /\ clean_sources s) as [_ H]; [|exact H]. revert s Hr.
  apply (reachable_inv w (fun s => wfu s /\ clean_sources s)).
  - intros ni e. split; [apply init_wfu|by intros src loc ld].
  - intros l s1 s2 [H1 H2] E. split; [by eapply step_wfu|by eapply sources_step].
Qed.
Lemma event_ends s e r s' : reachable w s ->
  brings_clean w s e -> processes w s e r s' ->
  exists s2, ends s r s2 /\ cx s' = cx s2.
Proof.
  intros Hr Hc. pose proof (sources_reachable s Hr) as Hs. revert Hr. intros Hr%reachable_wfu (fuel & q & s2 & Hq & Hp & _ & ->)%processes_inv; [|done]. exists s2. split; [|done].
  eapply ends_kept; [|eapply (list_ends fuel (handlers (cx (deq s e q))) e (deq s e q)); [|exact Hs|exact Hc|exact Hp]].
  - split; [|split]; [by apply deq_wf|done|done].
  - by apply deq_wf.
Qed.
End open.
