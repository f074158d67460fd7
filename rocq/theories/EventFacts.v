(** Proofs of the properties of events and event handlers. *)
From Coq Require Import ssreflect.
From Verif Require Import SubstFacts SpecEvents ExWorld ExecFacts VisitFacts HandleFacts StepFacts.

Lemma times_handled_app i l1 l2 : times_handled i (l1 ++ l2) = (times_handled i l1 + times_handled i l2)%nat.
Proof. by rewrite /times_handled handled_app List.filter_app app_length. Qed.
Lemma registrations_app i l1 l2 : registrations i (l1 ++ l2) = registrations i l1 ++ registrations i l2.
Proof. apply omap_app. Qed.
Lemma quiet_handled l : Forall (fun o => quiet o = true) l -> handled l = [].
Proof. induction 1 as [|o l Ho _ IH]; [done|]. change (o :: l) with ([o] ++ l). rewrite handled_app IH. by destruct o. Qed.

Lemma quiet_bodies l : Forall (fun o => quiet o = true) l -> bodies l = [].
Proof. induction 1 as [|o l Ho _ IH]; [done|]. change (o :: l) with ([o] ++ l). rewrite /bodies omap_app. fold (bodies l). rewrite IH. by destruct o. Qed.
Lemma bodies_app l1 l2 : bodies (l1 ++ l2) = bodies l1 ++ bodies l2.
Proof. apply omap_app. Qed.

(** ** Reachable states *)
Lemma reachable_inv w (P : st -> Prop) :
  (forall n e, P (init n e)) -> (forall l s s', P s -> step w l s = Some s' -> P s') ->
  forall s, reachable w s -> P s.
Proof.
  intros H0 H1 s (n & e & ls & Hs). specialize (H0 n e). induction Hs; [done|]. eauto.
Qed.
Lemma deq_wfu s e q : wfu s -> wfu (deq s e q).
Proof. done. Qed.
Lemma deq_wf s e q : wfu s -> wf (deq s e q).
Proof. by intros []. Qed.
Lemma step_wfu w l s s' : wfu s -> step w l s = Some s' -> wfu s'.
Proof.
  intros Hw Hst. destruct (step_cases w l s s' Hw Hst) as [[H _]|[(i & f & e & -> & _ & _ & _ & ->)|(fuel & e & q & s2 & r & -> & _ & _ & Hq & Hp & Hr & ->)]].
  - by eapply wfu_tframe.
  - done.
  - assert (wfu s2) as H2; [|exact H2]. eapply wfu_tframe; [by apply (deq_wfu s e q)|]. apply hframe_tframe.
    apply (H_process_event w fuel e _ _ _ Hp). apply Hw.
Qed.
Lemma init_wfu n e : wfu (init n e).
Proof. split; [by intros f _|constructor]. Qed.
Lemma reachable_wfu w s : reachable w s -> wfu s.
Proof. apply reachable_inv; [apply init_wfu|]. intros l s1 s2. apply step_wfu. Qed.
Lemma reachable_numbered w s : reachable w s -> numbered s.
Proof. intros H. apply (reachable_wfu _ _ H). Qed.
Lemma steps_wfu w s ls s' : wfu s -> steps w s ls s' -> wfu s'.
Proof. intros H Hs. induction Hs; [done|]. apply IHHs. by eapply step_wfu. Qed.

(** ** C10 *)
Lemma C10_step w l s s' : wfu s -> step w l s = Some s' ->
  emitted (hist s) = processed (hist s) ++ queue (cx s) -> emitted (hist s') = processed (hist s') ++ queue (cx s').
Proof.
  intros Hw Hst IH. destruct (step_cases w l s s' Hw Hst) as [[H _]|[(i & f & e & -> & _ & _ & _ & ->)|(fuel & e & q & s2 & r & -> & _ & _ & Hq & Hp & Hr & ->)]].
  - destruct (tf_log _ _ _ _ H) as (lo & -> & HF & ->). rewrite emitted_app processed_app IH.
    assert (processed lo = []) as ->. { clear -HF. induction HF as [|o lo Ho _ IH]; [done|]. change (o :: lo) with ([o] ++ lo). rewrite processed_app IH. by destruct o. }
    by rewrite app_nil_r -app_assoc.
  - rewrite /emit hist_obs1 emitted_app processed_app. change (hist (set cx _ _)) with (hist s). rewrite IH /= app_nil_r.
    by rewrite -app_assoc.
  - pose proof (H_process_event w fuel e _ _ _ Hp) as HF. specialize (HF (proj1 Hw)).
    destruct (hf_log _ _ _ HF) as (lo & HL & HQ & HE). simpl. rewrite HE.
    change (hist (s2 <| evt := ETDone r |>)) with (hist s2). rewrite HL. rewrite /deq hist_obs1 /=.
    change (hist (s <| cx ::= _ |>)) with (hist s).
    rewrite !emitted_app !processed_app IH Hq /=. 
    assert (processed lo = []) as ->. { clear -HQ. induction HQ as [|o lo Ho _ IH]; [done|]. change (o :: lo) with ([o] ++ lo). rewrite processed_app IH. by destruct o. }
    rewrite !app_nil_r -!app_assoc /=. done.
Qed.
Lemma C10_inv w s : reachable w s -> emitted (hist s) = processed (hist s) ++ queue (cx s).
Proof.
  intros H. enough (wfu s /\ emitted (hist s) = processed (hist s) ++ queue (cx s)) by tauto. revert s H.
  apply reachable_inv; [intros; split; [apply init_wfu|done]|]. intros l s s' [Hw IH] Hst. split; [by eapply step_wfu|by eapply C10_step].
Qed.

(** ** Bodies of handlers *)
Definition bfr (w : world) (s s' : st) : Prop :=
  wf s -> hframe w s s' /\ locals_stack (cx s') = locals_stack (cx s) /\ ldom s s' /\
          exists l, hist s' = hist s ++ l /\ Forall (fun o => quiet o = true) l.
#[global] Instance bfr_preorder w : PreOrder (bfr w).
Proof.
  split.
  - intros s _. split_and!; [apply hframe_refl|done|done|]. exists []. by rewrite app_nil_r.
  - intros a b c H1 H2 Hw. destruct (H1 Hw) as (F1 & L1 & D1 & l1 & E1 & Q1).
    destruct (H2 (wf_hframe _ _ _ Hw F1)) as (F2 & L2 & D2 & l2 & E2 & Q2). split_and!.
    + by eapply hframe_trans.
    + congruence.
    + intros k Hk. by apply D2, D1.
    + exists (l1 ++ l2). split; [by rewrite E2 E1 app_assoc|by apply Forall_app].
Qed.
Section body.
Context (w : world).
Lemma gframe_bfr q b s s' : (forall o, q o = true -> quiet o = true) -> (wf s -> gframe w q b s s') -> bfr w s s'.
Proof.
  intros Hq HG Hw. specialize (HG Hw). split; [by eapply gframe_hframe|].
  destruct HG as [(l & El & Ql & _) _ _ K _ _ _ _ _ _ _ _ _ _ _ D]. split_and!; [done|done|].
  exists l. split; [done|]. apply (Forall_impl _ _ _ Ql). auto.
Qed.
Lemma B_base_handle h e : pres (bfr w) (base_handle h e).
Proof. intros s s' r E. eapply gframe_bfr; [apply inner_quiet|]. intros Hw. by eapply P_base_handle. Qed.
Lemma B_run_body b e : pres (bfr w) (run_body w b e).
Proof.
  intros s s' r E. assert (b = HSvcShutdown \/ b <> HSvcShutdown) as [->|Hb] by (destruct b; by (left + right)).
  - intros Hw. pose proof (H_run_body w HSvcShutdown e _ _ _ E Hw). split; [done|]. injection E as <- _.
    split_and!; [done|done|]. exists []. by rewrite app_nil_r.
  - eapply gframe_bfr; [apply inner_quiet|]. intros Hw. by eapply P_run_body.
Qed.
Lemma B_visit_ents fuel l : pres (bfr w) (visit_ents w fuel l).
Proof.
  induction l as [|x l IH]; simpl; [apply pres_ret, _|].
  apply pres_bind; [apply _| |].
  - intros s s' r E. apply (gframe_bfr quiet false); [done|]. intros Hw. by eapply visit_all_frame.
  - intros fs. apply pres_bind; [apply _| |by intros _]. apply pres_mod. intros s _. split_and!; [apply efuts_frame|done|done|].
    exists []. by rewrite app_nil_r.
Qed.
(** The own code of the handler starts *)
Definition begin_body (h : handler) (s : st) : st := obs1 (OBody (h_id h) (locals (cx s)) (get_local "event" (cx s)).2) s.
(** The part of handle_one between push and pop *)
Definition inside (fuel : nat) (h : handler) (e : event) : st -> st * res unit :=
  ents <-- handle w h e ;; visit_ents w fuel ents.
Definition entered (h : handler) (e : event) (s : st) : st :=
  obs1 (OHandle (h_id h) e) s <| cx ::= push_locals |>.
Lemma bindS_eq {S A B} (m : S -> S * res A) (k : A -> S -> S * res B) s :
  bindS m k s = match m s with (s', Ok a) => k a s' | (s', Exn e) => (s', Exn e) | (s', OutOfFuel) => (s', OutOfFuel) end.
Proof. done. Qed.
Lemma handle_one_inside fuel h e s :
  handle_one w fuel h e s =
  match inside fuel h e (entered h e s) with
  | (s1, Ok _) => on_ctx pop_locals s1
  | (s1, Exn x) => (s1, Exn x)
  | (s1, OutOfFuel) => (s1, OutOfFuel)
  end.
Proof.
  rewrite handle_one_eq /inside. rewrite /bindS /modS /entered.
  change (obs1 (OHandle (h_id h) e) s <| cx ::= push_locals |>) with (set cx push_locals (obs1 (OHandle (h_id h) e) s)).
  destruct (handle w h e _) as [s1 [ents|x|]]; [|done..]. by destruct (visit_ents w fuel ents s1) as [s2 [u|x|]].
Qed.
Lemma entered_frame h e s : wf s -> hframe w s (entered h e s).
Proof.
  intros _. etrans; [by apply (hframe_obs w (OHandle (h_id h) e))|]. apply hframe_cx; try done. constructor.
Qed.
(** The event is a local of the body. *)
Definition with_event (e : event) (s : st) : st := s <| cx ::= extend_locals {["event" := LEv e]} |>.
Definition unreg_once (h : handler) : st -> st * res unit :=
  if h_once h then unregister (h_id h) else retS tt.
Definition after_body (fuel : nat) (h : handler) (e : event) : st -> st * res unit :=
  ents <-- run_body w (h_body h) e ;; visit_ents w fuel ents.
Lemma inside_after fuel h e s : inside fuel h e s =
  match unreg_once h (with_event e s) with
  | (s1, Ok _) => after_body fuel h e (begin_body h s1)
  | (s1, Exn x) => (s1, Exn x)
  | (s1, OutOfFuel) => (s1, OutOfFuel)
  end.
Proof.
  rewrite /inside /after_body /handle /base_handle /bindS /modS. fold (with_event e s). fold (unreg_once h).
  by destruct (unreg_once h (with_event e s)) as [s1 [u|x|]].
Qed.
Lemma B_unreg h : pres (bfr w) (unreg_once h).
Proof.
  rewrite /unreg_once. destruct (h_once h); [|apply pres_ret, _]. intros s2 s3 r3 E3. eapply gframe_bfr; [apply inner_quiet|]. intros _.
  pose proof (unregister_user_frame w (h_id h) s2) as HF. by rewrite E3 in HF.
Qed.
Lemma B_after_body fuel h e : pres (bfr w) (after_body fuel h e).
Proof. apply pres_bind; [apply _|apply B_run_body|intros ents; apply B_visit_ents]. Qed.
Lemma with_event_local e s : locals (cx (with_event e s)) = <["event" := LEv e]> (locals (cx s)).
Proof. by rewrite /= insert_union_singleton_l. Qed.
Definition view (h : handler) (e : event) (s : st) : hid * dict lval * res lval :=
  (h_id h, <["event" := LEv e]> (locals (cx s)), Ok (LEv e)).
(** What handling shows, up to the restoring pop *)
Lemma inside_log fuel h e s s' r : wf s -> inside fuel h e s = (s', r) ->
  locals_stack (cx s') = locals_stack (cx s) /\ ldom (with_event e s) s' /\
  exists l, hist s' = hist s ++ l /\ handled l = [] /\
    match r with Ok _ => bodies l = [view h e s] | _ => bodies l = [] \/ bodies l = [view h e s] end.
Proof.
  intros Hw. rewrite inside_after. destruct (unreg_once h (with_event e s)) as [s1 r1] eqn:E1.
  destruct (B_unreg h _ _ _ E1) as (F1 & K1 & D1 & l1 & H1 & Q1); [done|].
  destruct r1 as [u|x|].
  - set (s2 := begin_body h s1). intros E3.
    assert (wf s2) as Hw2. { change (wf s1). apply (wf_hframe w (with_event e s)); [done|exact F1]. }
    destruct (B_after_body fuel h e _ _ _ E3) as (F3 & K3 & D3 & l3 & H3 & Q3); [done|].
    split_and!; [by rewrite K3 -[locals_stack (cx s)]/(locals_stack (cx (with_event e s))) -K1|intros k Hk; apply D3, D1, Hk|].
    exists (l1 ++ OBody (h_id h) (locals (cx s1)) (get_local "event" (cx s1)).2 :: l3). split_and!.
    + by rewrite H3 /s2 /begin_body hist_obs1 H1 -!app_assoc.
    + rewrite handled_app (quiet_handled _ Q1). change (?o :: l3) with ([o] ++ l3). by rewrite handled_app (quiet_handled _ Q3).
    + assert (bodies (l1 ++ OBody (h_id h) (locals (cx s1)) (get_local "event" (cx s1)).2 :: l3) = [view h e s]) as HB; [|by destruct r; auto].
      rewrite bodies_app (quiet_bodies _ Q1). change (?o :: l3) with ([o] ++ l3). rewrite bodies_app (quiet_bodies _ Q3) /= /view.
      assert (locals (cx s1) = locals (cx (with_event e s)) /\ cache (cx s1) = None) as [HL HC].
      { rewrite /unreg_once in E1. destruct (h_once h); [|by injection E1 as <- _].
        rewrite /unregister /on_ctx /unregister_event_handler in E1. destruct (remove_first _ _); simplify_eq. done. }
      rewrite HL with_event_local. repeat f_equal.
      rewrite /get_local /get_combined_locals HC /= HL with_event_local lookup_union lookup_insert. by destruct (globals _ !! _).
  - intros [= <- <-]. split_and!; [done|done|]. exists l1. split_and!; [done|by apply quiet_handled|left; by apply quiet_bodies].
  - intros [= <- <-]. split_and!; [done|done|]. exists l1. split_and!; [done|by apply quiet_handled|left; by apply quiet_bodies].
Qed.
Lemma entered_wf h e s : wf s -> wf (entered h e s).
Proof. done. Qed.
Lemma with_event_keeps e s s' k : ldom (with_event e s) s' -> k = "event" \/ is_Some (locals (cx s) !! k) -> is_Some (locals (cx s') !! k).
Proof.
  intros D Hk. apply D. rewrite with_event_local. destruct (decide (k = "event")) as [->|Hn]; [rewrite lookup_insert; by eexists|].
  rewrite lookup_insert_ne //. by destruct Hk.
Qed.
Lemma entered_hist h e s : hist (entered h e s) = hist s ++ [OHandle (h_id h) e].
Proof. done. Qed.

Lemma handle_one_ok fuel h e s s' : wf s -> handle_one w fuel h e s = (s', Ok tt) ->
  locals (cx s') = locals (cx s) /\ locals_stack (cx s') = locals_stack (cx s) /\
  exists l, hist s' = hist s ++ OHandle (h_id h) e :: l /\ handled l = [] /\ bodies l = [view h e s].
Proof.
  intros Hw. rewrite handle_one_inside. destruct (inside _ _ _ _) as [s1 r] eqn:E.
  destruct (inside_log _ _ _ _ _ _ (entered_wf h e s Hw) E) as (L & _ & l & El & Ql & Bl).
  destruct r as [u|x|]; [|done..]. rewrite /on_ctx /pop_locals L /=. intros [= <-]. split_and!; [done|done|].
  exists l. split_and!; [|done|done]. change (hist (s1 <| cx := _ |>)) with (hist s1).
  by rewrite El entered_hist -app_assoc.
Qed.
Lemma handle_one_exn fuel h e s s' x : wf s -> handle_one w fuel h e s = (s', Exn x) ->
  locals_stack (cx s') = locals (cx s) :: locals_stack (cx s) /\ (forall k, k = "event" \/ is_Some (locals (cx s) !! k) -> is_Some (locals (cx s') !! k)) /\
  exists l, hist s' = hist s ++ OHandle (h_id h) e :: l /\ handled l = [] /\ (bodies l = [] \/ bodies l = [view h e s]).
Proof.
  intros Hw. rewrite handle_one_inside. destruct (inside _ _ _ _) as [s1 r] eqn:E.
  destruct (inside_log _ _ _ _ _ _ (entered_wf h e s Hw) E) as (L & V & l & El & Ql & Bl).
  destruct r as [u|y|]; [|intros [= <- <-]|done].
  - rewrite /on_ctx /pop_locals L /=. done.
  - split_and!; [done|intros k; by apply (with_event_keeps e (entered h e s))|]. exists l. split_and!; [|done|done]. by rewrite El entered_hist -app_assoc.
Qed.
Definition snapshot (e : event) (hs : list handler) : list (hid * event) :=
  map (fun h => (h_id h, e)) (List.filter (fun h => matches w h e) hs).
Lemma handle_list_ok fuel hs e s s' : wf s -> handle_list w fuel hs e s = (s', Ok tt) ->
  locals (cx s') = locals (cx s) /\ locals_stack (cx s') = locals_stack (cx s) /\
  exists l, hist s' = hist s ++ l /\ handled l = snapshot e hs /\
    bodies l = map (fun h => view h e s) (List.filter (fun h => matches w h e) hs).
Proof.
  revert s. induction hs as [|h hs IH]; intros s Hw; simpl.
  { intros [= <-]. split_and!; [done|done|]. exists []. by rewrite app_nil_r. }
  intros [(s1 & [] & E1 & E2)|[(?&?&?)|[??]]]%bindS_inv; [|done..].
  rewrite /snapshot /=. destruct (matches w h e) eqn:Em.
  - destruct (handle_one_ok _ _ _ _ _ Hw E1) as (L1 & K1 & l1 & H1 & Q1 & B1).
    destruct (IH s1) as (L2 & K2 & l2 & H2 & Q2 & B2); [|done|].
    { eapply wf_hframe; [exact Hw|]. by eapply H_handle_one. }
    split_and!; [congruence|congruence|]. exists ((OHandle (h_id h) e :: l1) ++ l2). split_and!; [by rewrite H2 H1 -app_assoc| |].
    + rewrite handled_app Q2. change (OHandle (h_id h) e :: l1) with ([OHandle (h_id h) e] ++ l1). by rewrite handled_app Q1.
    + rewrite bodies_app B2. change (OHandle (h_id h) e :: l1) with ([OHandle (h_id h) e] ++ l1). rewrite bodies_app B1 /=.
      f_equal. apply map_ext. intros h'. by rewrite /view L1.
  - injection E1 as <-. by apply IH.
Qed.
Lemma handle_list_exn fuel hs e s s' x : wf s -> handle_list w fuel hs e s = (s', Exn x) ->
  locals_stack (cx s') = locals (cx s) :: locals_stack (cx s) /\ (forall k, k = "event" \/ is_Some (locals (cx s) !! k) -> is_Some (locals (cx s') !! k)) /\
  exists l before h after, hist s' = hist s ++ l /\ List.filter (fun h => matches w h e) hs = before ++ h :: after /\
    handled l = map (fun h => (h_id h, e)) (before ++ [h]) /\
    (bodies l = map (fun h => view h e s) before \/ bodies l = map (fun h => view h e s) (before ++ [h])).
Proof.
  revert s. induction hs as [|h hs IH]; intros s Hw; simpl; [done|].
  intros [(s1 & [] & E1 & E2)|[(y & E1 & [= ->])|[??]]]%bindS_inv; [| |done].
  - destruct (matches w h e) eqn:Em; [|injection E1 as <-; by apply IH].
    destruct (handle_one_ok _ _ _ _ _ Hw E1) as (L1 & K1 & l1 & H1 & Q1 & B1).
    destruct (IH s1) as (L2 & K2 & l2 & dn & la & rs & H2 & F2 & Q2 & B2); [|done|].
    { eapply wf_hframe; [exact Hw|]. by eapply H_handle_one. }
    split_and!; [congruence|by rewrite -L1|]. exists ((OHandle (h_id h) e :: l1) ++ l2), (h :: dn), la, rs.
    assert (forall m, map (fun h => view h e s1) m = map (fun h => view h e s) m) as HV.
    { intros m. apply map_ext. intros h'. by rewrite /view L1. }
    split_and!; [by rewrite H2 H1 -app_assoc|by rewrite F2| |].
    + rewrite handled_app Q2. change (OHandle (h_id h) e :: l1) with ([OHandle (h_id h) e] ++ l1). by rewrite handled_app Q1.
    + rewrite bodies_app. change (OHandle (h_id h) e :: l1) with ([OHandle (h_id h) e] ++ l1). rewrite bodies_app B1 /=.
      rewrite !HV in B2. destruct B2 as [->| ->]; auto.
  - destruct (matches w h e) eqn:Em; [|done].
    destruct (handle_one_exn _ _ _ _ _ _ Hw E1) as (L1 & K1 & l1 & H1 & Q1 & B1). split_and!; [done|done|].
    exists (OHandle (h_id h) e :: l1), [], h, (List.filter (fun h => matches w h e) hs). split_and!; [done|done| |].
    + change (OHandle (h_id h) e :: l1) with ([OHandle (h_id h) e] ++ l1). by rewrite handled_app Q1.
    + change (OHandle (h_id h) e :: l1) with ([OHandle (h_id h) e] ++ l1). by rewrite bodies_app.
Qed.
End body.

(** ** Steps that process an event *)
Lemma processes_inv w s e r s' : wfu s -> processes w s e r s' ->
  exists fuel q s2, queue (cx s) = e :: q /\ process_event w fuel e (deq s e q) = (s2, r) /\ r <> OutOfFuel /\
    s' = s2 <| evt := ETDone r |>.
Proof.
  intros Hw (fuel & Hst & Hh & He). destruct (step_cases w _ _ _ Hw Hst) as [(_ & H & _)|[(i & f & e' & [=] & _)|H]].
  { by destruct (H fuel). }
  destruct H as (fuel' & e' & q & s2 & r' & _ & _ & _ & Hq & Hp & Hr & ->). simpl in He. simplify_eq.
  rewrite Hq in Hh. simplify_eq/=. by exists fuel', q, s2.
Qed.
Lemma processes_ok w s e s' : wfu s -> processes w s e (Ok tt) s' ->
  locals (cx s') = locals (cx s) /\ locals_stack (cx s') = locals_stack (cx s) /\
  exists l, observed s (OProcess e :: l) s' /\ handled l = map (fun i => (i, e)) (receivers w e (cx s)) /\
    bodies l = map (fun i => (i, <["event" := LEv e]> (locals (cx s)), Ok (LEv e))) (receivers w e (cx s)).
Proof.
  intros Hw (fuel & q & s2 & Hq & Hp & _ & ->)%processes_inv; [|done].
  destruct (handle_list_ok w fuel _ e _ _ (deq_wf _ _ _ Hw) Hp) as (L & K & l & Hl & Hh & Hb). split_and!; [done|done|].
  exists l. split_and!.
  - rewrite /observed. change (hist (s2 <| evt := ETDone (Ok tt) |>)) with (hist s2). by rewrite Hl /deq /hist /= -app_assoc.
  - rewrite Hh /snapshot /receivers map_map. done.
  - rewrite Hb /receivers map_map. done.
Qed.
Lemma processes_exn w s e x s' : wfu s -> processes w s e (Exn x) s' ->
  locals_stack (cx s') = locals (cx s) :: locals_stack (cx s) /\ (forall k, k = "event" \/ is_Some (locals (cx s) !! k) -> is_Some (locals (cx s') !! k)) /\
  exists l before i after, observed s (OProcess e :: l) s' /\ handled l = map (fun i => (i, e)) (before ++ [i]) /\
    receivers w e (cx s) = before ++ i :: after /\
    exists seen, (seen = before \/ seen = before ++ [i]) /\
      bodies l = map (fun i => (i, <["event" := LEv e]> (locals (cx s)), Ok (LEv e))) seen.
Proof.
  intros Hw (fuel & q & s2 & Hq & Hp & _ & ->)%processes_inv; [|done].
  destruct (handle_list_exn w fuel _ e _ _ _ (deq_wf _ _ _ Hw) Hp) as (L & K & l & b & h & a & Hl & Hf & Hh & Hb). split_and!; [done|done|].
  exists l, (map h_id b), (h_id h), (map h_id a). split_and!.
  - rewrite /observed. change (hist (s2 <| evt := _ |>)) with (hist s2). by rewrite Hl /deq /hist /= -app_assoc.
  - rewrite Hh !map_app map_map. done.
  - rewrite /receivers. change (handlers (cx s)) with (handlers (cx (deq s e q))). by rewrite Hf map_app.
  - destruct Hb as [->| ->]; [exists (map h_id b)|exists (map h_id (b ++ [h]))]; (split; [rewrite ?map_app; auto|]); by rewrite map_map.
Qed.

(** *** C06: the leak is permanent *)
Lemma step_keeps_local w l s s' k : wfu s -> step w l s = Some s' ->
  is_Some (locals (cx s) !! k) -> is_Some (locals (cx s') !! k).
Proof.
  intros Hw Hst Hl. destruct (step_cases w l s s' Hw Hst) as [[H _]|[(i & f & e & -> & _ & _ & _ & ->)|(fuel & e & q & s2 & r & -> & _ & _ & Hq & Hp & Hr & ->)]].
  - by apply (tf_ldom _ _ _ _ H).
  - done.
  - simpl. destruct r as [[]|x|]; [| |done].
    + destruct (handle_list_ok w fuel _ e _ _ (deq_wf _ _ _ Hw) Hp) as (L & _). by rewrite L.
    + destruct (handle_list_exn w fuel _ e _ _ _ (deq_wf _ _ _ Hw) Hp) as (_ & K & _). apply K. by right.
Qed.
Lemma leak_stays w s ls s' k : reachable w s -> steps w s ls s' ->
  is_Some (locals (cx s) !! k) -> is_Some (locals (cx s') !! k).
Proof.
  intros Hr%reachable_wfu Hs. induction Hs; [done|]. intros Hk. apply IHHs; [by eapply step_wfu|by eapply step_keeps_local].
Qed.

(** *** C10: one event at a time *)
Notation in_blocks := one_event_at_a_time.
Lemma in_blocks_app l m : in_blocks l ->
  (forall l1 h e l2, m = l1 ++ OHandle h e :: l2 -> last (processed (l ++ l1)) = Some e) -> in_blocks (l ++ m).
Proof.
  intros Hl Hm l1 h e l2 E. apply app_eq_inv in E as [(k & -> & E)|(k & -> & E)].
  - destruct k as [|o k]; simplify_eq/=.
    + specialize (Hm [] h e l2 eq_refl). by rewrite !app_nil_r in Hm.
    + by eapply (Hl l1 h e k).
  - by eapply Hm.
Qed.
Lemma one_at_a_time w s : reachable w s -> in_blocks (hist s).
Proof.
  intros H. enough (wfu s /\ in_blocks (hist s)) by tauto. revert s H.
  apply reachable_inv; [intros; split; [apply init_wfu|by intros [] ]|]. intros l s s' [Hw IH] Hst. split; [by eapply step_wfu|].
  destruct (step_cases w l s s' Hw Hst) as [[H _]|[(i & f & e & -> & _ & _ & _ & ->)|(fuel & e & q & s2 & r & -> & _ & _ & Hq & Hp & Hr & ->)]].
  - destruct (tf_log _ _ _ _ H) as (lo & -> & HF & _). apply in_blocks_app; [done|]. intros l1 h e l2 ->.
    apply Forall_app in HF as [_ HF]. apply Forall_cons in HF as [HF _]. done.
  - rewrite /emit hist_obs1. apply in_blocks_app; [done|]. intros [|? []]; by intros.
  - change (hist (s2 <| evt := ETDone r |>)) with (hist s2).
    assert (exists lo, hist s2 = hist s ++ OProcess e :: lo /\ processed lo = [] /\ forall i e', In (i, e') (handled lo) -> e' = e) as (lo & -> & Hpr & Hha).
    { pose proof (H_process_event w fuel e _ _ _ Hp) as HF. specialize (HF (proj1 Hw)).
      destruct (hf_log _ _ _ HF) as (lo & HL & HQ & _). exists lo. split_and!.
      - by rewrite HL /deq /hist /= -app_assoc.
      - clear -HQ. induction HQ as [|o lo Ho _ IH]; [done|]. change (o :: lo) with ([o] ++ lo). rewrite processed_app IH. by destruct o.
      - assert (exists lo', hist s2 = hist (deq s e q) ++ lo' /\ forall i e', In (i, e') (handled lo') -> e' = e) as (lo' & E' & HH).
        { destruct r as [[]|x|]; [| |done].
          - destruct (handle_list_ok w fuel _ e _ _ (deq_wf _ _ _ Hw) Hp) as (_ & _ & l & Hl & Hh & _). exists l. split; [done|].
            intros i e'. rewrite Hh /snapshot. intros (h & [= _ ->] & _)%in_map_iff. done.
          - destruct (handle_list_exn w fuel _ e _ _ _ (deq_wf _ _ _ Hw) Hp) as (_ & _ & l & dn & la & rs & Hl & _ & Hh & _). exists l. split; [done|].
            intros i e'. rewrite Hh. intros (h & [= _ ->] & _)%in_map_iff. done. }
        rewrite HL in E'. simplify_list_eq. done. }
    apply in_blocks_app; [done|]. intros l1 h e' l2 E. destruct l1 as [|o l1]; [done|]. simplify_eq/=.
    change (processed (hist s ++ OProcess e :: l1)) with (processed (hist s ++ [OProcess e] ++ l1)) .
    rewrite !processed_app. rewrite processed_app /= in Hpr. apply app_eq_nil in Hpr as [-> _].
    rewrite app_nil_r /= last_snoc. f_equal. symmetry. eapply (Hha h). rewrite handled_app. apply in_or_app. right. by left.
Qed.

(** ** C13 *)
Lemma regs_registrations n s : regs n s = length (registrations (User n) (hist s)).
Proof.
  rewrite /regs /hist. induction (log s) as [|o l IH]; [done|]. cbn [rev]. rewrite registrations_app app_length -IH.
  cbn [List.filter]. destruct o; simpl; try lia. case_bool_decide; simpl; lia.
Qed.
Lemma unregs_mono n s s' l : hist s' = hist s ++ l -> (unregs n s <= unregs n s')%nat.
Proof.
  rewrite /unregs /hist. intros H. apply (f_equal (@rev _)) in H. rewrite rev_app_distr !rev_involutive in H.
  rewrite H List.filter_app app_length. lia.
Qed.
Lemma hf_occ w n s s' : hframe w s s' -> (occ n s' + regs n s <= occ n s + regs n s')%nat.
Proof. intros HF. destruct (hf_log _ _ _ HF) as (l & Hl & _). pose proof (unregs_mono n _ _ _ Hl). pose proof (hf_regs _ _ _ HF n). lia. Qed.
Lemma tf_occ w q n s s' : tframe w q s s' -> (occ n s' + regs n s <= occ n s + regs n s')%nat.
Proof. intros HF. destruct (tf_log _ _ _ _ HF) as (l & Hl & _). pose proof (unregs_mono n _ _ _ Hl). pose proof (tf_regs _ _ _ _ HF n). lia. Qed.
Lemma in_registrations i h l : In h (registrations i l) <-> In (OReg h) l /\ h_id h = i.
Proof.
  induction l as [|o l IH]; [simpl; tauto|]. change (o :: l) with ([o] ++ l). rewrite registrations_app in_app_iff IH in_app_iff /=.
  destruct o; simpl; try naive_solver. case_bool_decide; simpl; naive_solver.
Qed.
Lemma occ_registered n s : (0 < occ n s)%nat <-> registered (User n) (cx s).
Proof.
  rewrite /occ /occurrences /registered. split.
  - intros H. destruct (List.filter _ _) as [|h l] eqn:E; [simpl in H; lia|]. exists h.
    assert (In h (List.filter (fun h => bool_decide (h_id h = User n)) (handlers (cx s)))) as Hi by (rewrite E; by left).
    apply filter_In in Hi as [Hi Hb]. split; [done|]. by apply bool_decide_eq_true in Hb.
  - intros (h & Hi & Hh). assert (In h (List.filter (fun h => bool_decide (h_id h = User n)) (handlers (cx s)))) as Hi'.
    { apply filter_In. split; [done|]. by apply bool_decide_eq_true. }
    destruct (List.filter _ _); [done|simpl; lia].
Qed.
Lemma remove_first_occ_some i l l' : remove_first i l = Some l' -> occurrences i l = S (occurrences i l').
Proof.
  revert l'. induction l as [|h l IH]; intros l'; [done|]. simpl. rewrite /occurrences /=. case_bool_decide.
  - by intros [= ->].
  - destruct (remove_first i l) as [r|]; [|done]. intros [= <-]. simpl. rewrite bool_decide_false //. by apply IH.
Qed.
Lemma remove_first_occ_none i l : remove_first i l = None -> occurrences i l = 0%nat.
Proof.
  induction l as [|h l IH]; [done|]. simpl. rewrite /occurrences /=. case_bool_decide; [done|].
  destruct (remove_first i l) as [r|]; [done|]. intros _. by apply IH.
Qed.
Definition hn (n : nat) (s : st) : nat := times_handled (User n) (hist s).
Lemma times_quiet i l : Forall (fun o => quiet o = true) l -> times_handled i l = 0%nat.
Proof. intros H. by rewrite /times_handled (quiet_handled _ H). Qed.
Lemma handle_one_once w fuel h e s s' r n : wf s -> handle_one w fuel h e s = (s', r) ->
  (h_id h = User n -> h_once h = true) ->
  if bool_decide (h_id h = User n)
  then hn n s' = S (hn n s) /\ (occ n s' + regs n s <= occ n s - 1 + regs n s')%nat
  else hn n s' = hn n s /\ (occ n s' + regs n s <= occ n s + regs n s')%nat.
Proof.
  intros Hw E Ho.
  assert (hn n s' = (hn n s + if bool_decide (h_id h = User n) then 1 else 0)%nat) as Hn.
  { rewrite handle_one_inside in E. destruct (inside _ _ _ _ _) as [s1 r1] eqn:E1.
    destruct (inside_log _ _ _ _ _ _ _ (entered_wf h e s Hw) E1) as (_ & _ & l & El & Ql & _).
    assert (hist s' = hist s1) as Hs. { destruct r1; simplify_eq; [|done..]. rewrite /on_ctx /pop_locals in E.
      destruct (locals_stack (cx s1)); by simplify_eq. }
    rewrite /hn Hs El times_handled_app entered_hist times_handled_app. rewrite {2 3}/times_handled Ql /=.
    case_bool_decide; simpl; lia. }
  case_bool_decide as Hid.
  - split; [lia|]. specialize (Ho Hid). clear Hn.
    rewrite handle_one_inside in E. destruct (inside w fuel h e (entered h e s)) as [s3 r3] eqn:E3.
    rewrite inside_after /unreg_once Ho in E3.
    set (s1 := with_event e (entered h e s)) in *.
    assert (occ n s1 = occ n s) as Ho1 by done. assert (regs n s1 = regs n s) as Hr1 by done.
    assert (occ n s3 + regs n s <= occ n s - 1 + regs n s3)%nat as HQ.
    { rewrite /unregister /on_ctx /unregister_event_handler in E3.
      destruct (remove_first (h_id h) (handlers (cx s1))) as [l|] eqn:El.
      - apply remove_first_occ_some in El. simpl in E3. set (s2 := begin_body h _) in E3.
        destruct (B_after_body w fuel h e _ _ _ E3) as (HF & _); [done|].
        pose proof (hf_occ _ n _ _ HF) as HR.
        assert (occ n s1 = S (occ n s2)) as Ho2. { rewrite /occ -Hid El. done. } assert (regs n s2 = regs n s1) as Hr2 by done.
        clearbody s1 s2. lia.
      - apply remove_first_occ_none in El. rewrite Hid in El. assert (occ n s1 = 0%nat) as El' by exact El.
        assert (occ n s3 = occ n s1 /\ regs n s3 = regs n s1) as [-> ->] by (by injection E3 as <- _).
        clearbody s1. lia. }
    destruct r3 as [u|x|]; [|by simplify_eq..].
    rewrite /on_ctx /pop_locals in E. destruct (locals_stack (cx s3)); simplify_eq; exact HQ.
  - split; [lia|]. pose proof (H_handle_one w fuel h e _ _ _ E Hw) as HF. exact (hf_occ _ n _ _ HF).
Qed.
Definition snap_occ (w : world) (e : event) (n : nat) (hs : list handler) : nat :=
  occurrences (User n) (List.filter (fun h => matches w h e) hs).
Lemma snap_occ_cons w e n h hs : snap_occ w e n (h :: hs) =
  ((if matches w h e && bool_decide (h_id h = User n) then 1 else 0) + snap_occ w e n hs)%nat.
Proof. rewrite /snap_occ /occurrences /=. destruct (matches w h e); [|done]. simpl. case_bool_decide; done. Qed.
Lemma snap_occ_le w e n hs : (snap_occ w e n hs <= occurrences (User n) hs)%nat.
Proof. induction hs as [|h hs IH]; [done|]. rewrite snap_occ_cons. rewrite /occurrences /= in IH |- *. destruct (matches w h e); case_bool_decide; simpl; lia. Qed.
Lemma handle_list_once w fuel hs e s s' r n : wf s -> handle_list w fuel hs e s = (s', r) ->
  (forall h, In h hs -> h_id h = User n -> h_once h = true) ->
  (hn n s + occ n s <= regs n s)%nat -> (hn n s + snap_occ w e n hs <= regs n s)%nat ->
  (hn n s' + occ n s' <= regs n s')%nat.
Proof.
  revert s. induction hs as [|h hs IH]; intros s Hw; cbn [handle_list].
  { by intros [= <- _]. }
  intros E Ho H1 H2. rewrite snap_occ_cons in H2.
  assert (forall s1 r1, (if matches w h e then handle_one w fuel h e else retS tt) s = (s1, r1) ->
    wf s1 /\ (hn n s1 + occ n s1 <= regs n s1)%nat /\ (hn n s1 + snap_occ w e n hs <= regs n s1)%nat) as HI.
  { intros s1 r1. destruct (matches w h e) eqn:Em; simpl in H2; [|by intros [= <- _]].
    intros E1. pose proof (handle_one_once w fuel h e s s1 r1 n Hw E1) as HO.
    pose proof (H_handle_one w fuel h e _ _ _ E1 Hw) as HF.
    assert (regs n s <= regs n s1)%nat as HR.
    { destruct (hf_log _ _ _ HF) as (l & Hl & _). rewrite !regs_registrations Hl registrations_app app_length. lia. }
    split; [by eapply wf_hframe|]. case_bool_decide as Hid; (destruct HO as [? ?]; [intros; by apply Ho; [left|]|]); lia. }
  apply bindS_inv in E as [(s1 & u & E1 & E2)|[(x & E1 & ->)|[E1 ->]]].
  - destruct (HI _ _ E1) as (Hw1 & A & B). apply (IH s1 Hw1 E2); [|done..]. intros h' Hh'. apply Ho. by right.
  - by destruct (HI _ _ E1) as (Hw1 & A & B).
  - by destruct (HI _ _ E1) as (Hw1 & A & B).
Qed.
Definition sourced (s : st) : Prop := forall h, In h (handlers (cx s)) -> In (OReg h) (log s) \/ internal h.
Definition onces (n : nat) (s : st) : Prop := forall h, In (OReg h) (log s) -> h_id h = User n -> h_once h = true.
Lemma sourced_hsrc s s' : sourced s -> hsrc s s' -> sourced s'.
Proof. intros Hs [HL HH] h Hh. destruct (HH _ Hh) as [H|[H|H]]; auto. destruct (Hs _ H); auto. Qed.
Lemma once_step w l s s' : wfu s -> sourced s -> (forall n, onces n s -> hn n s + occ n s <= regs n s)%nat -> step w l s = Some s' ->
  sourced s' /\ (forall n, onces n s' -> hn n s' + occ n s' <= regs n s')%nat.
Proof.
  intros Hw Hs IH Hst. destruct (step_cases w l s s' Hw Hst) as [[H _]|[(i & f & e & -> & _ & _ & _ & ->)|(fuel & e & q & s2 & r & -> & _ & _ & Hq & Hp & Hr & ->)]].
  - split; [by eapply sourced_hsrc, H|]. intros n Hn. destruct (tf_log _ _ _ _ H) as (lo & Hl & HF & _).
    assert (hn n s' = hn n s) as ->.
    { rewrite /hn Hl times_handled_app. assert (handled lo = []) as Hh.
      { clear -HF. induction HF as [|o lo Ho _ IH]; [done|]. change (o :: lo) with ([o] ++ lo). rewrite handled_app IH. by destruct o. }
      rewrite {2}/times_handled Hh /=. lia. }
    pose proof (tf_occ _ _ n _ _ H). assert (onces n s) as Hn'. { intros h Hh. apply Hn. by apply (tf_hsrc _ _ _ _ H). }
    specialize (IH n Hn'). lia.
  - split; [intros h Hh; destruct (Hs h Hh); [left; by right|by right]|]. intros n Hn.
    assert (hn n (emit e (s <| cbs ::= del_nth i |>)) = hn n s) as ->. { rewrite /hn /emit hist_obs1 times_handled_app. rewrite {2}/times_handled /=. change (hist (set cx _ _)) with (hist s). lia. }
    apply (IH n). intros h Hh. apply Hn. by right.
  - pose proof (H_process_event w fuel e _ _ _ Hp (deq_wf _ _ _ Hw)) as HF.
    assert (sourced (deq s e q)) as Hs1. { intros h Hh. destruct (Hs h Hh); [left; by right|by right]. }
    split; [exact (sourced_hsrc _ _ Hs1 (hf_hsrc _ _ _ HF))|]. intros n Hn.
    change (hn n (s2 <| evt := ETDone r |>)) with (hn n s2). change (occ n (s2 <| evt := ETDone r |>)) with (occ n s2).
    change (regs n (s2 <| evt := ETDone r |>)) with (regs n s2). 
    assert (onces n (deq s e q)) as Hn1. { intros h Hh. apply Hn. by apply (hf_hsrc _ _ _ HF). }
    assert (hn n (deq s e q) + occ n (deq s e q) <= regs n (deq s e q))%nat as H0.
    { assert (hn n (deq s e q) = hn n s) as ->. { rewrite /hn /deq hist_obs1 times_handled_app. rewrite {2}/times_handled /=. change (hist (set cx _ _)) with (hist s). lia. }
      apply (IH n). intros h Hh. apply Hn1. by right. }
    eapply (handle_list_once w fuel _ e _ _ _ n (deq_wf _ _ _ Hw) Hp); [|done|].
    + intros h Hh Hid. destruct (Hs1 h Hh) as [Hx|[m Hx]]; [by apply (Hn1 h)|congruence].
    + pose proof (snap_occ_le w e n (handlers (cx (deq s e q)))). rewrite /occ in H0. lia.
Qed.
Lemma once_inv w s : reachable w s -> sourced s /\ forall n, onces n s -> (hn n s + occ n s <= regs n s)%nat.
Proof.
  intros H. enough (wfu s /\ sourced s /\ forall n, onces n s -> (hn n s + occ n s <= regs n s)%nat) by tauto. revert s H.
  apply reachable_inv.
  - intros n e. split_and!; [apply init_wfu| |done].
    intros h [<-|[<-|[]]]; right; by eexists.
  - intros l s s' (Hw & Hs & IH) Hst. split; [by eapply step_wfu|]. by eapply once_step.
Qed.
Lemma onces_registrations n s : Forall (fun h => h_once h = true) (registrations (User n) (hist s)) -> onces n s.
Proof.
  intros HF h Hh Hid. rewrite ->List.Forall_forall in HF. apply HF. apply in_registrations. split; [|done].
  by apply -> in_rev.
Qed.
Lemma C13_most w n s : reachable w s ->
  Forall (fun h => h_once h = true) (registrations (User n) (hist s)) ->
  (times_handled (User n) (hist s) <= length (registrations (User n) (hist s)))%nat.
Proof.
  intros Hr HF. destruct (once_inv w s Hr) as [_ HI]. specialize (HI n (onces_registrations _ _ HF)).
  rewrite -regs_registrations. rewrite /hn in HI. lia.
Qed.
Lemma reachable_step w l s s' : reachable w s -> step w l s = Some s' -> reachable w s'.
Proof.
  intros (n & e & ls & Hs) Hst. exists n, e, (ls ++ [l]). induction Hs as [|s1 l1 s2 ls s3 H1 _ IH]; simpl.
  - econstructor; [exact Hst|constructor].
  - econstructor; [exact H1|]. by apply IH.
Qed.
Lemma times_handled_pos i e l : In (i, e) (handled l) -> (0 < times_handled i l)%nat.
Proof.
  intros H. rewrite /times_handled. assert (In (i, e) (List.filter (fun he => bool_decide (he.1 = i)) (handled l))) as Hi.
  { apply filter_In. split; [done|]. by apply bool_decide_eq_true. }
  destruct (List.filter _ _); [done|simpl; lia].
Qed.
Lemma C13_first w n h s e s' : reachable w s -> h_id h = User n -> h_once h = true ->
  registered (User n) (cx s) -> registrations (User n) (hist s') = [h] -> matches w h e = true ->
  processes w s e (Ok tt) s' ->
  times_handled (User n) (hist s) = 0%nat /\ times_handled (User n) (hist s') = 1%nat /\ ~ registered (User n) (cx s').
Proof.
  intros Hr Hid Ho Hreg Hregs Hm Hp. pose proof (reachable_wfu _ _ Hr) as Hw.
  destruct (processes_ok _ _ _ _ Hw Hp) as (_ & _ & l & Hl & Hh & _).
  assert (reachable w s') as Hr'. { destruct Hp as (fuel & Hst & _). by eapply reachable_step. }
  assert (onces n s') as Hn'. { apply onces_registrations. rewrite Hregs. by constructor. }
  assert (onces n s) as Hn. { intros h' Hh'. apply Hn'. rewrite /observed /hist in Hl.
    apply in_rev. rewrite Hl. apply in_or_app. left. by apply -> in_rev. }
  destruct (once_inv w s Hr) as [Hsrc HI]. specialize (HI n Hn). destruct (once_inv w s' Hr') as [_ HI']. specialize (HI' n Hn').
  rewrite (regs_registrations n s') Hregs /= in HI'.
  assert (regs n s <= 1)%nat as Hle.
  { rewrite regs_registrations. rewrite Hl registrations_app in Hregs. apply (f_equal length) in Hregs. rewrite app_length /= in Hregs. lia. }
  pose proof (proj2 (occ_registered n s) Hreg) as Hocc. rewrite /hn in HI, HI'.
  assert (0 < times_handled (User n) l)%nat as Hpos.
  { destruct Hreg as (h' & Hin & Hid'). eapply (times_handled_pos _ e). rewrite Hh. apply in_map_iff. exists (User n). split; [done|].
    rewrite /receivers. apply in_map_iff. exists h'. split; [done|]. apply filter_In. split; [done|].
    assert (h' = h) as ->; [|done]. destruct (Hsrc _ Hin) as [Hx|[m Hx]]; [|congruence].
    assert (In h' (registrations (User n) (hist s'))) as Hy. { apply in_registrations. split; [|done]. rewrite Hl. apply in_or_app. left. by apply -> in_rev. }
    rewrite Hregs in Hy. by destruct Hy as [->|[]]. }
  rewrite Hl in HI' |- *. change (OProcess e :: l) with ([OProcess e] ++ l) in HI' |- *. rewrite !times_handled_app in HI' |- *. rewrite {2}/times_handled /= in HI' |- *.
  split_and!; [lia|lia|]. rewrite -occ_registered. lia.
Qed.

(** ** C12 *)
Lemma handlers_accounted w s : reachable w s -> forall n, (occ n s + unregs n s = regs n s)%nat.
Proof.
  intros H. enough (wfu s /\ forall n, (occ n s + unregs n s = regs n s)%nat) by tauto. revert s H.
  apply reachable_inv; [intros; split; [apply init_wfu|done]|]. intros l s s' [Hw IH] Hst. split; [by eapply step_wfu|].
  intros n. specialize (IH n).
  destruct (step_cases w l s s' Hw Hst) as [[H _]|[(i & f & e & -> & _ & _ & _ & ->)|(fuel & e & q & s2 & r & -> & _ & _ & Hq & Hp & Hr & ->)]].
  - pose proof (tf_regs _ _ _ _ H n). lia.
  - exact IH.
  - pose proof (hf_regs _ _ _ (H_process_event w fuel e _ _ _ Hp (deq_wf _ _ _ Hw)) n) as HR.
    change (occ n s2 + unregs n s2 + regs n s = occ n s + unregs n s + regs n s2)%nat in HR.
    change (occ n s2 + unregs n s2 = regs n s2)%nat. lia.
Qed.
Lemma C12_new w s e r s' i : reachable w s -> processes w s e r s' -> ~ registered i (cx s) ->
  exists l, observed s (OProcess e :: l) s' /\ times_handled i l = 0%nat.
Proof.
  intros Hr%reachable_wfu Hp Hn.
  assert (exists l, observed s (OProcess e :: l) s' /\ forall j, In j (handled l) -> In j.1 (receivers w e (cx s))) as (l & Hl & Hj).
  { destruct r as [[]|x|].
    - destruct (processes_ok _ _ _ _ Hr Hp) as (_ & _ & l & Hl & Hh & _). exists l. split; [done|]. rewrite Hh. by intros j (k & <- & Hk)%in_map_iff.
    - destruct (processes_exn _ _ _ _ _ Hr Hp) as (_ & _ & l & b & k & a & Hl & Hh & -> & _). exists l. split; [done|]. rewrite Hh.
      intros j (k' & <- & Hk)%in_map_iff. simpl. apply in_app_or in Hk as [?|[->|[]]]; apply in_or_app; [by left|right; by left].
    - apply processes_inv in Hp as (?&?&?&?&?&?&?); done. }
  exists l. split; [done|]. rewrite /times_handled. destruct (List.filter _ _) as [|[j e'] m] eqn:E; [done|]. exfalso.
  assert (In (j, e') (List.filter (fun he => bool_decide (he.1 = i)) (handled l))) as Hi by (rewrite E; by left).
  apply filter_In in Hi as [Hi Hb%bool_decide_eq_true]. simpl in Hb. subst j. apply Hj in Hi. simpl in Hi.
  rewrite /receivers in Hi. apply in_map_iff in Hi as (h & Hh & Hf%filter_In). apply Hn. exists h. by destruct Hf.
Qed.
Lemma C12_old w s e s' h : reachable w s -> processes w s e (Ok tt) s' -> In h (handlers (cx s)) -> matches w h e = true ->
  exists l, observed s (OProcess e :: l) s' /\ In (h_id h, e) (handled l).
Proof.
  intros Hr%reachable_wfu Hp Hi Hm. destruct (processes_ok _ _ _ _ Hr Hp) as (_ & _ & l & Hl & Hh & _). exists l. split; [done|].
  rewrite Hh. apply in_map_iff. exists (h_id h). split; [done|]. apply in_map_iff. exists h. split; [done|]. by apply filter_In.
Qed.

(** ** C15 *)
Lemma C15_target w i c t o b e :
  matches w (MkH i (MAct c t) o b) e = true <-> exists a, is_event_of c a e /\ is_target w t a.
Proof.
  rewrite /matches /=. split.
  - destruct (ev_class e) as [[c' a]|] eqn:E; [|done]. intros [Hc Ht]%andb_true_iff. exists a. split.
    + destruct e; simplify_eq/=; destruct c; try done; naive_solver.
    + destruct t; simpl in *; [done|by apply bool_decide_eq_true in Ht|done].
  - intros (a & He & Ht). assert (ev_class e = Some (c, a)) as ->. { destruct c; simpl in He; naive_solver. }
    destruct t; simpl in *; subst; rewrite ?bool_decide_true ?Ht; by destruct c.
Qed.

(** ** C09 *)
Lemma C09_pending w l s s' : wfu s -> step w l s = Some s' -> (forall i, l <> LCallback i) -> exists new, cbs s' = cbs s ++ new.
Proof.
  intros Hw Hst Hl. destruct (step_cases w l s s' Hw Hst) as [[H _]|[(i & f & e & -> & _)|(fuel & e & q & s2 & r & -> & _ & _ & Hq & Hp & Hr & ->)]].
  - apply H.
  - by destruct (Hl i).
  - apply (hf_cbs _ _ _ (H_process_event w fuel e _ _ _ Hp (deq_wf _ _ _ Hw))).
Qed.
Lemma C09_callback w i s s' : step w (LCallback i) s = Some s' <->
  in_loop s = true /\ exists f e, cbs s !! i = Some (f, e) /\ f_is_done f s = true /\
    s' = emit e (s <| cbs := take i (cbs s) ++ drop (S i) (cbs s) |>).
Proof.
  assert (forall {A} (l : list A), del_nth i l = take i l ++ drop (S i) l) as HD.
  { intros A. induction i as [|j IH]; intros [|x l]; simpl; try done. by rewrite IH. }
  cbn [step]. rewrite /loop_step. destruct (in_loop s); [|naive_solver]. destruct (cbs s !! i) as [[f e]|] eqn:E; [|naive_solver].
  destruct (f_is_done f s) eqn:Ed.
  - split.
    + intros [= <-]. split; [done|]. exists f, e. split_and!; [done|done|]. by rewrite -HD.
    + intros (_ & f' & e' & [= <- <-] & _ & ->). by rewrite -HD.
  - split; [done|]. intros (_ & f' & e' & [= <- <-] & H & _). congruence.
Qed.
Lemma C12_accounted w s n : reachable w s ->
  (occurrences (User n) (handlers (cx s)) + unregistrations (User n) (hist s) = length (registrations (User n) (hist s)))%nat.
Proof.
  intros Hr. rewrite -regs_registrations -(handlers_accounted w s Hr n) /occ. f_equal. rewrite /unregistrations /unregs /hist.
  induction (log s) as [|o l IH]; [done|]. cbn [rev]. rewrite List.filter_app app_length IH. cbn [List.filter].
  destruct o; simpl; try lia. case_bool_decide; simpl; lia.
Qed.
Lemma stands_for_iff w h e : matches w h e = true <-> stands_for w (h_match h) e.
Proof.
  destruct h as [i m o b]. destruct m; try (cbn; destruct e; naive_solver). apply (C15_target w i c t o b e).
Qed.
Lemma C15_io w fo fe fi e s : run_body w (HIO fo fe fi) e s =
  match stream_callback fo fe fi e with Some f => call_user w f s | None => (s, Ok []) end.
Proof. destruct e as [| | | | | |? ? [] ?| | | |]; simpl; try done; by destruct fo + destruct fe + destruct fi. Qed.

(** ** Running a list of labels *)
Lemma exec_steps w ls s s' : exec w ls s = Some s' -> steps w s ls s'.
Proof.
  revert s. induction ls as [|l ls IH]; intros s; simpl; [intros [= <-]; constructor|].
  destruct (step w l s) as [s1|] eqn:E; [|done]. intros H. by econstructor; [|apply IH].
Qed.
Lemma exec_reachable w ls n e s : exec w ls (init n e) = Some s -> reachable w s.
Proof. intros H. exists n, e, ls. by apply exec_steps. Qed.
Lemma env_reset_inv w n e ls s : steps w (init n e) ls s -> env_reset (cx s) = e.
Proof.
  intros H. enough (forall s0, wfu s0 -> steps w s0 ls s -> env_reset (cx s) = env_reset (cx s0)) as HE by (rewrite (HE _ (init_wfu n e) H) //).
  clear. intros s0 Hw H. induction H as [|s l s1 ls s2 Hst _ IH]; [done|].
  rewrite (IH (step_wfu _ _ _ _ Hw Hst)).
  destruct (step_cases w l s s1 Hw Hst) as [[H _]|[(i & f & e & -> & _ & _ & _ & ->)|(fuel & e & q & s3 & r & -> & _ & _ & Hq & Hp & Hr & ->)]].
  - apply H.
  - done.
  - destruct (hf_svc _ _ _ (H_process_event w fuel e _ _ _ Hp (deq_wf _ _ _ Hw))) as (?&?&?&?&?&?&?&?&?&?&?&HE). exact HE.
Qed.

(** ** The statements of PropsEvents.v *)
Lemma C05_isolated w s s' e : reachable w s -> processes w s e (Ok tt) s' ->
  (exists l, observed s (OProcess e :: l) s' /\
     bodies l = map (fun i => (i, <["event" := LEv e]> (locals (cx s)), Ok (LEv e))) (receivers w e (cx s))) /\
  locals (cx s') = locals (cx s) /\ locals_stack (cx s') = locals_stack (cx s).
Proof. intros Hr%reachable_wfu Hp. destruct (processes_ok _ _ _ _ Hr Hp) as (A & B & l & C & D & E). split; [by exists l|done]. Qed.
Lemma C06_leak w s s' e x : reachable w s -> processes w s e (Exn x) s' ->
  locals_stack (cx s') = locals (cx s) :: locals_stack (cx s) /\
  (forall k, k = "event" \/ is_Some (locals (cx s) !! k) -> is_Some (locals (cx s') !! k)).
Proof. intros Hr%reachable_wfu Hp. destruct (processes_exn _ _ _ _ _ Hr Hp) as (A & B & _). done. Qed.
Lemma C09_kept w l s s' : reachable w s -> step w l s = Some s' -> (forall i, l <> LCallback i) -> exists new, cbs s' = cbs s ++ new.
Proof. intros Hr%reachable_wfu. by apply C09_pending. Qed.
Lemma C11_ok w s s' e : reachable w s -> processes w s e (Ok tt) s' ->
  exists l, observed s (OProcess e :: l) s' /\ handled l = map (fun i => (i, e)) (receivers w e (cx s)).
Proof. intros Hr%reachable_wfu Hp. destruct (processes_ok _ _ _ _ Hr Hp) as (A & B & l & C & D & E). by exists l. Qed.
Lemma C11_exn w s s' e x : reachable w s -> processes w s e (Exn x) s' ->
  exists l before i after, observed s (OProcess e :: l) s' /\
    receivers w e (cx s) = before ++ i :: after /\ handled l = map (fun i => (i, e)) (before ++ [i]).
Proof. intros Hr%reachable_wfu Hp. destruct (processes_exn _ _ _ _ _ Hr Hp) as (A & B & l & b & i & a & C & D & E & _). by exists l, b, i, a. Qed.
