(** OpaqueCoroutine (C95). *)
From Coq Require Import ssreflect.
From Verif Require Import SpecCoro SubstFacts SpecEvents ExecFacts VisitFacts HandleFacts StepFacts EventFacts MicroSteps OwnFacts ProcFacts LifeFacts EscalateFacts ProgressFacts ServiceFacts TimerLaws AliveFacts AliveLaws.

Section coro.
Context (w : world).
Notation R := (rtc (micro w)).
Lemma coro_back s s' a f : R s s' -> (f < next s)%nat -> coros s' !! a = Some f -> coros s !! a = Some f.
Proof.
  induction 1 as [|s s1 s2 H1 _ IH]; [done|]. intros Hlt H. pose proof (lent_micro w s s1 H1) as HL.
  assert (coros s1 !! a = Some f) as H2. { apply IH; [|done]. pose proof (le_next _ _ HL). lia. }
  destruct (le_coros _ _ HL _ _ H2) as [?|[_ ?]]; [done|lia].
Qed.
Lemma coro_lt s a f : reachable w s -> coros s !! a = Some f -> (f < next s)%nat.
Proof.
  intros Hr H. pose proof (jinv_reachable w s Hr) as HJ. pose proof (ji_coros _ HJ _ _ H) as Hf.
  destruct (reachable_wfu w s Hr) as [_ HF]. rewrite Forall_forall in HF. destruct (HF f) as [x Hx]; [by apply elem_of_list_In|].
  destruct (decide (next s <= f)%nat) as [Hle|]; [|lia]. by rewrite (ow_wf _ (ji_own _ HJ) _ Hle) in Hx.
Qed.
Lemma coro_handler fuel a h e s s' : cancels_on_shutdown a h -> handle_one w fuel h e s = (s', Ok tt) ->
  coros s' = coros s /\ futs s' = futs s /\ exists l, log s' = l ++ log s /\
    cancel_requests (rev l) = match coros s !! a with Some f => if f_is_done f s then [] else [f] | None => [] end.
Proof.
  intros [i ->]. rewrite /handle_one /handle /base_handle /bindS /modS /=.
  destruct (coros s !! a) as [f|] eqn:Ef.
  - change (f_is_done f _) with (f_is_done f s). destruct (f_is_done f s).
    all: rewrite /on_ctx /pop_locals /=; intros [= <-]; split_and!; try done; first [by eexists [_; _]|by eexists [_; _; _]].
  - rewrite /on_ctx /pop_locals /=; intros [= <-]; split_and!; try done; by eexists [_; _].
Qed.
Lemma handler_law fuel a h e s s' : cancels_on_shutdown a h -> handle_one w fuel h e s = (s', Ok tt) ->
  coros s' = coros s /\ futs s' = futs s /\ exists l, hist s' = hist s ++ l /\
    (forall f, cancel_requests l = [f] <-> coroutine_of a s f /\ f_is_done f s = false) /\ (length (cancel_requests l) <= 1)%nat.
Proof.
  intros Hh H. destruct (coro_handler fuel a h e s s' Hh H) as (H1 & H2 & l & El & Hl). split_and!; [done..|]. exists (rev l).
  split. { by rewrite /hist El rev_app_distr. } rewrite Hl /coroutine_of. destruct (coros s !! a) as [f|]; [|split; [|simpl; lia]; intros g; split; [done|by intros [? _]]].
  destruct (f_is_done f s) eqn:Ed; (split; [|simpl; lia]); intros g; split; try done.
  - intros [[= <-] ?]. congruence.
  - by intros [= <-].
  - by intros [[= <-] _].
Qed.
Lemma receives_le_list fuel hs e s s' h : wf s -> handle_list w fuel hs e s = (s', Ok tt) -> In h hs -> matches w h e = true ->
  exists s1 s2, R s s1 /\ handle_one w fuel h e s1 = (s2, Ok tt) /\ R s2 s' /\ futs_le s1 s'.
Proof.
  revert s. induction hs as [|x hs IH]; intros s Hw; [done|]. intros H. pose proof (H_handle_list w fuel (x :: hs) e _ _ _ H Hw) as HF.
  revert H. cbn [handle_list].
  intros [(s1 & [] & E1 & E2)|[(y & _ & ?)|[_ ?]]]%bindS_inv; [|done..]. intros [->|Hin] Hm.
  - rewrite Hm in E1. exists s, s1. split_and!; [done|done| |apply HF]. clear -E2. revert s1 E2. induction hs as [|y hs IH]; intros s1; cbn [handle_list].
    + by intros [= <-].
    + intros [(s2 & [] & E1 & E2)|[(z & _ & ?)|[_ ?]]]%bindS_inv; [|done..]. etrans; [|by eapply IH].
      destruct (matches w y e); [by eapply R_handle_one|]. by injection E1 as ->.
  - assert (R s s1 /\ wf s1) as [R1 W1].
    { destruct (matches w x e); [|by injection E1 as ->]. split; [by eapply R_handle_one|]. eapply wf_hframe; [exact Hw|]. by eapply H_handle_one. }
    destruct (IH s1 W1 E2 Hin Hm) as (s2 & s3 & H1 & H2 & H3 & H4). exists s2, s3. split_and!; [|done..]. by etrans.
Qed.
Lemma receives_le s e s' h : reachable w s -> processes w s e (Ok tt) s' -> In h (handlers (cx s)) -> matches w h e = true ->
  exists fuel s1 s2, R s s1 /\ handle_one w fuel h e s1 = (s2, Ok tt) /\ R s2 s' /\ futs_le s1 s'.
Proof.
  intros Hr%reachable_wfu Hp Hi Hm. destruct (processes_inv _ _ _ _ _ Hr Hp) as (fuel & q & s2 & Hq & E & _ & ->).
  destruct (receives_le_list fuel _ e _ _ h (deq_wf _ _ _ Hr) E Hi Hm) as (s1 & s3 & H1 & H2 & H3 & H4). exists fuel, s1, s3. split_and!; [|done| |exact H4].
  - etrans; [|exact H1]. rewrite /deq. etrans; [by apply (Rcx w s (cx s <| queue := q |>))|by apply Robs].
  - etrans; [exact H3|]. apply (Ru w). utf.
Qed.
Lemma in_cancel_requests f l : In f (cancel_requests l) -> In (OCancel f) l.
Proof. rewrite -!elem_of_list_In /cancel_requests elem_of_list_omap. intros (o & Ho & E). destruct o; try done. by injection E as <-. Qed.
Lemma shutdown_cancels a h r g f s s' : reachable w s -> cancels_on_shutdown a h -> still_registered h s ->
  processes w s (EvShutdown r g) (Ok tt) s' -> coroutine_of a s f -> coroutine_of a s' f -> f_is_done f s' = false ->
  exists l, hist s' = hist s ++ l /\ In (OCancel f) l.
Proof.
  intros Hr Hh Hreg Hp Hf Hf' Hd. pose proof (okst_reachable w s Hr) as HO.
  destruct (receives_le _ _ _ h Hr Hp (still_in w _ _ Hr Hreg)) as (fuel & s1 & s2 & H1 & H2 & H3 & H4); [by destruct Hh as [i ->]|].
  assert (okst s1) as O1 by (by eapply (okst_rtc w)). assert (R s1 s2) as R12 by (by eapply R_handle_one). assert (okst s2) as O2 by (by eapply (okst_rtc w)).
  pose proof (coro_lt s a f Hr Hf) as Hlt.
  assert (forall s1 s2, R s1 s2 -> (next s1 <= next s2)%nat) as HN. { induction 1 as [|x y z E _ IH]; [done|]. pose proof (le_next _ _ (lent_micro w _ _ E)). lia. }
  assert (coros s1 !! a = Some f) as Hf1. { apply (coro_back s1 s'); [by etrans| |done]. pose proof (HN _ _ H1). lia. }
  destruct (coro_handler fuel a h _ s1 s2 Hh H2) as (_ & _ & l & El & Hl). rewrite Hf1 in Hl.
  destruct (f_is_done f s1) eqn:Ed. { rewrite (done_le f s1 s' H4 Ed) in Hd. done. }
  destruct (log_rtc w s s1 HO H1) as [l1 L1]. destruct (log_rtc w s2 s' O2 H3) as [l2 L2].
  exists (rev (l2 ++ l ++ l1)). split. { by rewrite /hist L2 El L1 -rev_app_distr !app_assoc. }
  apply in_rev. rewrite rev_involutive. apply in_or_app. right. apply in_or_app. left. rewrite in_rev. apply in_cancel_requests. rewrite Hl. by left.
Qed.

(** ** Starting *)
Lemma starts a n fuel s s' fs : visit_all w fuel (EAct a None (ACoro n)) s = (s', Ok fs) ->
  exists f h, fs = [f] /\ f = next s /\ coroutine_of a s' f /\ f_get f s' = FPending /\ ufuts s' = f :: ufuts s /\
    (forall b, b <> a -> coros s' !! b = coros s !! b) /\
    cancels_on_shutdown a h /\ In h (handlers (cx s')) /\ In (OReg h) (hist s').
Proof.
  destruct fuel as [|fuel]; [done|]. rewrite visit_all_eq.
  intros [(s1 & subs & E1 & E2)|[(x & _ & ?)|[_ ?]]]%bindS_inv; [|done..].
  revert E1. rewrite /visit_one /exec_action /exec_coro /need_loop /bindS /retS /fresh /register_noted /modS /new_future /=.
  destruct (loop_set (cx s)); [|done]. set (s2 := obs1 (OExecDone a) _). intros [= <- <-].
  assert (coros s2 !! a = Some (next s)) as Ec by (by rewrite /= lookup_insert).
  assert (exists l, complete_action w (EAct a None (ACoro n)) a s2 = s2 <| cbs := l |>) as [l El].
  { rewrite /complete_action. destruct (would_handle_event _ _ _); [|exists (cbs s2); by destruct s2]. rewrite /get_future Ec. by eexists. }
  revert E2. rewrite El /bindS /own_future /= /retS /= lookup_insert /=. intros [= <- <-]. exists (next s), (MkH (Gen (S (next s))) MShutdown false (HCoroCancel a)).
  split_and!; try done.
  - by rewrite /f_get /= lookup_insert.
  - intros b Hb. by rewrite /= lookup_insert_ne.
  - by eexists.
  - by left.
  - rewrite /hist -in_rev /=. right. by left.
Qed.
(** ** The end of the run *)
Definition over (s : st) : Prop := rpc s = Leaving \/ rpc s = Idle \/ noticed_cancelled s.
Lemma over_step l s s' : reachable w s -> is_run l = false -> step w l s = Some s' -> over s -> over s' /\ l <> LMain.
Proof.
  intros Hr Hl H Ho. pose proof (reachable_wfu w s Hr) as Hw. pose proof (step_futs w l s s' Hw H) as HFu.
  assert (rpc s' = rpc s -> over s') as Keep.
  { intros E1. rewrite /over E1. destruct Ho as [?|[?|(ws & f & Ew & Hin & Hf)]]; [by left|right; by left|right; right].
    exists ws, f. split_and!; [congruence|done|]. rewrite (f_get_le s s' f HFu) //. by rewrite /f_is_done Hf. }
  destruct (foreign l) eqn:Hf. { split; [|by intros ->]. destruct (misc_step w l s s' Hw Hf H) as [HM _]. svfi HM. by apply Keep. }
  assert (forall r g, rpc (svc_shutdown r g s) = rpc s) as HS. { intros r g. destruct (svc_shutdown_sv r g s) as (E & _ & _ & _ & _ & ?). by svi E. }
  assert (rpc s <> AtLoop) as Hna. { destruct Ho as [->|[->|(ws & f & -> & _)]]; done. }
  split; [|intros ->; cbn [step] in H; by destruct (rpc s)].
  destruct l; try done; cbn [step] in H.
  - by destruct (rpc s).
  - destruct (rpc s) as [| |ws|] eqn:Ew; try done. apply wake_inv in H as [[_ ->]|H]; [by left|]. exfalso.
    destruct Ho as [?|[?|(ws' & f & Ew' & Hin & Hf')]]; try congruence. rewrite Ew in Ew'. injection Ew' as <-.
    assert (existsb (fun f => is_cancelled f s) ws = true) as Ht. { apply existsb_exists. exists f. by rewrite /is_cancelled Hf'. }
    destruct H as [(Ec & _)|(Ec & _)]; congruence.
  - destruct (rpc s), (sdt s); try done. injection H as <-. right. by left.
  - destruct (event_step w fuel s s' Hw H) as (r & HM & _). svi HM. by apply Keep.
  - destruct (rpc s) eqn:Ew; try done. destruct (unretrieved s); [|done]. injection H as <-. by apply Keep.
  - destruct (rpc s) eqn:Ew; try done. injection H as <-. destruct (sigint_seen s); apply Keep; [done|]. by rewrite /= HS.
  - destruct (rpc s) eqn:Ew; try done. injection H as <-. by left.
  - destruct (sdt s), (loop_thread s), (shutting_down s); try done; injection H as <-; by apply Keep.
  - destruct (sdt s); try done. injection H as <-. by apply Keep.
  - rewrite /loop_step in H. destruct (sdt s), (in_loop s); try done. injection H as <-. by apply Keep.
  - destruct (sdt s); try done. injection H as <-. by apply Keep.
  - rewrite /loop_step in H. destruct (sdt s), (in_loop s), (loop_thread s), awaited; try done; injection H as <-; apply Keep; try done; apply HS.
Qed.
Lemma no_more s ls s' : reachable w s -> noticed_cancelled s -> steps w s ls s' -> Forall (fun l => is_run l = false) ls -> ~ In LMain ls.
Proof.
  intros Hr Hn Hs. assert (over s) as Ho by (by right; right). clear Hn. induction Hs as [|s l1 s1 ls s2 H1 _ IH]; [by intros _ []|].
  intros HF. inversion HF; subst. destruct (over_step l1 s s1) as [Ho1 Hne]; try done. intros [?|Hin]; [done|]. apply IH; try done. by eapply reachable_step.
Qed.
Lemma leaves s : noticed_cancelled s -> exists s1, step w LWake s = Some s1 /\ rpc s1 = Leaving /\ hist s1 = hist s /\ rcode s1 = 1%Z /\ procs s1 = procs s /\ cx s1 = cx s.
Proof.
  intros (ws & f & Ew & Hin & Hf). cbn [step]. rewrite Ew /wake_step.
  assert (existsb (fun f => is_cancelled f s) ws = true) as ->. { apply existsb_exists. exists f. by rewrite /is_cancelled Hf. }
  assert (existsb (fun f => f_is_done f s) ws = true) as ->. { apply existsb_exists. exists f. by rewrite /f_is_done Hf. }
  rewrite orb_true_r. eexists. by split_and!.
Qed.
End coro.
