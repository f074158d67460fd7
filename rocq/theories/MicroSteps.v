(** Every step of the service is a sequence of elementary changes to the state of timers,
    processes, tasks and futures.  An invariant of that state need only be checked on the
    elementary changes. *)
From Coq Require Import ssreflect.
From Verif Require Import SubstFacts SpecEvents ExecFacts VisitFacts HandleFacts StepFacts.

(** Observations that do not concern timers, processes or their output. *)
Definition aside (o : obs) : bool :=
  match o with
  | OSpawn _ _ | OReap _ _ | OSignal _ _ | OLine _ _ _ | OChunk _ _ _ | OFlush _ _ | OLife _
  | OAsked _ | OEscalate _ _ _ _ | OTimer _ | OArmed _ _ _ | OFire _ _ => false
  | _ => true
  end.
(** A handler stays registered, or is unregistered. *)
Definition stays (s s' : st) : Prop :=
  forall h, In h (handlers (cx s)) -> In h (handlers (cx s')) \/ In (OUnreg (h_id h)) (log s').
(** Timers, processes, tasks and pipes stay as they are; futures are created, and user
    futures end. *)
Record untouched (s s' : st) : Prop := {
  ut_procs : procs s' = procs s;
  ut_timers : timers s' = timers s;
  ut_tasks : tasks s' = tasks s;
  ut_pipes : pipes s' = pipes s;
  ut_now : (now s <= now s')%Q;
  ut_next : (next s <= next s')%nat;
  ut_futs : forall f, futs s' !! f = futs s !! f \/
              (next s <= f < next s' /\ futs s' !! f = Some FPending)%nat \/
              (In f (ufuts s) /\ f_is_done f s = false /\ is_Some (futs s' !! f));
  ut_ufuts : forall f, In f (ufuts s') -> In f (ufuts s) \/ ((next s <= f < next s')%nat /\ is_Some (futs s' !! f));
  ut_more : forall f, In f (ufuts s) -> In f (ufuts s');
  ut_coros : forall a f, coros s' !! a = Some f -> coros s !! a = Some f \/ (In f (ufuts s') /\ (next s <= f)%nat);
  ut_cfuts : forall f, In f (cfuts (cx s')) -> In f (cfuts (cx s)) \/ In f (ufuts s');
  ut_log : exists l, log s' = l ++ log s /\ Forall (fun o => aside o = true) l;
  ut_pcount : (pcount s <= pcount s')%Z;
  ut_shut : is_shutdown (cx s) = true -> is_shutdown (cx s') = true;
  ut_inst : timer_installed (cx s') = timer_installed (cx s);
  ut_stay : stays s s';
  ut_reg : forall h, In (OReg h) (log s') -> In (OReg h) (log s) \/ In h (handlers (cx s')) }.
Lemma untouched_refl s : untouched s s.
Proof.
  constructor; try done; try lia; auto.
  - apply Qle_refl.
  - by exists [].
  - intros h Hh. by left.
Qed.
Definition grows (c c' : ctx) : Prop :=
  (is_shutdown c = true -> is_shutdown c' = true) /\ timer_installed c' = timer_installed c /\
  (forall f, In f (cfuts c') -> In f (cfuts c)).
Lemma untouched_cx s c : grows (cx s) c ->
  (forall h, In h (handlers (cx s)) -> In h (handlers c)) -> untouched s (s <| cx := c |>).
Proof. intros (H & Hi & Hc) H'. constructor; simpl; try done; auto; try apply Qle_refl; [by exists []|]. intros h Hh. left. by apply H'. Qed.
Lemma untouched_obs o s : aside o = true -> (forall h, o = OReg h -> In h (handlers (cx s))) -> untouched s (obs1 o s).
Proof.
  intros H H'. constructor; simpl; try done; auto; try apply Qle_refl; [exists [o]; by repeat constructor| |].
  - intros h Hh. by left.
  - intros h [->|?]; [right; by apply H'|by left].
Qed.
Lemma untouched_fields s s' :
  procs s' = procs s -> timers s' = timers s -> tasks s' = tasks s -> pipes s' = pipes s ->
  now s' = now s -> (next s <= next s')%nat -> futs s' = futs s -> ufuts s' = ufuts s ->
  coros s' = coros s -> log s' = log s -> (pcount s <= pcount s')%Z -> grows (cx s) (cx s') ->
  (forall h, In h (handlers (cx s)) -> In h (handlers (cx s'))) ->
  untouched s s'.
Proof.
  intros H1 H2 H3 H4 H5 H6 H7 H8 H14 H9 H10 (H11 & H13 & H15) H12. constructor; try done.
  - rewrite H5. apply Qle_refl.
  - intros f. left. by rewrite H7.
  - rewrite H8. auto.
  - by rewrite H8.
  - rewrite H14. auto.
  - auto.
  - exists []. by rewrite H9.
  - intros h Hh. left. by apply H12.
  - intros h. rewrite H9. by left.
Qed.
Lemma untouched_reg h s s' : s' = (obs1 (OReg h) (s <| next ::= S |> <| cx ::= register_event_handler h false |>)) -> untouched s s'.
Proof.
  intros ->. constructor; simpl; try done; auto; try apply Qle_refl; try lia.
  - exists [OReg h]. by repeat constructor.
  - intros h' Hh. left. by right.
  - intros h' [[= ->]|?]; [right; by left|by left].
Qed.
Ltac utf := apply untouched_fields; simpl; first [done|lia|by split|auto].

(** The completed, shutdown futures of a process that begins. *)
Definition proc_started (p : pobj) (fc fs : nat) (ts : list task) : pobj :=
  p <| x_executed := true |> <| x_completed := Some fc |> <| x_shutdown := Some fs |>
    <| x_begun := match ts with [] => x_begun p | _ => true end |>.
Definition timer_gen (a : aid) (s : st) : nat := match timers s !! a with Some t => t_gen t | None => O end.
Definition timer_canceled (a : aid) (s : st) : bool :=
  match timers s !! a with Some t => t_canceled t | None => false end.
Definition timer_locals (a : aid) (s : st) : dict lval :=
  match timers s !! a with Some t => t_locals t | None => ∅ end.

(** The context keeps its handlers; timers find their handler. *)
Definition keeps (c c' : ctx) : Prop :=
  (forall h, In h (handlers c) -> In h (handlers c')) /\ timer_installed c' = timer_installed c /\ cfuts c' = cfuts c.
Definition installs (c c' : ctx) : Prop :=
  (forall h, In h (handlers c) -> In h (handlers c')) /\ timer_installed c' = true /\ cfuts c' = cfuts c /\
  (timer_installed c = true \/ exists n, In (timers_handler n) (handlers c')).
Definition prepared (p : pobj) : Prop := is_Some (x_det p) /\ exists b, x_respawn p = BV b.
Inductive micro (w : world) (s : st) : st -> Prop :=
| mi_misc s' : untouched s s' -> micro w s s'
| mi_cancel a : micro w s (timer_cancel a s)
(* a timer is executed *)
| mi_timer a b p d c n : timer_canceled a s = false -> is_shutdown c = is_shutdown (cx s) ->
    (S (S (next s)) <= n)%nat -> installs (cx s) c ->
    micro w s (s <| timers := <[a := mkTobj b p d (Some (next s)) (Some (S (next s))) false (S (timer_gen a s))]> (timers s) |>
               <| futs := <[S (next s) := FPending]> (<[next s := FPending]> (futs s)) |>
               <| tasks := tasks s ++ [TTimerInit a] |> <| log := OTimer a :: log s |>
               <| next := n |> <| cx := c |>)
| mi_timer_off a b p : timer_canceled a s = true ->
    micro w s (s <| timers := <[a := mkTobj b p (timer_locals a s) (Some (next s)) (Some (S (next s))) true (S (timer_gen a s))]> (timers s) |>
               <| futs := <[next s := FOk]> (<[S (next s) := FPending]> (<[next s := FPending]> (futs s))) |>
               <| next := S (S (next s)) |>)
(* a process action is executed *)
| mi_get a c oe : micro w s (s <| procs := <[a := get_proc a c oe s]> (procs s) |>)
| mi_det a p d s1 : procs s !! a = Some p -> prepare_executable w (x_cfg p) s = (s1, Ok d) ->
    micro w s (upd_proc a (fun p => p <| x_det := Some d |>) s1)
| mi_respawn a b : (forall p, procs s !! a = Some p -> forall b', x_respawn p = BV b' -> b = b') ->
    micro w s (upd_proc a (fun p => p <| x_respawn := BV b |>) s)
| mi_exec a p : procs s !! a = Some p -> x_executed p = false ->
    micro w s (upd_proc a (fun p => p <| x_executed := true |>) s)
| mi_start a p fc fs n ts c : procs s !! a = Some p -> x_executed p = false -> prepared p ->
    is_shutdown (cx s) = false -> is_shutdown c = false ->
    (next s <= fc)%nat -> (fc < fs)%nat -> (fs < n)%nat -> ts = [] \/ ts = [TProcInit a] ->
    keeps (cx s) c ->
    micro w s (s <| procs := <[a := proc_started p fc fs ts]> (procs s) |>
               <| futs := <[fs := FPending]> (<[fc := FPending]> (futs s)) |>
               <| tasks := tasks s ++ ts |> <| next := n |> <| cx := c |>)
(* a process action handles an event *)
| mi_shut a sg : micro w s (shutdown_process a sg s).1
| mi_signal a sg p f : procs s !! a = Some p -> x_transport p = Some f -> f_is_done f s = false ->
    micro w s (obs1 (OSignal a sg) s)
| mi_io a e : micro w s (proc_io a e s).1
| mi_flush a : micro w s (proc_flush a s).1
(* asyncio and the operating system *)
| mi_task i s' : task_step w i s = Some s' -> micro w s s'
| mi_spawn i pid s' : spawn_ok i pid s = Some s' -> micro w s s'
| mi_nospawn i s' : spawn_fail i s = Some s' -> micro w s s'
| mi_exit i rc s' : proc_exit i rc s = Some s' -> micro w s s'.

Ltac forget_handlers :=
  try match goal with HH : keeps _ _ |- _ => clear HH | HH : installs _ _ |- _ => clear HH end.

Section micro.
Context (w : world).
Notation R := (rtc (micro w)).
Notation P := (pres R).

Lemma R1 s s' : micro w s s' -> R s s'.
Proof. apply rtc_once. Qed.
Lemma Ru s s' : untouched s s' -> R s s'.
Proof. intros H. by apply R1, mi_misc. Qed.
Lemma Rcx s c : grows (cx s) c ->
  (forall h, In h (handlers (cx s)) -> In h (handlers c)) -> R s (s <| cx := c |>).
Proof. intros H H'. by apply Ru, untouched_cx. Qed.
Lemma Robs o s : aside o = true -> (forall h, o = OReg h -> In h (handlers (cx s))) -> R s (obs1 o s).
Proof. intros H H'. by apply Ru, untouched_obs. Qed.
Lemma Remit e s : R s (emit e s).
Proof. apply Ru. constructor; simpl; try done; auto; try apply Qle_refl; [exists [OEmit e]; by repeat constructor| |]. { intros h Hh. by left. } intros h [[=]|?]. by left. Qed.

Lemma R_bind {A B} (m : st -> st * res A) (k : A -> st -> st * res B) :
  P m -> (forall a, P (k a)) -> P (bindS m k).
Proof. apply pres_bind, _. Qed.
Lemma R_ret {A} (a : A) : P (retS a).
Proof. apply pres_ret, _. Qed.
Lemma R_raise {A} e : P (@raiseS st A e).
Proof. apply pres_raise, _. Qed.
Lemma R_lift {A} (f : st -> res A) : P (fun s => (s, f s)).
Proof. apply pres_lift, _. Qed.
Lemma R_mod f : (forall s, R s (f s)) -> P (modS f).
Proof. apply pres_mod. Qed.
Lemma sframe_R s c : sframe (cx s) c -> R s (s <| cx := c |>).
Proof. intros [E _ _ _ _]. apply Rcx; [split_and!|]; by rewrite E. Qed.
Lemma R_on_ctx {A} (m : ctx -> ctx * res A) : frames m -> P (on_ctx m).
Proof.
  intros Hm s s' r. rewrite /on_ctx. destruct (m (cx s)) as [c x] eqn:E. intros [= <- <-].
  apply sframe_R. by eapply Hm.
Qed.
Lemma R_perform l : P (perform_st w l).
Proof. apply R_on_ctx, perform_substitutions_frames. Qed.
Lemma R_bval b : P (on_ctx (perform_bval w b)).
Proof. apply R_on_ctx, perform_bval_frame. Qed.
Lemma R_fval b : P (on_ctx (perform_fval w b)).
Proof. apply R_on_ctx, perform_fval_frame. Qed.
Lemma R_list l : P (on_ctx (perform_list w l)).
Proof. apply R_on_ctx, perform_list_frame. Qed.
Lemma R_evaluate c : P (on_ctx (evaluate w c)).
Proof. apply R_on_ctx, evaluate_frame. Qed.
Lemma R_get_local k : P (on_ctx (get_local k)).
Proof. apply R_on_ctx, frames_get_local. Qed.
Lemma R_fresh : P fresh.
Proof. intros s s' r [= <- _]. apply Ru. utf. Qed.
Lemma R_need_loop {A} (m : st -> st * res A) : P m -> P (need_loop m).
Proof. intros H s s' r. rewrite /need_loop. destruct (loop_set (cx s)); [apply H|]. by intros [= <- _]. Qed.
Ltac cxr := intros ?; apply Rcx; simpl; rewrite ?/register_event_handler; try case_match; try done; simpl; auto.
Ltac pr := repeat first
  [ apply R_ret | apply R_raise | apply R_perform | apply R_bval | apply R_fval | apply R_list
  | apply R_evaluate | apply R_get_local | apply R_fresh
  | apply R_bind; [|intros ?] ].

Lemma remove_first_other i l l' h : remove_first i l = Some l' -> h_id h <> i -> In h l -> In h l'.
Proof.
  revert l'. induction l as [|x l IH]; intros l'; simpl; [done|].
  destruct (bool_decide (h_id x = i)) eqn:E.
  - apply bool_decide_eq_true in E. intros [= <-] Hne [->|H]; [done|exact H].
  - destruct (remove_first i l) as [l1|] eqn:E1; [|done]. intros [= <-] Hne [->|H]; [by left|right].
    by apply IH.
Qed.
Lemma R_unregister i s : R s (unregister i s).1.
Proof.
  rewrite /unregister /on_ctx /unregister_event_handler. destruct (remove_first i _) as [l|] eqn:E; simpl.
  - apply Ru. constructor; simpl; try done; auto; try apply Qle_refl.
    + exists [OUnreg i]. by repeat constructor.
    + intros h Hh. simpl. destruct (decide (h_id h = i)) as [->|Hne]; [right; by left|left].
      by eapply remove_first_other.
    + intros h [[=]|?]. by left.
  - by apply Rcx.
Qed.
Lemma new_user_future s (s' : st) :
  procs s' = procs s -> timers s' = timers s -> tasks s' = tasks s -> pipes s' = pipes s -> now s' = now s ->
  next s' = S (next s) -> futs s' = <[next s := FPending]> (futs s) -> ufuts s' = next s :: ufuts s ->
  log s' = log s -> pcount s' = pcount s -> (is_shutdown (cx s) = true -> is_shutdown (cx s') = true) ->
  timer_installed (cx s') = timer_installed (cx s) ->
  (forall a f, coros s' !! a = Some f -> coros s !! a = Some f \/ f = next s) ->
  (forall f, In f (cfuts (cx s')) -> In f (cfuts (cx s)) \/ f = next s) ->
  (forall h, In h (handlers (cx s)) -> In h (handlers (cx s'))) -> R s s'.
Proof.
  intros H1 H2 H3 H4 H5 H6 H7 H8 H9 H10 H11 H13 H14 H15 H12. apply Ru. constructor; try done.
  - rewrite H5. apply Qle_refl.
  - lia.
  - intros f. rewrite H6 H7. destruct (decide (f = next s)) as [->|Hne].
    + right. left. rewrite lookup_insert. split; [lia|done].
    + left. by rewrite lookup_insert_ne.
  - intros f. rewrite H6 H8. intros [<-|Hf]; [right; rewrite H7 lookup_insert; split; [lia|by eexists]|by left].
  - intros f Hf. rewrite H8. by right.
  - intros a f [Hf| ->]%H14; [by left|right]. rewrite H8. split; [by left|lia].
  - intros f [Hf| ->]%H15; [by left|right]. rewrite H8. by left.
  - exists []. by rewrite H9.
  - by rewrite H10.
  - intros h Hh. left. by apply H12.
  - intros h. rewrite H9. by left.
Qed.
Lemma R_apply_op o s : R s (apply_op o s).
Proof.
  destruct o; simpl; try by apply Rcx.
  - apply Remit.
  - etrans; [|apply (Robs (OReg h)); [done|]; intros h' [= <-]; destruct append; simpl; [apply in_or_app; right; by left|by left]]. destruct append; apply Rcx; try done; intros h' Hh; simpl; [apply in_or_app; by left|by right].
  - apply R_unregister.
  - apply new_user_future; try done; [by left|]. simpl. intros f. rewrite in_app_iff. intros [?|[->|[]]]; auto.
  - apply R1, mi_cancel.
Qed.
Lemma R_apply_ops os s : R s (apply_ops os s).
Proof. revert s. induction os as [|o os IH]; intros s; [done|]. etrans; [apply R_apply_op|apply IH]. Qed.
Lemma R_call_user f : P (call_user w f).
Proof.
  intros s s' r. rewrite /call_user. destruct (w_fun w f (cx s)) as [ops x]. intros [= <- <-].
  etrans; [|apply R_apply_ops]. by apply Rcx.
Qed.
Lemma R_eval_cfgs l acc : P (eval_cfgs w l acc).
Proof. revert acc. induction l as [|[k v] l IH]; intros acc; simpl; pr. apply IH. Qed.
Lemma R_eval_env l acc : P (eval_env w l acc).
Proof. revert acc. induction l as [|[k v] l IH]; intros acc; simpl; pr. apply IH. Qed.
Lemma R_get_ld src : P (get_launch_description w src).
Proof.
  rewrite /get_launch_description. apply R_bind.
  - intros s s' r. destruct (srcs s !! src) as [[[l|] ld]|]; [by intros [= <- _]| |].
    all: match goal with |- ?m ?s3 = _ -> _ => assert (P m) as HP; [|apply HP] end; pr; apply R_mod; intros s1; apply Ru; utf.
  - intros loc s s' r. set (s1 := s <| cx ::= _ |>).
    assert (R s s1) as H1 by (by apply Rcx).
    destruct (srcs s !! src) as [[l [ld|]]|]; [by intros [= <- _]| |].
    all: destruct (w_load w src loc _) as [ld'|e|] eqn:El; intros [= <- _]; try done.
    all: etrans; [exact H1|]; apply Ru; utf.
Qed.
Lemma R_exec_include fuel src args : P (exec_include w fuel src args).
Proof.
  rewrite /exec_include. apply R_bind; [apply R_get_ld|]. intros [loc ld].
  apply R_bind; [apply R_mod; cxr|]. intros _.
  apply R_bind; [apply R_mod; cxr|]. intros _. pr. apply R_lift.
Qed.
Lemma R_event_of_locals : P event_of_locals.
Proof. rewrite /event_of_locals. pr. destruct a; pr. Qed.

Lemma sframe_shut c c' : sframe c c' -> is_shutdown c' = is_shutdown c.
Proof. intros [E _ _ _ _]. by rewrite E. Qed.
Lemma sframe_handlers c c' : sframe c c' -> handlers c' = handlers c.
Proof. intros [E _ _ _ _]. by rewrite E. Qed.
Lemma sframe_inst c c' : sframe c c' -> timer_installed c' = timer_installed c.
Proof. intros [E _ _ _ _]. by rewrite E. Qed.
Lemma sframe_cfuts c c' : sframe c c' -> cfuts c' = cfuts c.
Proof. intros [E _ _ _ _]. by rewrite E. Qed.
Lemma combined_frame c c' d : get_combined_locals c = (c', d) -> is_shutdown c' = is_shutdown c /\ handlers c' = handlers c /\ timer_installed c' = timer_installed c /\ cfuts c' = cfuts c.
Proof.
  intros Eg. pose proof (frames_get_local "" c) as Hf. rewrite /get_local Eg in Hf.
  split_and!; [apply sframe_shut|apply sframe_handlers|apply sframe_inst|apply sframe_cfuts]; by eapply Hf.
Qed.
(** The part of executing a timer that starts it. *)
Definition start_timer (a : aid) (period : fval) (body : list entity) (s : st) : st :=
  let '(s, fc) := new_future s in
  let '(s, fx) := new_future s in
  let s := s <| timers ::= <[a := mkTobj body period (timer_locals a s) (Some fc) (Some fx) false (S (timer_gen a s))]> |> in
  let s := if timer_installed (cx s) then s
           else s <| next ::= S |> <| cx ::= (fun c =>
                         (register_event_handler (timers_handler (next s)) false c)
                           <| timer_installed := true |>) |> in
  let '(c, d) := get_combined_locals (cx s) in
  let s := upd_timer a (fun t => t <| t_locals := d |>) (s <| cx := c |>) in
  obs1 (OTimer a) (s <| tasks ::= fun l => l ++ [TTimerInit a] |>).
Definition stop_timer (a : aid) (period : fval) (body : list entity) (s : st) : st :=
  s <| timers := <[a := mkTobj body period (timer_locals a s) (Some (next s)) (Some (S (next s))) true (S (timer_gen a s))]> (timers s) |>
    <| futs := <[next s := FOk]> (<[S (next s) := FPending]> (<[next s := FPending]> (futs s))) |>
    <| next := S (S (next s)) |>.
Definition timer_rest (a : aid) (cos : bval) : st -> st * res (list entity) :=
  b <-- on_ctx (perform_bval w cos) ;;
  (if (b : bool) then
     n <-- fresh ;;
     register_noted (MkH (Gen n) MShutdown false (HEntity (anon (ITimerCancel a))))
   else retS tt) ;;;
  retS [].
Lemma exec_timer_eq a p b c s :
  exec_timer w a p b c s =
  (if loop_set (cx s) then
     if timer_canceled a s then (stop_timer a p b s, Ok [])
     else timer_rest a c (start_timer a p b s)
   else (s, Exn XAttr)).
Proof.
  rewrite /exec_timer /need_loop. destruct (loop_set (cx s)); [|done].
  rewrite /timer_canceled /new_future /=. destruct (timers s !! a) as [t|] eqn:Et; simpl.
  - destruct (t_canceled t) eqn:Ec.
    + rewrite /set_result /= lookup_insert_ne; [lia|]. rewrite lookup_insert /=.
      rewrite /stop_timer /timer_locals /timer_gen Et. by destruct s.
    + rewrite /start_timer /new_future /= /timer_locals /timer_gen /= Et.
      destruct (timer_installed (cx s)) eqn:Ei.
      * rewrite /bindS /= Ei /on_ctx /=. destruct (get_combined_locals (cx s)) as [c' d]. done.
      * rewrite /bindS /= Ei /on_ctx /=. destruct (get_combined_locals _) as [c' d]. done.
  - rewrite /start_timer /new_future /= /timer_locals /timer_gen /= Et.
    destruct (timer_installed (cx s)) eqn:Ei.
    + rewrite /bindS /= Ei /on_ctx /=. destruct (get_combined_locals (cx s)) as [c' d]. done.
    + rewrite /bindS /= Ei /on_ctx /=. destruct (get_combined_locals _) as [c' d]. done.
Qed.
Lemma timer_set_locals (m : gmap aid tobj) a b p d0 d fc fx k n :
  alter (fun t => t <| t_locals := d |>) a (<[a := mkTobj b p d0 fc fx k n]> m) = <[a := mkTobj b p d fc fx k n]> m.
Proof. by rewrite alter_insert. Qed.
Lemma start_timer_micro a p b s : timer_canceled a s = false -> micro w s (start_timer a p b s).
Proof.
  intros Hc. rewrite /start_timer /new_future /=.
  destruct (timer_installed (cx s)) eqn:Ei; simpl.
  - destruct (get_combined_locals (cx s)) as [c' d] eqn:Ed. apply combined_frame in Ed as (Ed & Eh & Et & Ef).
    rewrite /upd_timer /obs1.
    pose proof (mi_timer w s a b p d c' (S (S (next s))) Hc Ed (le_n _) ltac:(split_and!; [by rewrite Eh|congruence|by rewrite Ef|by left])) as H.
    rewrite -(timer_set_locals _ _ _ _ (timer_locals a s)) in H. by destruct s.
  - destruct (get_combined_locals _) as [c' d] eqn:Ed. apply combined_frame in Ed as (Ed & Eh & Et & Ef).
    rewrite /upd_timer /obs1.
    pose proof (mi_timer w s a b p d c' (S (S (S (next s)))) Hc Ed (le_S _ _ (le_n _)) ltac:(split_and!; [rewrite Eh; by right|by rewrite Et|by rewrite Ef|right; eexists; rewrite Eh; by left])) as H.
    rewrite -(timer_set_locals _ _ _ _ (timer_locals a s)) in H. by destruct s.
Qed.
Lemma R_timer_rest a c : P (timer_rest a c).
Proof. rewrite /timer_rest. pr. destruct a0; pr. apply R_mod. intros s. etrans; [|eapply Robs; [done|]; intros h' [= <-]; by left]. apply Rcx; [done|]. simpl; auto. Qed.
Lemma R_exec_timer a p b c : P (exec_timer w a p b c).
Proof.
  intros s s' r. rewrite exec_timer_eq. destruct (loop_set (cx s)); [|by intros [= <- _]].
  destruct (timer_canceled a s) eqn:Hc.
  - intros [= <- _]. apply R1. by apply mi_timer_off.
  - intros H. etrans; [by apply R1, (start_timer_micro a p b)|]. by eapply R_timer_rest.
Qed.
Lemma R_exec_timer_handle : P exec_timer_handle.
Proof.
  rewrite /exec_timer_handle. apply R_bind; [apply R_event_of_locals|]. intros e. destruct e; try apply R_raise.
  intros s s' r. destruct (timers s !! a); intros [= <- _]; [|done]. by apply Rcx.
Qed.
Lemma R_exec_coro a : P (exec_coro a).
Proof.
  rewrite /exec_coro. apply R_need_loop. intros s s' r. rewrite /new_future.
  set (s1 := set coros _ _). assert (R s s1) as H1 by (apply new_user_future; try done; [|by left]; intros b f; simpl; destruct (decide (a = b)) as [->|Hne]; [rewrite lookup_insert; intros [= <-]; by right|rewrite lookup_insert_ne //; by left]).
  intros H. etrans; [exact H1|revert H].
  match goal with |- ?m ?s3 = _ -> _ => assert (P m) as HP; [|apply HP] end. pr. apply R_mod. intros s2. etrans; [|eapply Robs; [done|]; intros h' [= <-]; by left]. apply Rcx; [done|]. simpl; auto.
Qed.

(** Processes *)
Lemma R_prepare_executable c : P (prepare_executable w c).
Proof.
  rewrite /prepare_executable. pr.
  - destruct (p_prefix c); pr. destruct a; pr.
  - destruct a0; pr.
  - destruct (p_name c); pr. destruct a1; pr.
  - apply R_mod. intros s. apply Ru. utf.
  - intros s s' r. match goal with |- ?m ?s3 = _ -> _ => assert (P m) as HP; [|apply HP] end. pr.
    + destruct (p_cwd c); pr.
    + destruct (p_env c); [apply R_eval_env|apply R_lift].
    + destruct (p_addenv c); [apply R_eval_env|pr].
Qed.
Definition only_cx (s s' : st) : Prop := exists c n pc, (next s <= n)%nat /\ (pcount s <= pc)%Z /\ is_shutdown c = is_shutdown (cx s) /\
  (handlers c = handlers (cx s) /\ timer_installed c = timer_installed (cx s) /\ cfuts c = cfuts (cx s)) /\ s' = s <| cx := c |> <| next := n |> <| pcount := pc |>.
Lemma only_cx_refl s : only_cx s s.
Proof. exists (cx s), (next s), (pcount s). split_and!; try done; try lia; by destruct s. Qed.
#[local] Instance only_cx_pre : PreOrder only_cx.
Proof.
  split; [exact only_cx_refl|]. intros s1 s2 s3 (c & n & pc & Hn & Hp & Hc & (Hh & Hi & Hf) & ->) (c' & n' & pc' & Hn' & Hp' & Hc' & (Hh' & Hi' & Hf') & ->).
  exists c', n', pc'. simpl in *. split_and!; try congruence; try lia. done.
Qed.
Notation O := (pres only_cx).
Lemma O_cx s c : is_shutdown c = is_shutdown (cx s) -> (handlers c = handlers (cx s) /\ timer_installed c = timer_installed (cx s) /\ cfuts c = cfuts (cx s)) -> only_cx s (s <| cx := c |>).
Proof. intros H (Hh & Hi & Hf). exists c, (next s), (pcount s). split_and!; try done; try lia; by destruct s. Qed.
Lemma O_on_ctx {A} (m : ctx -> ctx * res A) : frames m -> O (on_ctx m).
Proof.
  intros Hm s s' r. rewrite /on_ctx. destruct (m (cx s)) as [c x] eqn:E. intros [= <- <-].
  apply O_cx; [apply sframe_shut|split_and!; [apply sframe_handlers|apply sframe_inst|apply sframe_cfuts]]; by eapply Hm.
Qed.
Ltac opr := repeat first
  [ apply (pres_ret _) | apply (pres_raise _) | apply O_on_ctx, perform_substitutions_frames
  | apply O_on_ctx, perform_bval_frame | apply O_on_ctx, perform_fval_frame | apply O_on_ctx, perform_list_frame
  | apply (pres_bind _); [|intros ?] ].
Lemma O_eval_env l acc : O (eval_env w l acc).
Proof. revert acc. induction l as [|[k v] l IH]; intros acc; simpl; opr. apply IH. Qed.
Lemma O_prepare_executable c : O (prepare_executable w c).
Proof.
  rewrite /prepare_executable. opr.
  - destruct (p_prefix c); opr. destruct a; opr.
  - destruct a0; opr.
  - destruct (p_name c); opr. destruct a1; opr.
  - apply pres_mod. intros s. exists (cx s), (next s), (Z.succ (pcount s)). split_and!; try done; try lia; by destruct s.
  - intros s s' r. match goal with |- ?m ?s3 = _ -> _ => assert (O m) as HP; [|apply HP] end. opr.
    + destruct (p_cwd c); opr.
    + destruct (p_env c); [apply O_eval_env|apply pres_lift, _].
    + destruct (p_addenv c); [apply O_eval_env|opr].
Qed.
Lemma prepare_untouched c s s' r : prepare_executable w c s = (s', r) -> untouched s s'.
Proof. intros (c' & n & pc & Hn & Hp & Hc & (Hh & Hi & Hf) & ->)%O_prepare_executable. apply untouched_fields; simpl; try done; [split_and!; by rewrite ?Hc ?Hi ?Hf|by rewrite Hh]. Qed.
Lemma prepare_executable_pid c s s' d : prepare_executable w c s = (s', Ok d) -> d_pid d = None.
Proof.
  assert (yields (fun d => d_pid d = None) (prepare_executable w c)) as H; [|by apply H].
  rewrite /prepare_executable. do 5 (apply yields_bind; intros ?).
  intros s1 s2 d1. match goal with |- ?m s1 = _ -> _ => assert (yields (fun d => d_pid d = None) m) as HP; [|apply HP] end.
  do 3 (apply yields_bind; intros ?). by apply yields_ret.
Qed.
Lemma bval_law b s s' r : on_ctx (perform_bval w b) s = (s', Ok r) -> forall b', b = BV b' -> r = b'.
Proof. intros E b' ->. rewrite /on_ctx /= in E. by simplify_eq. Qed.
Lemma R_prepare_proc a : P (prepare_proc w a).
Proof.
  intros s s' r. rewrite /prepare_proc. destruct (procs s !! a) as [p|] eqn:Ep; [|by intros [= <- _]].
  intros [(s1 & d & E1 & E2)|[(e & E1 & ->)|[E1 ->]]]%bindS_inv.
  2-3: by eapply R_prepare_executable.
  assert (procs s1 !! a = Some p) as Ep1.
  { apply O_prepare_executable in E1 as (c & n & pc & _ & _ & _ & _ & ->). done. }
  revert E2. rewrite {1}/bindS /=. set (s2 := upd_proc a _ s1). assert (R s s2) as H12. { by apply R1, (mi_det w s a p). }
  intros [(s3 & b & E3 & E4)|[(e & E3 & ->)|[E3 ->]]]%bindS_inv; (etrans; [exact H12|]).
  2-3: by eapply R_bval.
  etrans; [by eapply R_bval|]. revert E4; intros [= <- _]. apply R1, mi_respawn.
  intros p' Hp' b' Hr. eapply bval_law; [exact E3|].
  assert (procs s3 = procs s2) as Hps. { apply (O_on_ctx _ (perform_bval_frame w _)) in E3 as (c & n & pc & _ & _ & _ & _ & ->). done. }
  rewrite Hps /s2 /= lookup_alter Ep1 /= in Hp'. simplify_eq/=. done.
Qed.
Lemma tasks_nil (s : st) c :
  s <| tasks ::= fun l => l ++ [] |> <| next := next s |> <| cx := c |> = s <| cx := c |>.
Proof. destruct s. rewrite /set /=. by rewrite app_nil_r. Qed.
Lemma register_ctx_shut hs c : is_shutdown (register_ctx hs c) = is_shutdown c.
Proof. revert c. induction hs as [|h hs IH]; intros c; [done|]. by rewrite /= IH. Qed.
Lemma register_ctx_inst hs c : timer_installed (register_ctx hs c) = timer_installed c.
Proof. revert c. induction hs as [|h hs IH]; intros c; [done|]. by rewrite /= IH. Qed.
Lemma register_ctx_cfuts hs c : cfuts (register_ctx hs c) = cfuts c.
Proof. revert c. induction hs as [|h hs IH]; intros c; [done|]. by rewrite /= IH. Qed.
Lemma register_ctx_handlers hs c : handlers (register_ctx hs c) = rev hs ++ handlers c.
Proof. revert c. induction hs as [|x hs IH]; intros c; [done|]. by rewrite /= IH /= -app_assoc. Qed.
Lemma untouched_register hs n s : untouched s (register_all hs (s <| next ::= fun k => (k + n)%nat |>)).
Proof.
  constructor; simpl; try done; auto; try apply Qle_refl; try lia.
  - intros f. rewrite register_ctx_cfuts. by left.
  - exists (rev (map OReg hs)). split; [done|]. apply Forall_rev, Forall_map, Forall_true. done.
  - by rewrite register_ctx_shut.
  - by rewrite register_ctx_inst.
  - intros h Hh. left. simpl. rewrite register_ctx_handlers in_app_iff. by right.
  - intros h. rewrite register_ctx_handlers !in_app_iff -!in_rev. intros [H|H]; [right; left|by left].
    apply in_map_iff in H as (h' & [= ->] & H). done.
Qed.
Lemma R_unregister_all hs : P (unregister_all hs).
Proof.
  induction hs as [|h hs IH]; simpl; [apply R_ret|].
  apply R_bind; [|intros _; exact IH].
  intros s s' r E. pose proof (R_unregister (h_id h) s) as H. by rewrite E in H.
Qed.
Lemma upd_same a (s : st) : upd_proc a (fun p => p <| x_begun := x_begun p |>) s = s.
Proof.
  rewrite /upd_proc. assert (alter (fun p => p <| x_begun := x_begun p |>) a (procs s) = procs s) as E.
  { apply map_eq. intros b. destruct (decide (a = b)) as [->|Hne]; [|by rewrite lookup_alter_ne]. rewrite lookup_alter. destruct (procs s !! b) as [[]|]; done. }
  destruct s. simpl in *. by rewrite /set /= E.
Qed.
Lemma R_exec_proc a c oe : P (exec_proc w a c oe).
Proof.
  rewrite /exec_proc. apply R_bind; [apply R_mod; intros s; apply R1, mi_get|]. intros _ s s' r.
  intros [(s1 & u & E1 & E2)|[(e & E1 & ->)|[E1 ->]]]%bindS_inv.
  2-3: by eapply R_prepare_proc.
  etrans; [by eapply R_prepare_proc|].
  assert (forall p, procs s1 !! a = Some p -> prepared p) as Hdet.
  { intros p. revert E1. rewrite /prepare_proc. destruct (procs s !! a) as [p0|] eqn:Ep0; [|done].
    intros [(s2 & d & E3 & E4)|[(e & E3 & ?)|[E3 ?]]]%bindS_inv; [|done..].
    revert E4. rewrite {1}/bindS /=.
    intros [(s3 & b & E5 & E6)|[(e & E5 & ?)|[E5 ?]]]%bindS_inv; [|done..].
    apply (O_on_ctx _ (perform_bval_frame w _)) in E5 as (c5 & n5 & pc5 & _ & _ & _ & _ & ->).
    revert E6; intros [= <- _]. rewrite /= lookup_alter lookup_alter.
    destruct (procs s2 !! a); [|done]. simpl. intros [= <-]. split; [done|by eexists]. }
  clear E1 s. rename s1 into s. revert E2.
  destruct (procs s !! a) as [p|] eqn:Ep; [|by intros [= <- _]].
  destruct (x_executed p) eqn:Ex; [by intros [= <- _]|].
  set (s1 := upd_proc a _ s).
  assert (micro w s s1) as M1 by (by eapply mi_exec).
  assert (is_shutdown (cx s1) = is_shutdown (cx s)) as Hs1 by done.
  destruct (is_shutdown (cx s1)) eqn:Esd; [intros [= <- _]; by apply R1|].
  set (hs := proc_handlers _ _ _). set (s2 := s1 <| next ::= _ |>).
  intros H. assert (exists r1, guard_handlers hs (start_proc w a (p_output (x_cfg p))) (register_all hs s2) = (s', r1)) as [r1 H1].
  { revert H. intros [(s3 & u1 & E & E')|[(e & E & ->)|[E ->]]]%bindS_inv; [|by eexists..].
    revert E'; intros [= <- _]. by eexists. }
  clear H r. set (s3 := register_all hs s2) in H1.
  assert (is_shutdown (cx s3) = false) as Hs3.
  { transitivity (is_shutdown (cx s2)); [exact (register_ctx_shut hs (cx s2))|exact (eq_sym Hs1)]. }
  (* after the guard only the context changes *)
  assert (forall m, (exists s4 r4, m s3 = (s4, r4) /\ R s s4) -> guard_handlers hs m s3 = (s', r1) -> R s s') as Hguard.
  { intros m (s4 & r4 & E & HR). rewrite /guard_handlers E. destruct r4 as [?|e|]; try by intros [= <- _].
    destruct (unregister_all hs s4) as [s5 r4] eqn:Eu. apply R_unregister_all in Eu.
    assert (R s s5) as HR4 by (by etrans).
    destruct r4; by intros [= <- _]. }
  eapply Hguard; [|exact H1]. clear Hguard H1 r1 s'.
  rewrite /start_proc /need_loop. destruct (loop_set (cx s3)).
  2: { do 2 eexists. split; [done|]. etrans; [by apply R1|]. apply Ru, untouched_register. }
  set (sr := register_all hs (s <| next ::= fun n => (n + 6)%nat |>)).
  assert (R s sr) as Hsr by (apply Ru, untouched_register).
  assert (is_shutdown (cx sr) = false) as Hsd by exact Hs3.
  rewrite /new_future /=. set (s5 := upd_proc a _ (set next _ _)).
  assert (forall n ts c', ts = [] \/ ts = [TProcInit a] -> is_shutdown c' = false -> (next s5 <= n)%nat ->
    keeps (cx sr) c' ->
    R s ((upd_proc a (fun p => p <| x_begun := match ts with [] => x_begun p | _ => true end |>) s5) <| tasks ::= fun l => l ++ ts |> <| next := n |> <| cx := c' |>)) as Hst.
  { intros n ts c' Hts Hc' Hn Hhc. etrans; [exact Hsr|]. apply R1.
    pose proof (mi_start w sr a p (next s + 6)%nat (S (next s + 6))%nat n ts c' Ep Ex (Hdet _ eq_refl)
      Hsd Hc') as Hm.
    simpl in Hn. specialize (Hm ltac:(simpl; lia) ltac:(lia) ltac:(lia) Hts Hhc).
    assert (alter (fun p => p <| x_begun := match ts with [] => x_begun p | _ => true end |>) a (alter (fun p => p <| x_shutdown := Some (S (next s + 6))%nat |>) a
      (alter (fun p => p <| x_completed := Some (next s + 6)%nat |>) a
         (alter (fun p => p <| x_executed := true |>) a (procs s)))) = <[a := proc_started p (next s + 6)%nat (S (next s + 6)) ts]> (procs s)) as Ha.
    { rewrite -!alter_compose. apply map_eq. intros b. destruct (decide (b = a)) as [->|Hne].
      - by rewrite lookup_alter lookup_insert Ep.
      - by rewrite lookup_alter_ne // lookup_insert_ne. }
    change (procs sr) with (procs s) in Hm. rewrite -Ha in Hm. rewrite /s5 /s3 /s2 /s1. rewrite /sr in Hm. destruct s; exact Hm. }
  clear M1. assert (is_shutdown (cx s5) = false) as Hs5 by exact Hs3.
  assert (keeps (cx sr) (cx s5)) as Hh5 by (split_and!; [intros h Hh; exact Hh|exact (eq_refl (timer_installed (cx sr)))|exact (eq_refl (cfuts (cx sr)))]).
  clearbody s5 sr. rewrite /perform_st /on_ctx /bindS.
  destruct (perform_substitutions w (p_output (x_cfg p)) (cx s5)) as [c6 r6] eqn:E6.
  apply perform_substitutions_frames in E6. assert (keeps (cx sr) c6) as Hh6.
  { destruct Hh5 as (Hh5 & Hi5 & Hf5). split_and!; [by rewrite (sframe_handlers _ _ E6)|by rewrite (sframe_inst _ _ E6)|by rewrite (sframe_cfuts _ _ E6)]. }
  apply sframe_shut in E6.
  assert (R s (s5 <| cx := c6 |>)) as H6.
  { specialize (Hst (next s5) [] c6 (or_introl eq_refl)). rewrite upd_same tasks_nil in Hst. apply Hst; [congruence|lia|done]. }
  destruct r6 as [o|e|]; [|by eexists _, _..]. simpl. destruct (w_output_ok w o); [|by eexists _, _].
  do 2 eexists. split; [done|]. specialize (Hst (next s5) [TProcInit a] c6 (or_intror eq_refl)).
  rewrite /modS /= in Hst |- *. clear -Hst E6 Hs5 Hh6. rewrite Hs5 in E6. specialize (Hst E6 ltac:(lia) Hh6). destruct s5; exact Hst.
Qed.
Lemma R_exec_proc_shutdown a : P (exec_proc_shutdown w a).
Proof.
  rewrite /exec_proc_shutdown. apply R_bind; [apply R_event_of_locals|]. intros e. destruct e; try apply R_raise.
  apply R_bind; [apply R_lift|]. intros []; [|apply R_ret]. intros s s' r E.
  pose proof (mi_shut w s a true) as H. rewrite E in H. by apply R1.
Qed.
Lemma R_shutdown_process a b : P (shutdown_process a b).
Proof. intros s s' r E. pose proof (mi_shut w s a b) as H. rewrite E in H. by apply R1. Qed.
Lemma R_exec_proc_signal a : P (exec_proc_signal w a).
Proof.
  rewrite /exec_proc_signal. apply R_bind; [apply R_event_of_locals|]. intros e. destruct e; try apply R_raise.
  apply R_bind; [apply R_lift|]. intros []; [|apply R_ret]. intros s1 s' r.
  destruct (procs s1 !! a) as [p|] eqn:Ep; [|by intros [= <- _]].
  destruct (x_det p), (x_transport p) eqn:Et; try by intros [= <- _].
  destruct (f_is_done n s1) eqn:Ed; intros [= <- _]; [done|]. apply R1. by eapply mi_signal.
Qed.
Lemma R_exec_test a c oe t : P (exec_test w a c oe t).
Proof.
  rewrite /exec_test. apply R_bind; [apply R_exec_proc|]. intros l. destruct t; [|apply R_ret]. destruct (no_timeout _); [apply R_ret|].
  pr. apply R_mod. intros s0. etrans; [|apply (Robs (OReg _)); [done|]; intros h' [= <-]; by left]. apply Rcx; [done|]. simpl; auto.
Qed.
Lemma R_exec_action fuel a k : P (exec_action w fuel a k).
Proof.
  destruct k; simpl.
  - rewrite /exec_set. pr. apply R_mod. cxr.
  - rewrite /exec_unset. pr. apply R_mod. cxr.
  - rewrite /exec_reset_lc. destruct cfgs; pr; [apply R_eval_cfgs| |]; apply R_mod; cxr.
  - pr. apply R_mod. cxr.
  - apply R_bind; [|intros; pr]. intros s s' r. rewrite /on_ctx /pop_lc. destruct (lc_stack (cx s)); intros [= <- _]; by apply Rcx.
  - pr. apply R_mod. cxr.
  - apply R_bind; [|intros; pr]. intros s s' r. rewrite /on_ctx /pop_env. destruct (env_stack (cx s)); intros [= <- _]; by apply Rcx.
  - pr. apply R_mod. cxr.
  - rewrite /exec_set. pr. apply R_mod. cxr.
  - rewrite /exec_unset. pr. apply R_mod. cxr.
  - rewrite /exec_append_env. pr. apply R_mod. cxr.
  - rewrite /exec_declare. apply R_bind.
    + intros s s' r. destruct (lc (cx s) !! n); [by intros [= <- _]|]. destruct default; [|by intros [= <- _]].
      match goal with |- ?m ?s3 = _ -> _ => assert (P m) as HP; [|apply HP] end. pr. apply R_mod. cxr.
    + intros _. destruct choices; pr. intros s s' r. destruct (lc (cx s) !! n); [|by intros [= <- _]].
      destruct (existsb _ _); by intros [= <- _].
  - pr.
  - apply R_exec_include.
  - apply R_call_user.
  - pr. apply R_mod. intros. apply Remit.
  - apply R_bind; [|intros _; pr; apply R_mod; intros; apply Remit].
    apply R_on_ctx. intros c c' r. intros [= <- _].
    destruct (get_local "event" c) as [c1 x] eqn:E. simpl. by eapply frames_get_local.
  - pr. apply R_mod. intros s0. etrans; [|apply (Robs (OReg h)); [done|]; intros h' [= <-]; by left]. apply Rcx; [done|]. simpl; auto.
  - apply R_bind; [|intros _; pr]. intros s s' r H. pose proof (R_unregister (h_id h) s) as HF. by rewrite H in HF.
  - pr. apply R_mod. intros. by apply Robs.
  - apply R_exec_timer.
  - apply R_exec_proc.
  - apply R_exec_coro.
  - apply R_exec_test.
  - apply R_bind; [apply R_event_of_locals|]. intros e; destruct e; pr.
  - apply R_exec_timer_handle.
  - pr. apply R_mod. intros. apply R1, mi_cancel.
  - apply R_exec_proc_shutdown.
  - apply R_exec_proc_signal.
  - pr. destruct t; pr.
  - apply R_shutdown_process.
Qed.
Lemma R_complete_action e a s : R s (complete_action w e a s).
Proof.
  rewrite /complete_action. destruct (would_handle_event _ _ _); [|done].
  destruct (get_future e s); [|apply Remit]. apply Ru. utf.
Qed.
Lemma R_visit_one fuel e : P (visit_one w fuel e).
Proof.
  intros s s' r. rewrite /visit_one. assert (R s (obs1 (OVisit e) s)) as H1 by (by apply Robs).
  destruct e as [l|a c k]; [by intros [= <- _]|].
  intros H. etrans; [exact H1|]. revert H.
  match goal with |- ?m ?s3 = _ -> _ => assert (P m) as HP; [|apply HP] end.
  apply R_bind; [destruct c; pr|].
  intros []; [|apply R_ret]. intros s1 s2 r1.
  destruct (exec_action w fuel a k (obs1 (OExecuted a) s1)) as [s3 r3] eqn:E. intros [= <- _].
  etrans; [by apply (Robs (OExecuted a))|]. etrans; [by eapply R_exec_action|].
  etrans; [by apply (Robs (OExecDone a))|]. apply R_complete_action.
Qed.
Lemma R_visit_all fuel e : P (visit_all w fuel e).
Proof. apply visit_all_pres; [apply _|]. apply R_visit_one. Qed.

(** Events *)
Lemma R_run_body b e : P (run_body w b e).
Proof.
  destruct b; simpl; try apply R_ret; try apply R_call_user.
  - destruct l; [apply R_raise|apply R_ret].
  - destruct e; try apply R_ret.
    + destruct fd; [destruct fo|destruct fe]; try apply R_call_user; apply R_ret.
    + destruct fi; [apply R_call_user|apply R_ret].
  - apply R_bind; [|intros; apply R_ret]. apply R_mod. intros s.
    etrans; [|by apply Rcx]. apply Ru. utf.
  - intros s s' r E. pose proof (mi_io w s a e) as H. rewrite E in H. by apply R1.
  - intros s s' r. destruct e; try by intros [= <- _]. apply R_shutdown_process.
  - intros s s' r E. pose proof (mi_flush w s a) as H. rewrite E in H. by apply R1.
  - apply R_shutdown_process.
  - intros s s' r. destruct (coros s !! a) as [f|]; [|by intros [= <- _]].
    intros [= <- _]. destruct (f_is_done f s); [done|by apply Robs].
  - pr. apply R_mod. intros. apply R1, mi_cancel.
Qed.
Lemma R_visit_ents fuel l : P (visit_ents w fuel l).
Proof.
  induction l as [|x l IH]; simpl; [apply R_ret|].
  apply R_bind; [apply R_visit_all|]. intros fs. apply R_bind; [|by intros _]. apply R_mod. intros s. apply Ru. utf.
Qed.
Lemma R_handle_one fuel h e : P (handle_one w fuel h e).
Proof.
  rewrite handle_one_eq. apply R_bind; [apply R_mod; intros; by apply Robs|intros _].
  apply R_bind; [apply R_mod; cxr|intros _].
  apply R_bind; [|intros ents].
  { rewrite /handle. apply R_bind; [|intros _; apply R_bind; [apply R_mod; intros; by apply Robs|intros _; apply R_run_body]].
    rewrite /base_handle. apply R_bind; [apply R_mod; cxr|intros _]. destruct (h_once h); [|apply R_ret].
    intros s s' r E. pose proof (R_unregister (h_id h) s) as HF. by rewrite E in HF. }
  apply R_bind; [apply R_visit_ents|intros _]. intros s s' r. rewrite /on_ctx /pop_locals.
  destruct (locals_stack (cx s)); intros [= <- _]; by apply Rcx.
Qed.
Lemma R_process_event fuel e : P (process_event w fuel e).
Proof.
  intros s. rewrite /process_event. generalize (handlers (cx s)) as hs. intros hs. revert s.
  change (P (handle_list w fuel hs e)). induction hs as [|h hs IH]; simpl; [apply R_ret|].
  apply R_bind; [|by intros _]. destruct (matches w h e); [apply R_handle_one|apply R_ret].
Qed.

(** Steps *)
Lemma R_set_flags s : R s (set_flags s).
Proof. etrans; [|by apply Rcx]. apply Ru. utf. Qed.
Lemma R_svc_shutdown r b s : R s (svc_shutdown r b s).
Proof. rewrite /svc_shutdown. destruct (shutting_down s); [|etrans; [apply Remit|]]; apply R_set_flags. Qed.
Lemma R_step l s s' : step w l s = Some s' -> R s s'.
Proof.
  destruct l; cbn [step]; rewrite /loop_step.
  all: try match goal with |- (if in_loop ?x then _ else _) = _ -> _ => destruct (in_loop x) eqn:Hil; [|done] end.
  - rewrite /run_step. destruct (sdt s); try done. destruct (loop_thread s).
    + destruct (in_loop s); [|done]. intros [= <-]. etrans; [|by apply Robs]. apply Ru. utf.
    + destruct (rpc s); try done. intros [= <-]. etrans; [|by apply Robs]. apply Ru. utf.
  - destruct (rpc s); try done. intros [= <-].
    assert (R s (prune s)) as HP.
    { apply Ru. apply untouched_fields; simpl; try done. split_and!; [done|done|]. simpl. by intros f [Hf _]%filter_In. }
    rewrite /main_step. case_match; [etrans; [exact HP|apply R_svc_shutdown]|].
    case_match; (etrans; [exact HP|apply Ru; utf]).
  - destruct (rpc s); try done. rewrite /wake_step. destruct (_ || existsb _ _); [|done]. intros [= <-].
    destruct (existsb _ _); [apply Ru; utf|]. destruct (_ || existsb _ _); [|apply Ru; utf].
    etrans; [apply R_svc_shutdown|]. apply Ru; utf.
  - destruct (rpc s), (sdt s); try done. intros [= <-]. etrans; [|by apply Robs]. apply Ru. utf.
  - destruct (evt s) eqn:He; try done. destruct (queue (cx s)) as [|e q] eqn:Hq; [done|].
    rewrite /process_one Hq. destruct (process_event w fuel e _) as [s2 r] eqn:E. intros Hst.
    assert (R s s2) as H2. { etrans; [|by eapply R_process_event]. etrans; [|by apply Robs]. by apply Rcx. }
    destruct r; simplify_eq; (etrans; [exact H2|]); apply Ru; utf.
  - destruct (rpc s); try done. destruct (unretrieved s); [|done]. intros [= <-]. apply Ru; utf.
  - destruct (rpc s); try done. intros [= <-]. destruct (sigint_seen s); [done|].
    etrans; [apply R_svc_shutdown|apply Ru; utf].
  - destruct (rpc s); try done. intros [= <-]. apply Ru; utf.
  - intros [= <-]. apply Remit.
  - destruct (sdt s); try done. destruct (loop_thread s); [destruct (shutting_down s)|]; intros [= <-]; [apply R_set_flags|apply Ru; utf|done].
  - destruct (sdt s); try done. intros [= <-]. apply Ru; utf.
  - destruct (sdt s); try done. destruct (in_loop s); [|done]. intros [= <-]. etrans; [apply Remit|apply Ru; utf].
  - destruct (sdt s); try done. intros [= <-]. etrans; [apply R_set_flags|apply Ru; utf].
  - destruct (sdt s); try done. destruct (in_loop s); [|done]. destruct (loop_thread s); [|by intros [= <-]].
    destruct awaited; intros [= <-]; [apply R_svc_shutdown|apply R_set_flags].
  - intros [= <-]. apply R_apply_ops.
  - destruct (existsb (Nat.eqb f) (ufuts s)) eqn:Hf; [|done]. destruct (f_is_done f s) eqn:Hd; [done|].
    destruct (f_done o); [|done]. intros [= <-]. apply Ru. constructor; simpl; try done; auto; try apply Qle_refl.
    + intros g. destruct (decide (g = f)) as [->|Hne]; [|left; by rewrite lookup_insert_ne].
      right. right. rewrite lookup_insert. apply existsb_exists in Hf as (g & Hg & Hfg%Nat.eqb_eq). by subst g.
    + by exists [].
    + intros h Hh. by left.
  - intros H. by eapply R1, mi_task.
  - destruct (cbs s !! i) as [[f e]|] eqn:Hcb; [|done]. destruct (f_is_done f s) eqn:Hd; [|done]. intros [= <-].
    etrans; [|apply Remit]. apply Ru; utf.
  - destruct (Qle_bool 0 d) eqn:Hd; [|done]. intros [= <-]. apply Ru. constructor; simpl; try done; auto.
    + apply Qle_bool_iff in Hd. rewrite -{1}(Qplus_0_r (now s)). apply Qplus_le_compat; [apply Qle_refl|done].
    + by exists [].
    + intros h Hh. by left.
  - intros H. by eapply R1, mi_spawn.
  - intros H. by eapply R1, mi_nospawn.
  - destruct (pipes s !! i) as [[[? ?] ?]|]; [|done]. intros [= <-]. apply Remit.
  - intros H. by eapply R1, mi_exit.
Qed.
Lemma R_steps s ls s' : steps w s ls s' -> R s s'.
Proof. induction 1 as [|s l s1 ls s2 H1 _ IH]; [done|]. etrans; [by eapply R_step|done]. Qed.
(** Invariants of reachable states, and of everything that follows a state. *)
Lemma micro_steps (I : st -> Prop) : (forall s s', micro w s s' -> I s -> I s') ->
  forall s ls s', steps w s ls s' -> I s -> I s'.
Proof.
  intros HI s ls s' H%R_steps. induction H as [|s s1 s2 H1 _ IH]; [done|]. intros Hs. by eapply IH, HI.
Qed.
Lemma micro_reachable (I : st -> Prop) : (forall n e, I (init n e)) -> (forall s s', micro w s s' -> I s -> I s') ->
  forall s, reachable w s -> I s.
Proof. intros H0 HI s (n & e & ls & H). by eapply micro_steps. Qed.
End micro.
