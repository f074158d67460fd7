(** The value of the respawn option (C25). *)
From Coq Require Import ssreflect.
From Verif Require Import SubstFacts ExecFacts VisitFacts MicroSteps SpecProc SpecNames ProcFacts ProcLaws LifeFacts NameFacts StopFacts.

Section respawn.
Context (w : world).
Lemma guard_procs hs (m : M unit) s s' r : guard_handlers hs m s = (s', Ok r) -> m s = (s', Ok r).
Proof.
  rewrite /guard_handlers. destruct (m s) as [s1 [x|e|]]; [done| |done]. destruct (unregister_all hs s1) as [s2 []]; done.
Qed.
Lemma start_procs a out s s' p : start_proc w a out s = (s', Ok tt) -> procs s !! a = Some p ->
  exists p', procs s' !! a = Some p' /\ x_respawn p' = x_respawn p.
Proof.
  rewrite /start_proc /need_loop. destruct (loop_set (cx s)); [|done]. intros H Ep. revert H. rewrite /new_future /=.
  intros [(s3 & b & E5 & E6)|[(y & _ & ?)|[_ ?]]]%bindS_inv; [|done..].
  apply (O_on_ctx _ (perform_substitutions_frames w _)) in E5 as (c5 & n5 & pc5 & _ & _ & Hs5 & _ & ->). revert E6.
  intros [(s3 & [] & E5 & E6)|[(y & _ & ?)|[_ ?]]]%bindS_inv; [|done..].
  revert E5. destruct (w_output_ok w b); [|done]. intros [= <-]. revert E6. intros [= <-].
  eexists. split; [by rewrite /= !lookup_alter Ep|done].
Qed.
Lemma exec_respawn a c oe s s' l : exec_proc w a c oe s = (s', Ok l) -> procs s !! a = None ->
  exists c1 c2 b p, perform_bval w (p_respawn c) c1 = (c2, Ok b) /\ same_variables (cx s) c1
    /\ procs s' !! a = Some p /\ x_respawn p = BV b.
Proof.
  intros H Hn. revert H. rewrite /exec_proc {1}/bindS /=. set (s0 := s <| procs ::= _ |>).
  assert (procs s0 !! a = Some (mkPobj c oe (p_respawn c) false 0 None None None None None None emptyBuf emptyBuf false)) as E0 by (by rewrite /= lookup_insert /get_proc Hn).
  assert (cx s0 = cx s) as Ex by done. clearbody s0.
  intros [(s1 & [] & E1 & E2)|[(y & _ & ?)|[_ ?]]]%bindS_inv; [|done..].
  assert (exists c1 c2 b p, perform_bval w (p_respawn c) c1 = (c2, Ok b) /\ same_variables (cx s) c1
    /\ procs s1 !! a = Some p /\ x_respawn p = BV b) as (c1 & c2 & b & p & H1 & H2 & H3 & H4).
  { revert E1. rewrite /prepare_proc E0. intros [(s3 & d & E3 & E4)|[(y & _ & ?)|[_ ?]]]%bindS_inv; [|done..].
    simpl in E3. destruct (prepare_env w _ _ _ _ E3) as (_ & _ & _ & _ & _ & _ & _ & _ & HV).
    apply O_prepare_executable in E3 as (cc & n1 & pc1 & _ & _ & _ & _ & Es3). revert E4. rewrite {1}/bindS /=. rewrite {1}/bindS /on_ctx /=.
    destruct (perform_bval w (p_respawn c) (cx s3)) as [c2 rb] eqn:Eb. destruct rb as [b| |]; [|done..]. intros [= <-].
    exists (cx s3), c2, b. eexists. split; [done|]. split; [by rewrite -Ex|]. rewrite /= !lookup_alter Es3 /= E0 /=. done. }
  revert E2. rewrite H3. destruct (x_executed p); [done|]. destruct (is_shutdown _).
  { intros [= <- _]. exists c1, c2, b. eexists. split; [done|]. split; [done|]. rewrite /= lookup_alter H3 /=. done. }
  intros [(s3 & [] & E3 & E4)|[(y & _ & ?)|[_ ?]]]%bindS_inv; [|done..]. revert E4. intros [= <- _].
  apply guard_procs in E3. eapply start_procs in E3 as (p' & F1 & F2); [|by rewrite /= lookup_alter H3].
  exists c1, c2, b, p'. split; [done|]. split; [done|]. split; [done|]. by rewrite F2.
Qed.
Lemma running_value a s t : reachable w s -> In t (tasks s) -> match t with TProcInit b | TProcSpawn b _ | TProcConn b _ _ _ | TProcRun b _ _ _ | TProcDelay b _ => b = a | _ => False end ->
  exists p b, procs s !! a = Some p /\ x_respawn p = BV b.
Proof.
  intros Hr Hin Ht. apply elem_of_list_In, elem_of_list_lookup_1 in Hin as [i Hi].
  destruct (task_at w a s i t Hr Hi) as (p & fc & fs & Ep & Ec & Es & _); [by destruct t; simpl; rewrite ?Ht; try apply bool_decide_true|].
  destruct (resp_value w a s p fs Hr Ep Es) as [b Eb]. by exists p, b.
Qed.
Lemma arun_tries a v l v' : arun a v l v' -> resp_known v -> (v_tries v <> 0%Z -> v_resp v = BV true) -> v_tries v' <> 0%Z -> v_resp v' = BV true.
Proof.
  induction 1 as [|v l v' l' v'' Hr IH H]; [done|]. intros Hk Hv. specialize (IH Hk Hv). pose proof (arun_known _ _ _ _ Hr Hk) as Hk'.
  destruct H as [| | |b c Ec Hb| | | | | | | | | | | | | | | |d rc ph Hp Hs Hph| |]; simpl; try done.
  - intros Ht. specialize (IH Ht). by rewrite (Hb _ IH).
  - intros _. move: Hs. rewrite /respawns !andb_true_iff !negb_true_iff. intros [[[_ Hsd] Hr'] _].
    destruct Hk' as [b Eb]; [intros E; by rewrite E in Hsd|]. move: Hr'. rewrite Eb /=. by intros ->.
Qed.
Lemma off_once a s p : reachable w s -> procs s !! a = Some p -> x_respawn p = BV false -> (spawned a (hist s) <= 1)%nat.
Proof.
  intros Hr Ep Eb. pose proof (tries_bound w a s Hr) as Hb. apply (sim_reachable w a) in Hr. rewrite -v_tries_eq in Hb.
  destruct (decide (v_tries (view a s) = 0%Z)) as [E|E]; [rewrite E in Hb; lia|].
  apply arun_tries in Hr; [|by intros []|done|done]. move: Hr. by rewrite /view /key Ep /= Eb.
Qed.
End respawn.
