(** C102: visits have one outcome, and end unless entities are nested without end. *)
From Coq Require Import ssreflect.
From Verif Require Import ExWorld ArgsFacts SpecNesting NestingFacts NestingEnds.

(** C102: the outcome of a visit does not depend on how far the model follows it: once it has ended,
    it ends the same way however much further it might have gone. *)
Theorem C102_visit : forall (w : world) (n m : nat) (e : entity) (s s' : st) (r : res (list nat)),
  visit_all w n e s = (s', r) -> r <> OutOfFuel -> n <= m -> visit_all w m e s = (s', r).
Proof. intros w n m e s s' r E Hr Hm. exact (visit_all_le w n m Hm e s s' r E Hr). Qed.
Print Assumptions C102_visit.

(** C102: so an event is processed to one result only. *)
Theorem C102_event : forall (w : world) (n m : nat) (s s1 s2 : st),
  step w (LEvent n) s = Some s1 -> step w (LEvent m) s = Some s2 -> s1 = s2.
Proof.
  intros w n m s s1 s2 E1 E2. destruct (Nat.le_ge_cases n m) as [H|H].
  - rewrite (event_le w n m s s1 H E1) in E2. by injection E2.
  - rewrite (event_le w m n s s2 H E2) in E1. by injection E1.
Qed.
Print Assumptions C102_event.
Theorem C102_event_more : forall (w : world) (n m : nat) (s s1 : st),
  step w (LEvent n) s = Some s1 -> n <= m -> step w (LEvent m) s = Some s1.
Proof. intros w n m s s1 E H. exact (event_le w n m s s1 H E). Qed.
Print Assumptions C102_event_more.

(** C102: a visit that is followed [n] levels deep and has not ended really goes [n] levels deep: there is an
    entity that is visited [n] levels below the first; or there is, [i] levels below, an include of a file
    whose entities say that they contain entities to the depth that is left. Nothing else keeps a visit from ending. *)
Theorem C102_nested : forall (w : world) (n : nat) (e : entity) (s : st),
  functions_return w -> (visit_all w n e s).2 = OutOfFuel ->
  exists i x s1, below w i e s x s1 /\
  (i = n \/ exists m a c src args, x = EAct a c (AInclude src args) /\ i + S m = n /\ file_deep w s1 src m).
Proof.
  intros w n e s Hw H. destruct (visit_all w n e s) as [s' r] eqn:E. simpl in H. subst r. by eapply visit_nests.
Qed.
Print Assumptions C102_nested.

(** C102: if what is visited is nested less than [n] levels deep and what launch files contain less than [m], the visit ends. *)
Theorem C102_ends : forall (w : world) (n m : nat) (e : entity) (s : st),
  functions_return w -> (forall i x s', below w i e s x s' -> i < n) ->
  (forall i a c src args s', below w i e s (EAct a c (AInclude src args)) s' -> ~ file_deep w s' src m) ->
  (visit_all w (n + m) e s).2 <> OutOfFuel.
Proof. intros w n m e s Hw. by apply visit_ends. Qed.
Print Assumptions C102_ends.

(** C102: a description without includes and functions always comes to an end, whatever it is visited in. *)
Theorem C102_plain : forall (w : world) (n : nat) (e : entity) (s : st),
  functions_return w -> plain n e -> exists s' r, visit_all w (S n) e s = (s', r) /\ r <> OutOfFuel.
Proof.
  intros w n e s Hw Hp. destruct (visit_all w (S n) e s) as [s' r] eqn:E. exists s', r. split; [done|]. intros ->.
  by eapply plain_ends.
Qed.
Print Assumptions C102_plain.

(** The functions of the examples return, and a description with a group in it is plain. *)
Example C102_example : functions_return w0 /\
  plain 2 (ELaunch [EAct (User 1) None (AGroup true true [] [EAct (User 2) None (ALog [SText "x"])]); EAct (User 3) None (AShutdown "done")]) /\
  plain 2 (ELaunch [ELaunch [ex_proc (ex_cfg false None 0)]]).
Proof. split; [done|]. split; repeat first [apply plain_group|apply plain_description|by apply plain_action|constructor]. Qed.

(** An include of a file with a message: its visit goes two levels below, and its contents are flat. *)
Definition flat : list entity := [EAct (User 2) None (ALog [SText "x"])].
Definition w102f : world := mkWorld
  (w_yaml w0) (w_sfun w0) (w_rand w0) (w_cond w0) (w_match w0) (w_tgt w0) (w_pmatch w0) (w_fun w0)
  (fun _ _ _ => Ok flat) (w_loc w0) (w_abspath w0) (w_launchdir w0) (w_shlex w0) (w_rematch w0) (w_output_ok w0).
Lemma flat_below i l s x s' : l = flat -> below w102f i (ELaunch l) s x s' -> i < 2 /\ forall a c src args, x <> EAct a c (AInclude src args).
Proof.
  intros ->. inversion 1 as [|n1 f1 ? ? b1 k1 a1 s1 ts fs s2 ? ? V1 R1 B1]; subst; [by split; [lia|]|].
  injection V1 as _ H1. destruct b1 as [|? [|]]; [|done..]. injection H1 as <- _.
  inversion B1 as [|n2 f2 ? ? b2 k2 a2 s3 ts2 fs2 s4 ? ? V2 R2 B2]; subst; [by split; [lia|]|].
  exfalso. revert V2. rewrite /visit_one {1}/bindS {1}/retS.
  destruct (exec_action w102f f2 _ _ _) as [s5 r5] eqn:E5. intros [= _ ->]. apply simple_none in E5; [|done]. by destruct b2.
Qed.
Example C102_ends_example : functions_return w102f /\
  (forall i x s', below w102f i (EAct (User 1) None (AInclude 1 [])) s0 x s' -> i < 3) /\
  (forall i a c src args s', below w102f i (EAct (User 1) None (AInclude 1 [])) s0 (EAct a c (AInclude src args)) s' -> ~ file_deep w102f s' src 2).
Proof.
  assert (forall fuel s1 subs, visit_one w102f fuel (EAct (User 1) None (AInclude 1 [])) s0 = (s1, Ok subs) -> subs = [ELaunch flat]) as HV.
  { intros fuel s1 subs. rewrite /visit_one {1}/bindS {1}/retS. destruct (exec_action w102f fuel _ _ _) as [s2 r2] eqn:E. intros [= _ ->].
    destruct (include_ok _ _ _ _ _ _ _ _ E) as (loc & ld & ? & ? & ? & _ & _ & HL & -> & _). destruct (HL eq_refl) as [n Hn]. injection Hn as <-. done. }
  assert (forall i x s', below w102f i (EAct (User 1) None (AInclude 1 [])) s0 x s' ->
    (i = 0 /\ x = EAct (User 1) None (AInclude 1 []) /\ s' = s0) \/ (i < 3 /\ forall a c src args, x <> EAct a c (AInclude src args))) as HB.
  { intros i x s'. inversion 1 as [|n1 f1 ? ? b1 k1 a1 s1 ts fs s2 ? ? V1 R1 B1]; subst; [by left|]. right.
    apply HV in V1. destruct b1 as [|? [|]]; [|done..]. injection V1 as -> _. apply flat_below in B1 as [? ?]; [|done]. split; [lia|done]. }
  split; [done|]. split.
  - intros i x s' [(-> & _)|[? _]]%HB; lia.
  - intros i a c src args s' [(-> & [= -> -> -> ->] & ->)|[_ H]]%HB; [|by destruct (H a c src args)].
    intros (ld & c & known & Hc & _ & _ & Hd). destruct Hc as (loc & n & Hc). injection Hc as <-.
    inversion Hd as [|n1 e l l' Hi Hs Hd1]. subst. destruct Hi as [<-|[]].
    assert (l' = []) as ->. { destruct Hs as [->|(ls & Hls & Hi)]; [done|]. injection Hls as <-. done. }
    inversion Hd1 as [|n2 e2 l2 l2' Hi2]. done.
Qed.

(** A launch file that includes itself under a condition that never holds. *)
Definition self : list entity := [EAct (User 2) (Some (CIf [SText "false"])) (AInclude 1 [])].
Definition w102 : world := mkWorld
  (w_yaml w0) (w_sfun w0) (w_rand w0) (w_cond w0) (w_match w0) (w_tgt w0) (w_pmatch w0) (w_fun w0)
  (fun _ _ _ => Ok self) (w_loc w0) (w_abspath w0) (w_launchdir w0) (w_shlex w0) (w_rematch w0) (w_output_ok w0).
Lemma self_endless c known n : known 1 = Some self -> forall cnd nested s,
  (process_entities w102 c known n self cnd nested s).2 = OutOfFuel /\ (process_entities w102 c known n [ELaunch self] cnd nested s).2 = OutOfFuel.
Proof.
  intros Hk. induction n as [n IH] using lt_wf_ind. intros cnd nested s. destruct n as [|n]; [done|].
  split.
  - assert (describe_conditional_sub_entities w102 c known (EAct (User 2) (Some (CIf [SText "false"])) (AInclude 1 [])) = Ok [[ELaunch self]]) as Hd.
    { simpl. by rewrite /try_get_without_context Hk. }
    destruct (entities_cons w102 c known (EAct (User 2) (Some (CIf [SText "false"])) (AInclude 1 [])) [] cnd nested s) as [H|[H|(s1 & nest & H)]].
    + specialize (H 1). exfalso. revert H. cbn [process_entities]. destruct nested; rewrite /bindS /liftS Hd /=; done.
    + specialize (H 1). exfalso. revert H. cbn [process_entities]. destruct nested; rewrite /bindS /liftS Hd /=; done.
    + rewrite /self (H n). rewrite /desc /bindS /liftS. destruct (process_entities w102 c known n (describe_sub_entities _ _ _ _) false nest s1) as [s2 [u|x|]] eqn:E2; [..|done].
      * rewrite Hd. pose proof (proj2 (IH n (Nat.lt_succ_diag_r n) true nest s2)) as H2. destruct (process_entities w102 c known n [ELaunch self] true nest s2) as [s3 r3]. simpl in H2. by subst r3.
      * exfalso. destruct n as [|n]; [done|]. done.
  - destruct (entities_cons w102 c known (ELaunch self) [] cnd nested s) as [H|[H|(s1 & nest & H)]].
    + specialize (H 0). done.
    + specialize (H 0). done.
    + rewrite (H n). rewrite /desc /bindS. pose proof (proj1 (IH n (Nat.lt_succ_diag_r n) false nest s1)) as H1.
      change (describe_sub_entities w102 c known (ELaunch self)) with self.
      destruct (process_entities w102 c known n self false nest s1) as [s3 r3]. simpl in H1. by subst r3.
Qed.
(** C102 (refuted): it is not so that a launch file that includes itself under a condition is fine as long as
    the condition puts an end to it: looking for its arguments, launch follows what it includes whatever the
    conditions say, and never ends (Python gives up with a RecursionError). *)
Theorem C102_condition_refuted : forall n, (visit_all w102 n (EAct (User 1) None (AInclude 1 [])) s0).2 = OutOfFuel.
Proof.
  intros [|n]; [done|]. cbn [visit_all]. rewrite {1}/bindS.
  assert ((visit_one w102 n (EAct (User 1) None (AInclude 1 [])) s0).2 = OutOfFuel) as H.
  { rewrite /visit_one {1}/bindS /retS. cbn [exec_action]. set (s1 := obs1 (OExecuted (User 1)) _).
    rewrite /exec_include {1}/bindS.
    assert (exists s2 loc, get_launch_description w102 1 s1 = (s2, Ok (loc, self)) /\ known_srcs s2 1 = Some self) as (s2 & loc & E & Hk); [|rewrite E].
    { eexists _, _. split; [vm_compute; reflexivity|vm_compute; reflexivity]. }
    clearbody s1. rewrite /bindS {1 2}/modS.
    match goal with |- context [on_ctx ?f ?s] => assert (exists s3, on_ctx f s = (s3, Ok []) /\ known_srcs s3 = known_srcs s2) as (s3 & E3 & K3) end.
    { eexists. split; reflexivity. }
    rewrite E3. rewrite -K3 in Hk.
    destruct (self_endless (cx s3) (known_srcs s3) n Hk false None (mkA [] [])) as [H _].
    rewrite /get_launch_arguments. destruct (process_entities w102 (cx s3) (known_srcs s3) n self false None (mkA [] [])) as [a r]. simpl in H. by subst r. }
  destruct (visit_one w102 n _ s0) as [s1 r1]. simpl in H. by subst r1.
Qed.
Print Assumptions C102_condition_refuted.
