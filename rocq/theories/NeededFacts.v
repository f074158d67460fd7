(** Lemmas for C96. *)
From Coq Require Import ssreflect.
From Verif Require Import StrFacts SubstFacts ExecFacts VisitFacts ActionFacts ArgsFacts SpecNeeded.

Section gen.
Context (w : world) (R : dict string -> dict string -> Prop).
Context (RR : forall x, R x x) (RT : forall x y z, R x y -> R y z -> R x z).
Context (RS : forall c c', sframe c c' -> R (lc c) (lc c')).
Definition keepsS (s s' : st) : Prop := lc_stack (cx s') = lc_stack (cx s) /\ R (lc (cx s)) (lc (cx s')).
Lemma keepsS_refl s s' : lc_stack (cx s') = lc_stack (cx s) -> lc (cx s') = lc (cx s) -> keepsS s s'.
Proof. intros H1 H2. split; [done|]. by rewrite H2. Qed.
Lemma keepsS_trans a b c : keepsS a b -> keepsS b c -> keepsS a c.
Proof. intros [A1 A2] [B1 B2]. split; [congruence|eauto]. Qed.
Lemma keepsS_sframe s c : sframe (cx s) c -> keepsS s (s <| cx := c |>).
Proof. intros F. split; [|by apply RS]. simpl. by rewrite (sf_eq _ _ F). Qed.
(** Actions that do nothing else to the launch configurations, whether they raise or not. *)
Definition leaf (k : action) : Prop := forall fuel a s s1 r, exec_action w fuel a k s = (s1, r) ->
  (forall subs, r = Ok subs -> subs = []) /\ keepsS s s1.
Context (T : entity -> Prop).
Context (HT : forall e, T e -> match e with
  | ELaunch l => Forall T l
  | EAct i c k => match k with
      | AGroup sc fw cfgs body => Forall T body /\ Forall (fun kv => leaf (ASetLC kv.1 kv.2)) cfgs /\
          (sc = true -> fw = false -> leaf (AResetLC (Some cfgs)))
      | _ => leaf k end
  end).

Lemma visit_one_keeps fuel a c k s s1 r : (forall s s1 r, exec_action w fuel a k s = (s1, r) -> keepsS s s1) ->
  visit_one w fuel (EAct a c k) s = (s1, r) -> keepsS s s1.
Proof.
  intros Hk. rewrite visit_one_act. cbv zeta. destruct (cond_result w c (cx s)) as [c1 rc] eqn:Ec.
  assert (sframe (cx s) c1) as F.
  { destruct c as [c|]; simpl in Ec; [by eapply evaluate_frame|]. injection Ec as <- _. apply sframe_refl. }
  pose proof (keepsS_sframe (obs1 (OVisit (EAct a c k)) s) c1 F) as K0.
  assert (keepsS s (obs1 (OVisit (EAct a c k)) s <| cx := c1 |>)) as K by exact K0. clear K0.
  destruct rc as [[]|x|]; [|intros [= <- _]; done..].
  destruct (exec_action _ _ _ _ _) as [s2 r2] eqn:E2. intros [= <- <-].
  eapply keepsS_trans; [exact K|]. apply Hk in E2. eapply keepsS_trans; [exact E2|].
  destruct (same_but_queue_lc _ _ (complete_action_ctx w (EAct a c k) a (obs1 (OExecDone a) s2))) as (E & _ & E' & _).
  apply keepsS_refl; [by rewrite E'|by rewrite E].
Qed.
Lemma visit_one_subs fuel a c k s s1 subs : leaf k -> visit_one w fuel (EAct a c k) s = (s1, Ok subs) -> subs = [].
Proof.
  intros Hk. rewrite visit_one_act. cbv zeta. destruct (cond_result w c (cx s)) as [c1 [[]|x|]]; [|by intros [= _ <-]|done..].
  destruct (exec_action _ _ _ _ _) as [s2 r2] eqn:E2. intros [= _ ->]. by apply (Hk _ _ _ _ _ E2).
Qed.
Lemma visit_leaf a c k s t fs s' : leaf k -> visit_run w (EAct a c k) s t fs s' -> keepsS s s'.
Proof.
  intros Hk (fuel & subs & s1 & kids & gs & E & Hr & -> & ->)%visit_run_inv.
  pose proof (visit_one_subs _ _ _ _ _ _ _ Hk E) as ->. apply visit_runs_nil_inv in Hr as (_ & _ & <-).
  eapply visit_one_keeps; [|exact E]. intros ? ? ? Ex. by apply (Hk _ _ _ _ _ Ex).
Qed.

(** Entities visited one after the other, [d] scopes deep at the beginning and [d'] at the end. *)
Inductive okl : nat -> nat -> list entity -> Prop :=
| ok_nil d : okl d d []
| ok_T d d' e l : T e -> okl d d' l -> okl d d' (e :: l)
| ok_leaf d d' k l : (forall n de ch, k <> ADeclare n de ch) -> leaf k -> okl d d' l -> okl d d' (anon k :: l)
| ok_push d d' l : okl (S d) d' l -> okl d d' (anon APushLC :: l)
| ok_pop d d' l : okl d d' l -> okl (S d) d' (anon APopLC :: l).
Lemma okl_app d d' d2 a b : okl d d' a -> okl d' d2 b -> okl d d2 (a ++ b).
Proof. induction 1; simpl; intros; [done|by econstructor; eauto..]. Qed.
Lemma okl_split a : forall d d2 b, okl d d2 (a ++ b) -> exists d', okl d d' a /\ okl d' d2 b.
Proof.
  induction a as [|e a IH]; intros d d2 b H; [by exists d; split; [constructor|]|].
  inversion H; subst;
    match goal with Hi : okl _ _ (a ++ b) |- _ => destruct (IH _ _ _ Hi) as (d3 & A & B) end;
    exists d3; (split; [by econstructor; eauto|done]).
Qed.
Lemma okl_T d l : Forall T l -> okl d d l.
Proof. induction 1; by constructor. Qed.
Lemma okl_sets d cfgs : Forall (fun kv => leaf (ASetLC kv.1 kv.2)) cfgs -> okl d d (set_lcs cfgs).
Proof. induction 1; simpl; [constructor|by apply ok_leaf]. Qed.
Lemma leaf_env k : In k [APushEnv; APopEnv; AResetEnv] -> leaf k.
Proof.
  intros Hk fuel a s s1 r E. simpl in Hk.
  destruct Hk as [<-|[<-|[<-|[]]]]; simpl in E; rewrite /bindS /modS /retS /on_ctx /= in E.
  - injection E as <- <-. split; [by intros ? [= <-]|]. by apply keepsS_refl.
  - rewrite /pop_env in E. destruct (env_stack (cx s)); injection E as <- <-; (split; [try done; by intros ? [= <-]|]; by apply keepsS_refl).
  - injection E as <- <-. split; [by intros ? [= <-]|]. by apply keepsS_refl.
Qed.
Lemma okl_group sc fw cfgs body : Forall T body -> Forall (fun kv => leaf (ASetLC kv.1 kv.2)) cfgs ->
  (sc = true -> fw = false -> leaf (AResetLC (Some cfgs))) -> okl 0 0 (group_entities sc fw cfgs body).
Proof.
  intros Hb Hc Hr. assert (okl 1 0 [anon APopEnv; anon APopLC]) as He.
  { apply ok_leaf; [done|apply leaf_env; simpl; tauto|]. apply ok_pop. constructor. }
  destruct sc; [destruct fw|]; simpl.
  - apply ok_push. apply ok_leaf; [done|apply leaf_env; simpl; tauto|].
    eapply okl_app; [by apply okl_sets|]. eapply okl_app; [by apply okl_T|done].
  - apply ok_push. apply ok_leaf; [done|apply leaf_env; simpl; tauto|]. apply ok_leaf; [done|apply leaf_env; simpl; tauto|].
    apply ok_leaf; [done|by apply Hr|]. eapply okl_app; [by apply okl_T|done].
  - eapply okl_app; [by apply okl_sets|by apply okl_T].
Qed.

Definition depth (d : nat) (y : dict string) (rest : list (dict string)) (s : st) : Prop :=
  exists G, lc (cx s) :: lc_stack (cx s) = G ++ rest /\ length G = S d /\ Forall (R y) G.
Lemma depth_keeps d y rest s s' : keepsS s s' -> depth d y rest s -> depth d y rest s'.
Proof.
  intros [K1 K2] ([|g G] & E & L & F); [done|]. injection E as E1 E2.
  exists (lc (cx s') :: G). rewrite K1 E2. split; [done|]. split; [done|].
  inversion F; subst. constructor; [by eapply RT|done].
Qed.
Lemma depth_0 s : depth 0 (lc (cx s)) (lc_stack (cx s)) s.
Proof. exists [lc (cx s)]. split; [done|]. split; [done|]. by repeat constructor. Qed.
Lemma depth_0_inv y rest s : depth 0 y rest s -> lc_stack (cx s) = rest /\ R y (lc (cx s)).
Proof.
  intros ([|g [|? G]] & E & L & F); [done| |done]. injection E as E1 E2. subst. inversion F; by subst.
Qed.
Lemma depth_lc d y rest s : depth d y rest s -> R y (lc (cx s)).
Proof. intros ([|g G] & E & L & F); [done|]. injection E as -> _. by inversion F. Qed.
Lemma run_push s t fs s' d y rest : visit_run w (anon APushLC) s t fs s' -> depth d y rest s -> depth (S d) y rest s'.
Proof.
  intros (_ & _ & fuel & s0 & s2 & Ec & E & Q)%visit_run_anon; [|by intros ? ? ? ? [= _ <-]|done].
  simpl in E. injection E as <-. apply same_but_queue_lc in Q as (Q1 & _ & Q2 & _). simpl in Q1, Q2. rewrite Ec in Q1, Q2.
  intros ([|g G] & D1 & L & F); [done|]. injection D1 as D1 D2. exists (g :: g :: G). rewrite Q1 Q2 /= D1 D2.
  split; [done|]. split; [simpl in *; lia|]. inversion F; subst. by repeat constructor.
Qed.
Lemma run_pop s t fs s' d y rest : visit_run w (anon APopLC) s t fs s' -> depth (S d) y rest s -> depth d y rest s'.
Proof.
  intros (_ & _ & fuel & s0 & s2 & Ec & E & Q)%visit_run_anon; [| |done].
  2:{ intros fuel s1 s2 r. simpl. rewrite /bindS /on_ctx /pop_lc. destruct (lc_stack _); [done|]. by intros [= _ <-]. }
  simpl in E. rewrite /bindS /on_ctx /pop_lc Ec in E.
  intros ([|g [|g' G]] & D1 & L & F); [done|done|]. injection D1 as D1 D2. rewrite D2 /= in E. injection E as <-.
  apply same_but_queue_lc in Q as (Q1 & _ & Q2 & _). simpl in Q1, Q2.
  exists (g' :: G). rewrite Q1 Q2. split; [done|]. split; [simpl in *; lia|]. by inversion F.
Qed.
Lemma subs_okl fuel e s s1 subs : T e -> visit_one w fuel e s = (s1, Ok subs) -> keepsS s s1 /\ okl 0 0 subs.
Proof.
  intros He%HT E. destruct e as [l|i c k].
  - injection E as <- <-. split; [by apply keepsS_refl|by apply okl_T].
  - assert (leaf k \/ exists sc fw cfgs body, k = AGroup sc fw cfgs body) as [Hk|(sc & fw & cfgs & body & ->)] by (destruct k; eauto 10).
    + split; [|rewrite (visit_one_subs _ _ _ _ _ _ _ Hk E); constructor].
      eapply visit_one_keeps; [|exact E]. intros ? ? ? Ex. by apply (Hk _ _ _ _ _ Ex).
    + destruct He as (H1 & H2 & H3). split.
      * eapply visit_one_keeps; [|exact E]. intros ? ? ? [= <- _]. by apply keepsS_refl.
      * apply visit_one_group in E as (b & _ & -> & _). destruct b; [by apply okl_group|constructor].
Qed.
Lemma runs_keep :
  (forall e s t fs s', visit_run w e s t fs s' -> T e -> keepsS s s') /\
  (forall l s ts fs s', visit_runs w l s ts fs s' -> forall d d' y rest, okl d d' l -> depth d y rest s -> depth d' y rest s').
Proof.
  apply visit_run_mutind.
  - intros fuel e s subs s1 kids fs s2 E _ IH He. destruct (subs_okl _ _ _ _ _ He E) as [K O].
    eapply keepsS_trans; [exact K|]. by destruct (depth_0_inv _ _ _ (IH _ _ _ _ O (depth_0 s1))).
  - intros s d d' y rest H D. by inversion H; subst.
  - intros e l s t fs s1 ts gs s2 H1 IH1 H2 IH2 d d' y rest H D. inversion H; subst; (eapply IH2; [eassumption|]).
    + eapply depth_keeps; eauto.
    + eapply depth_keeps; [|done]. by eapply visit_leaf.
    + by eapply run_push.
    + by eapply run_pop.
Qed.

(** What stands in a description. *)
Inductive inside : entity -> entity -> Prop :=
| in_here e : inside e e
| in_launch l e e' : In e l -> inside e e' -> inside (ELaunch l) e'
| in_group i c sc fw cfgs body e e' : In e body -> inside e e' -> inside (EAct i c (AGroup sc fw cfgs body)) e'.
Lemma group_in k sc fw cfgs body : In k (group_entities sc fw cfgs body) ->
  In k body \/ exists k', k = anon k' /\ (forall n de ch, k' <> ADeclare n de ch) /\ (forall sc fw cf b, k' <> AGroup sc fw cf b).
Proof.
  assert (In k (set_lcs cfgs) -> exists k', k = anon k' /\ (forall n de ch, k' <> ADeclare n de ch) /\ (forall sc fw cf b, k' <> AGroup sc fw cf b)) as Hs.
  { intros (kv & <- & _)%in_map_iff. by eexists. }
  destruct sc; [destruct fw|]; simpl; rewrite ?in_app_iff /=; intros H;
    repeat match goal with H : _ \/ _ |- _ => destruct H end; subst; try done; first [by left|right; by auto|right; by eexists].
Qed.
Lemma one_raises fuel e s s' x : T e -> visit_one w fuel e s = (s', Exn x) -> keepsS s s'.
Proof.
  intros He%HT E. destruct e as [l|i c k]; [done|].
  eapply visit_one_keeps; [|exact E]. intros s1 s2 r Ex. destruct k; try by apply (He _ _ _ _ _ Ex).
  injection Ex as <- _. by apply keepsS_refl.
Qed.
Lemma last_inv {A} (x y : A) l l' : x :: l = l' ++ [y] -> l <> [] -> exists l2, l = l2 ++ [y].
Proof. destruct l' as [|z l']; simpl; [by intros [= -> ->]|]. intros [= -> ->] _. by exists l'. Qed.
Lemma fails_ne e s vs x s' : visit_fails w e s vs x s' -> vs <> [].
Proof. by destruct 1. Qed.
Lemma fails_keep e s vs x s' : visit_fails w e s vs x s' -> T e ->
  forall i c n de ch vs0, vs = vs0 ++ [EAct i c (ADeclare n de ch)] ->
  R (lc (cx s)) (lc (cx s')) /\ inside e (EAct i c (ADeclare n de ch)).
Proof.
  induction 1 as [fuel e s x s1 E|fuel e s before k after s1 ts fs s2 l x s3 E Hr Hf IH]; intros He i c n de ch vs0 Ev.
  - assert (e = EAct i c (ADeclare n de ch)) as ->.
    { destruct vs0 as [|? [|]]; simpl in Ev; by injection Ev. }
    split; [by apply (one_raises _ _ _ _ _ He E)|constructor].
  - assert (exists l0, l = l0 ++ [EAct i c (ADeclare n de ch)]) as (l0 & ->).
    { apply fails_ne in Hf. destruct (last_inv _ _ _ _ Ev) as (l2 & E2).
      { intros [_ ?]%app_eq_nil. done. }
      destruct (exists_last Hf) as (l1 & z & ->). exists l1. f_equal. rewrite app_assoc in E2.
      apply app_inj_tail in E2 as [_ ->]. done. }
    destruct (subs_okl _ _ _ _ _ He E) as [[K1 K2] O]. apply okl_split in O as (d & O1 & O2).
    pose proof (proj2 runs_keep _ _ _ _ _ Hr _ _ _ _ O1 (depth_0 s1)) as D%depth_lc.
    assert (T k /\ R (lc (cx s2)) (lc (cx s3)) /\ inside k (EAct i c (ADeclare n de ch))) as (Tk & RK & IK).
    { assert (forall k', k = anon k' -> (forall m de ch, k' <> ADeclare m de ch) ->
        (forall fuel a s s1 r, exec_action w fuel a k' s = (s1, r) -> forall subs, r = Ok subs -> subs = []) -> False) as Hx.
      { intros k' Ek N1 H3. inversion Hf; subst.
        - match goal with H : [anon k'] = l0 ++ _ |- _ => rename H into EQ end.
          destruct l0 as [|? [|]]; simpl in EQ; [|done..]. injection EQ as _ _ EQ. by apply N1 in EQ.
        - match goal with Hv : visit_one _ _ (anon k') _ = (_, Ok _) |- _ => apply visit_one_anon in Hv as (? & Hv & _); pose proof (H3 _ _ _ _ _ Hv _ eq_refl) end.
          by destruct before0. }
      inversion O2; subst.
      - split; [done|]. by eapply IH.
      - exfalso. eapply Hx; [done|done|]. intros ? ? ? ? ? Ex. match goal with Hl : leaf _ |- _ => exact (proj1 (Hl _ _ _ _ _ Ex)) end.
      - exfalso. eapply (Hx APushLC); [done|done|]. intros ? ? ? ? ? [= _ <-] ?. by intros [= <-].
      - exfalso. eapply (Hx APopLC); [done|done|]. intros ? ? sx ? r. simpl. rewrite /bindS /retS /on_ctx /pop_lc.
        destruct (lc_stack (cx sx)); simpl; intros Eq subs ->; by simplify_eq. }
    split; [eauto|].
    apply HT in He. destruct e as [ll|i0 c0 k0].
    + injection E as _ E. econstructor; [|exact IK]. rewrite E. apply in_or_app. right. by left.
    + assert (exists sc fw cfgs body, k0 = AGroup sc fw cfgs body) as (sc & fw & cfgs & body & ->).
      { destruct k0; eauto 10; exfalso; apply (visit_one_subs _ _ _ _ _ _ _ He) in E; by destruct before. }
      apply visit_one_group in E as (b & _ & E & _).
      assert (In k (group_entities sc fw cfgs body)) as Hk.
      { destruct b; [rewrite -E; apply in_or_app; right; by left|by destruct before]. }
      apply group_in in Hk as [Hk|(k' & -> & Hk)]; [by econstructor|].
      exfalso. destruct Hk as [N1 N2]. inversion IK; subst; [by eapply (N1 _ _ _ eq_refl)|by eapply (N2 _ _ _ _ eq_refl)].
Qed.
End gen.

(** ** Nothing is taken away *)
Definition grows (x y : dict string) : Prop := forall k, is_Some (x !! k) -> is_Some (y !! k).
Lemma grows_sframe c c' : sframe c c' -> grows (lc c) (lc c').
Proof. intros F k [v Hv]. exists v. by eapply lookup_weaken, sf_sub. Qed.
(** ** One name stays without a value *)
Definition unset (n : string) (x y : dict string) : Prop := x !! n = None -> y !! n = None.
Lemma unset_sframe n c c' : (forall m, n <> ("anon" ++ m)%string) -> sframe c c' -> unset n (lc c) (lc c').
Proof.
  intros Hn F H. destruct (lc c' !! n) eqn:E; [|done]. destruct (sf_new _ _ F n H) as [m Hm]; [by rewrite E|]. by apply Hn in Hm.
Qed.
Section leaves.
Context (w : world) (R : dict string -> dict string -> Prop).
Context (RR : forall x, R x x) (RT : forall x y z, R x y -> R y z -> R x z).
Context (RS : forall c c', sframe c c' -> R (lc c) (lc c')).
Notation leaf := (leaf w R). Notation keepsS := (keepsS R).
Lemma keep_st l s s1 r : perform_st w l s = (s1, r) -> keepsS s s1.
Proof using RR RT RS. intros (c & E & ->)%perform_st_inv. apply keepsS_sframe; [done|]. by eapply perform_substitutions_frames. Qed.
Lemma keep_bind {A B} (m : M A) (f : A -> M B) s s' r : (forall s1 x, m s = (s1, x) -> keepsS s s1) ->
  (forall s1 s2 a x, f a s1 = (s2, x) -> keepsS s1 s2) -> (a <-- m ;; f a) s = (s', r) -> keepsS s s'.
Proof using RR RT RS.
  intros H1 H2 [(s1 & a & E1 & E2)|[(e & E & _)|[E _]]]%bindS_inv; [|by eapply H1..].
  eapply keepsS_trans; eauto.
Qed.
Lemma leaf_log m : leaf (ALog m).
Proof using RR RT RS.
  intros fuel a s s1 r E. split.
  - intros subs ->. revert E. by intros [(s2 & x & _ & [= _ <-])|[(e & _ & ?)|[_ ?]]]%bindS_inv.
  - revert E. apply keep_bind; [intros ? ?; apply keep_st|]. intros s2 s3 x y [= <- _]. by apply keepsS_refl.
Qed.
(** Whatever is put at the place named, if the name is good. *)
Lemma leaf_set (good : string -> Prop) (f : string -> string -> ctx -> ctx) n v k :
  (forall fuel a, exec_action w fuel a k = exec_set w f n v) ->
  (forall s s1 x, perform_st w n s = (s1, Ok x) -> good x) ->
  (forall x y c, good x -> lc_stack (f x y c) = lc_stack c /\ R (lc c) (lc (f x y c))) -> leaf k.
Proof using RR RT RS.
  intros Hk Hg Hf fuel a s s1 r. rewrite Hk. intros E. split.
  - intros subs ->. revert E. intros [(s2 & x & _ & E)|[(e & _ & ?)|[_ ?]]]%bindS_inv; [|done..].
    revert E. by intros [(s3 & y & _ & [= _ <-])|[(e & _ & ?)|[_ ?]]]%bindS_inv.
  - revert E. apply keep_bind; [intros ? ?; apply keep_st|]. intros s2 s3 x y.
    intros [(s4 & z & E1 & E)|[(e & E & _)|[E _]]]%bindS_inv; [|by eapply keep_st..].
    eapply keepsS_trans; [done|by eapply keep_st|]. injection E as <- _. destruct (Hf z x (cx s4) (Hg _ _ _ E1)). by split.
Qed.
Lemma leaf_unset (f : string -> ctx -> ctx) n k :
  (forall fuel a, exec_action w fuel a k = exec_unset w f n) ->
  (forall x c, lc_stack (f x c) = lc_stack c /\ R (lc c) (lc (f x c))) -> leaf k.
Proof using RR RT RS.
  intros Hk Hf fuel a s s1 r. rewrite Hk. intros E. split.
  - intros subs ->. revert E. by intros [(s2 & x & _ & [= _ <-])|[(e & _ & ?)|[_ ?]]]%bindS_inv.
  - revert E. apply keep_bind; [intros ? ?; apply keep_st|]. intros s2 s3 x y [= <- _]. destruct (Hf x (cx s2)). by split.
Qed.
Lemma leaf_append n v p sp : leaf (AAppendEnv n v p sp).
Proof using RR RT RS.
  intros fuel a s s1 r E. split.
  - intros subs ->. revert E. intros [(s2 & x & _ & E)|[(e & _ & ?)|[_ ?]]]%bindS_inv; [|done..].
    revert E. intros [(s3 & y & _ & E)|[(e & _ & ?)|[_ ?]]]%bindS_inv; [|done..].
    revert E. intros [(s4 & z & _ & E)|[(e & _ & ?)|[_ ?]]]%bindS_inv; [|done..].
    revert E. by intros [(s5 & t & _ & [= _ <-])|[(e & _ & ?)|[_ ?]]]%bindS_inv.
  - revert E. apply keep_bind; [intros ? ?; apply keep_st|]. intros s2 s3 x y.
    apply keep_bind; [intros ? ?; apply keep_st|]. intros s4 s5 x1 y1.
    apply keep_bind.
    { intros s6 b. rewrite /on_ctx. destruct (perform_bval w p (cx s4)) as [c r0] eqn:Eb. intros [= <- _].
      apply keepsS_sframe; [done|]. by eapply perform_bval_frame. }
    intros s6 s7 x2 y2. apply keep_bind; [intros ? ?; apply keep_st|]. intros s8 s9 x3 y3 [= <- _].
    apply keepsS_refl; [done|simpl; by destruct (env (cx s8) !! x)..].
Qed.
Lemma leaf_declare n d ch : (forall v c, R (lc c) (lc (set_lc n v c))) -> leaf (ADeclare n d ch).
Proof using RR RT RS.
  intros Hs fuel a s s1 r E. change (exec_declare w n d ch s = (s1, r)) in E. rewrite /exec_declare in E. split.
  - intros subs ->. revert E. intros [(s2 & x & _ & E)|[(e & _ & ?)|[_ ?]]]%bindS_inv; [|done..].
    destruct ch as [ch|]; [|by injection E]. destruct (lc (cx s2) !! n); [|done]. destruct (existsb _ _); [|done]. by injection E.
  - revert E. apply keep_bind.
    + intros s2 x. destruct (lc (cx s) !! n); [intros [= <- _]; by apply keepsS_refl|].
      destruct d as [d|]; [|intros [= <- _]; by apply keepsS_refl].
      apply keep_bind; [intros ? ?; apply keep_st|]. intros s3 s4 v y [= <- _]. split; [done|]. apply Hs.
    + intros s2 s3 x y. destruct ch as [ch|]; [|intros [= <- _]; by apply keepsS_refl].
      destruct (lc (cx s2) !! n); [destruct (existsb _ _)|]; intros [= <- _]; by apply keepsS_refl.
Qed.
End leaves.
Lemma text_name w m s s1 x : perform_st w [SText m] s = (s1, Ok x) -> x = m.
Proof. intros (c & E & _)%perform_st_inv. simpl in E. rewrite /bindS /= in E. injection E as _ <-. by rewrite str_app_nil. Qed.

(** *** Calm descriptions *)
Lemma grows_refl x : grows x x. Proof. by intros k. Qed.
Lemma grows_trans x y z : grows x y -> grows y z -> grows x z. Proof. rewrite /grows. eauto. Qed.
Lemma grows_set n v c : grows (lc c) (lc (set_lc n v c)).
Proof. intros k Hk. simpl. destruct (decide (n = k)) as [->|]; [by rewrite lookup_insert|by rewrite lookup_insert_ne]. Qed.
Lemma calm_ok w e : calm e -> match e with
  | ELaunch l => Forall calm l
  | EAct i c k => match k with
      | AGroup sc fw cfgs body => Forall calm body /\ Forall (fun kv => leaf w grows (ASetLC kv.1 kv.2)) cfgs /\
          (sc = true -> fw = false -> leaf w grows (AResetLC (Some cfgs)))
      | _ => leaf w grows k end
  end.
Proof.
  assert (forall m v, leaf w grows (ASetLC m v)) as Hs.
  { intros m v. eapply (leaf_set _ _ grows_refl grows_trans grows_sframe (fun _ => True)); [intros; reflexivity|done|]. intros. split; [done|apply grows_set]. }
  destruct 1.
  - done.
  - split_and!; [done| |intros; subst; naive_solver]. apply Forall_forall. intros. apply Hs.
  - apply (leaf_declare _ _ grows_refl grows_trans grows_sframe). apply grows_set.
  - apply Hs.
  - apply (leaf_log _ _ grows_refl grows_trans grows_sframe).
  - eapply (leaf_set _ _ grows_refl grows_trans grows_sframe (fun _ => True)); [intros; reflexivity|done|]. intros. split; [done|apply grows_refl].
  - eapply (leaf_unset _ _ grows_refl grows_trans grows_sframe); [intros; reflexivity|]. intros. split; [done|apply grows_refl].
  - apply (leaf_append _ _ grows_refl grows_trans grows_sframe).
Qed.

(** *** Descriptions about other names *)
Section other.
Context (w : world) (n : string) (Hn : forall m, n <> ("anon" ++ m)%string).
Lemma unset_refl x : unset n x x. Proof. by intros ?. Qed.
Lemma unset_trans x y z : unset n x y -> unset n y z -> unset n x z. Proof. rewrite /unset. auto. Qed.
Lemma unset_set m v c : m <> n -> unset n (lc c) (lc (set_lc m v c)).
Proof. intros Hm H. simpl. by rewrite lookup_insert_ne. Qed.
Notation fr := (fun c c' => unset_sframe n c c' Hn).
Lemma leaf_other_set m v : m <> n -> leaf w (unset n) (ASetLC [SText m] v).
Proof.
  intros Hm. eapply (leaf_set _ _ unset_refl unset_trans fr (fun x => x = m)); [intros; reflexivity|by intros; eapply text_name|].
  intros x y c ->. split; [done|by apply unset_set].
Qed.
Lemma eval_others cfgs : Forall (fun kv => exists m, fst kv = [SText m] /\ m <> n) cfgs -> forall acc s s1 r,
  eval_cfgs w cfgs acc s = (s1, r) -> keepsS (unset n) s s1 /\ forall d, r = Ok d -> acc !! n = None -> d !! n = None.
Proof.
  induction 1 as [|[k v] cfgs (m & Hk & Hm) _ IH]; intros acc s s1 r.
  - intros [= <- <-]. split; [by apply (keepsS_refl _ unset_refl)|]. by intros d [= <-].
  - simpl in Hk. subst k. simpl.
    intros [(s2 & x & E1 & E)|[(e & E & ->)|[E ->]]]%bindS_inv; [|split; [by eapply (keep_st w _ unset_refl unset_trans fr)|done]..].
    pose proof (text_name _ _ _ _ _ E1) as ->. apply (keep_st w _ unset_refl unset_trans fr) in E1.
    revert E. intros [(s3 & y & E2 & E)|[(e & E & ->)|[E ->]]]%bindS_inv;
      [|split; [eapply keepsS_trans; [exact unset_trans|done|by eapply (keep_st w _ unset_refl unset_trans fr)]|done]..].
    apply (keep_st w _ unset_refl unset_trans fr) in E2. apply IH in E as [K Hd]. split.
    + eapply keepsS_trans; [exact unset_trans|done|]. by eapply keepsS_trans; [exact unset_trans|..].
    + intros d Ed Ha. apply (Hd d Ed). by rewrite lookup_insert_ne.
Qed.
Lemma leaf_other_reset cfgs : Forall (fun kv => exists m, fst kv = [SText m] /\ m <> n) cfgs -> leaf w (unset n) (AResetLC (Some cfgs)).
Proof.
  intros H fuel a s s1 r. change (exec_action w fuel a (AResetLC (Some cfgs))) with (exec_reset_lc w (Some cfgs)). rewrite /exec_reset_lc.
  intros [(s2 & d & E1 & E)|[(e & E & ->)|[E ->]]]%bindS_inv; [|by split; [done|]; eapply eval_others in E as []..].
  injection E as <- <-. split; [by intros ? [= <-]|]. apply eval_others in E1 as [[K1 K2] Hd]; [|done].
  split; [done|]. intros _. simpl. by apply (Hd d).
Qed.
Lemma others_ok e : others n e -> match e with
  | ELaunch l => Forall (others n) l
  | EAct i c k => match k with
      | AGroup sc fw cfgs body => Forall (others n) body /\ Forall (fun kv => leaf w (unset n) (ASetLC kv.1 kv.2)) cfgs /\
          (sc = true -> fw = false -> leaf w (unset n) (AResetLC (Some cfgs)))
      | _ => leaf w (unset n) k end
  end.
Proof.
  destruct 1.
  - done.
  - split_and!; [done| |intros; by apply leaf_other_reset].
    eapply Forall_impl; [eassumption|]. intros [k v] (m & Hk & Hm). simpl in *. subst. by apply leaf_other_set.
  - apply (leaf_declare _ _ unset_refl unset_trans fr). intros. by apply unset_set.
  - by apply leaf_other_set.
  - eapply (leaf_unset _ _ unset_refl unset_trans fr); [intros; reflexivity|]. intros x c1. split; [done|]. intros H. simpl. by apply lookup_delete_None; right.
  - apply (leaf_log _ _ unset_refl unset_trans fr).
  - eapply (leaf_set _ _ unset_refl unset_trans fr (fun _ => True)); [intros; reflexivity|done|]. intros. split; [done|apply unset_refl].
  - eapply (leaf_unset _ _ unset_refl unset_trans fr); [intros; reflexivity|]. intros. split; [done|apply unset_refl].
  - apply (leaf_append _ _ unset_refl unset_trans fr).
Qed.
Lemma others_leave e s t fs s' : others n e -> visit_run w e s t fs s' -> lc (cx s) !! n = None -> lc (cx s') !! n = None.
Proof.
  intros He H. apply (proj1 (runs_keep w (unset n) unset_refl unset_trans fr (others n) others_ok) _ _ _ _ _ H He).
Qed.

(** The first declaration of [n] has no default, and nothing before it concerns [n]. *)
Inductive needs : list entity -> Prop :=
| nd_here i ch l : needs (EAct i None (ADeclare n None ch) :: l)
| nd_launch l l' : needs l -> needs (ELaunch l :: l')
| nd_group i sc fw body l' : needs body -> needs (EAct i None (AGroup sc fw [] body) :: l')
| nd_later e l : others n e -> needs l -> needs (e :: l).
Lemma needs_app l l' : needs l -> needs (l ++ l').
Proof. induction 1; simpl; by constructor. Qed.
Lemma run_others l : forall s ts fs s', Forall (others n) l -> visit_runs w l s ts fs s' -> lc (cx s) !! n = None -> lc (cx s') !! n = None.
Proof.
  induction l as [|e l IH]; intros s ts fs s' Hl H Hs; inversion H; subst; [done|]. inversion Hl; subst.
  eapply IH; [done|eassumption|]. by eapply others_leave.
Qed.
Lemma leaf_lc k s t fs s' : leaf w (unset n) k -> visit_run w (anon k) s t fs s' -> lc (cx s) !! n = None -> lc (cx s') !! n = None.
Proof. intros Hk H. by destruct (visit_leaf w _ unset_refl unset_trans fr _ _ _ _ _ _ _ Hk H). Qed.
Lemma push_lc_same s t fs s' : visit_run w (anon APushLC) s t fs s' -> lc (cx s) !! n = None -> lc (cx s') !! n = None.
Proof.
  intros (_ & _ & fuel & s0 & s2 & Ec & E & Q)%visit_run_anon; [|by intros ? ? ? ? [= _ <-]|done].
  simpl in E. injection E as <-. apply same_but_queue_lc in Q as (Q1 & _). simpl in Q1. by rewrite Q1 Ec.
Qed.
Lemma needs_fails l : needs l -> forall s ts fs s', visit_runs w l s ts fs s' -> lc (cx s) !! n = None -> False.
Proof.
  induction 1 as [i ch l|l l' _ IH|i sc fw body l' _ IH|e l He _ IH]; intros s ts fs s' H Hs; inversion H; subst;
    match goal with H1 : visit_run _ _ s _ _ _ |- _ => rename H1 into V end.
  - apply visit_run_inv in V as (fuel & subs & s3 & kids & gs3 & E & _). rewrite visit_one_act /= in E.
    rewrite /exec_declare /bindS /= Hs in E. done.
  - apply visit_run_inv in V as (fuel & subs & s3 & kids & gs3 & E & Hr & _). injection E as <- <-. by eapply IH.
  - apply visit_run_inv in V as (fuel & subs & s3 & kids & gs3 & E & Hr & _).
    apply visit_one_group in E as (b & Eb & -> & Q). injection Eb as <-. simpl in Q.
    apply same_but_queue_lc in Q as (Q & _). assert (lc (cx s3) !! n = None) as H3 by by rewrite Q.
    destruct sc; [destruct fw|]; simpl in Hr.
    + inversion Hr; subst. match goal with H1 : visit_runs _ (_ :: _) _ _ _ _ |- _ => inversion H1; subst end.
      match goal with H1 : visit_runs _ (body ++ _) _ _ _ _ |- _ => apply visit_runs_app in H1 as (? & ? & ? & ? & ? & _ & _ & B & _) end.
      eapply IH; [exact B|]. eapply leaf_lc; [apply (leaf_env _ _ unset_refl APushEnv); simpl; tauto|eassumption|]. by eapply push_lc_same.
    + do 4 match goal with H1 : visit_runs _ (_ :: _) _ _ _ _ |- _ => inversion H1; subst; clear H1 end.
      match goal with H1 : visit_runs _ (body ++ _) _ _ _ _ |- _ => apply visit_runs_app in H1 as (? & ? & ? & ? & ? & _ & _ & B & _) end.
      eapply IH; [exact B|]. eapply leaf_lc; [by apply leaf_other_reset|eassumption|].
      eapply leaf_lc; [apply (leaf_env _ _ unset_refl AResetEnv); simpl; tauto|eassumption|].
      eapply leaf_lc; [apply (leaf_env _ _ unset_refl APushEnv); simpl; tauto|eassumption|]. by eapply push_lc_same.
    + by eapply IH.
  - eapply IH; [eassumption|]. by eapply others_leave.
Qed.
End other.

(** ** What the listing says *)
Scheme walk_under_ind2 := Induction for walk_under Sort Prop
  with walk_under_each_ind2 := Induction for walk_under_each Sort Prop.
Combined Scheme walk_under_mut from walk_under_ind2, walk_under_each_ind2.
Section listing.
Context (w : world) (c : ctx) (known : nat -> option (list entity)).
Notation alw := (always w c known). Notation som := (sometimes w c known).
Notation walkd := (walk alw som).
Section name.
Context (n : string).
Lemma others_parts e : others n e -> Forall (others n) (alw e) /\ forall cs, som e = Ok cs -> Forall (Forall (others n)) cs.
Proof.
  destruct 1 as [l Hl|i k sc fw cfgs body _ Hb| | | | | | |]; simpl;
    [| |match goal with x : option cond |- _ => destruct x end; (split; [by constructor|intros cs [= <-]; by repeat constructor])..].
  - split; [done|]. by intros cs [= <-].
  - assert (Forall (others n) (contents w c known (AGroup sc fw cfgs body))) as Hx by (destruct sc, fw; simpl; try done; by constructor).
    destruct k; (split; [done || by constructor|]); intros cs [= <-]; by repeat constructor.
Qed.
Lemma others_walk :
  (forall b l ds, walkd b l ds -> Forall (others n) l -> ~ In n (map li_name ds)) /\
  (forall cs ds, walk_each alw som cs ds -> Forall (Forall (others n)) cs -> ~ In n (map li_name ds)).
Proof.
  apply walk_mut; simpl; try tauto.
  - intros b i k m d ch l ds _ IH Hl. inversion Hl as [|? ? He Hl']; subst. inversion He; subst. intros [?|?]; [done|by apply IH].
  - intros b e l dsub cs dcond ds _ _ _ IH1 Hs _ IH2 _ IH3 Hl. inversion Hl as [|? ? He Hl']; subst. destruct (others_parts _ He) as [H1 H2].
    rewrite !map_app !in_app_iff. intros [?|[?|?]]; [by apply IH1|by apply (IH2 (H2 _ Hs))|by apply IH3].
  - intros l ls ds ds' _ IH1 _ IH2 Hl. inversion Hl; subst. rewrite map_app in_app_iff. intros [?|?]; [by apply IH1|by apply IH2].
Qed.
Lemma group_contents i sc fw body : sc = false \/ fw = true -> alw (EAct i None (AGroup sc fw [] body)) = body.
Proof. destruct sc, fw; naive_solver. Qed.
Lemma unnamed_others b l ds : walkd b l ds -> Forall (undisputed n) l -> ~ In n (map li_name ds) -> Forall (others n) l.
Proof.
  revert b l ds. assert ((forall b l ds, walkd b l ds -> Forall (undisputed n) l -> ~ In n (map li_name ds) -> Forall (others n) l) /\
    (forall cs ds, walk_each alw som cs ds -> True)) as [H _]; [|exact H].
  apply walk_mut; simpl; try done.
  - intros b i k cfgs l Hl _. exfalso. inversion Hl as [|? ? He _]; subst. inversion He as [? Ho| | |]; subst. inversion Ho.
  - intros b i k m d ch l ds _ IH Hl Hn. inversion Hl as [|? ? He Hl']; subst. constructor; [|apply IH; [done|tauto]].
    inversion He; subst; [done|]. exfalso. tauto.
  - intros b e l dsub cs dcond ds Hr Hd _ IH1 Hs _ _ _ IH3 Hl. rewrite !map_app !in_app_iff. intros Hn. inversion Hl as [|? ? He Hl']; subst.
    constructor; [|apply IH3; [done|tauto]]. inversion He as [|i d ch|l0 H0|i sc fw body Hsf H0]; subst.
    + done.
    + by destruct (Hd i None n d ch).
    + constructor. apply IH1; [done|tauto].
    + constructor; [constructor|]. rewrite group_contents // in IH1. apply IH1; [done|tauto].
Qed.
End name.
Lemma in_split_at {A} (d : A) (a b before after : list A) : a ++ b = before ++ d :: after ->
  (exists after', a = before ++ d :: after') \/ (exists before', before = a ++ before' /\ b = before' ++ d :: after).
Proof.
  revert before. induction a as [|x a IH]; intros before E; [by right; exists before|].
  destruct before as [|y before]; simpl in E; injection E as -> E.
  - left. by exists a.
  - destruct (IH _ E) as [(a' & ->)|(b' & -> & ->)]; [left; by exists a'|right; by exists b'].
Qed.
Lemma first_needs n b l ds : walkd b l ds -> Forall (undisputed n) l -> forall before d after, ds = before ++ d :: after ->
  li_name d = n -> li_default d = None -> ~ In n (map li_name before) -> needs n l.
Proof.
  revert b l ds. assert ((forall b l ds, walkd b l ds -> Forall (undisputed n) l -> forall before d after, ds = before ++ d :: after ->
    li_name d = n -> li_default d = None -> ~ In n (map li_name before) -> needs n l) /\
    (forall cs ds, walk_each alw som cs ds -> True)) as [H _]; [|exact H].
  apply walk_mut; simpl; try done.
  - intros _ _ [|] ? ? [=].
  - intros b i k cfgs l _ [|] ? ? [=].
  - intros b i k m d ch l ds _ IH Hl before x after E Hx Hd Hb.
    inversion Hl as [|? ? He' Hl'']; subst. destruct before as [|y before]; simpl in E; injection E as E1 E2.
    + subst. simpl in *. inversion He'; subst; [|by constructor]. match goal with H : others _ _ |- _ => by inversion H end.
    + subst. simpl in Hb. apply nd_later; [|eapply IH; eauto; tauto].
      inversion He'; subst; [done|]. exfalso. apply Hb. by left.
  - intros b e l dsub cs dcond ds Hr Hd W1 IH1 Hs W2 _ _ IH3 Hl before x after E Hx Hdf Hb. inversion Hl as [|? ? He Hl']; subst.
    inversion He as [? Ho|i d ch|l0 H0|i sc fw body Hsf H0]; subst.
    + destruct (others_parts _ _ Ho) as [H1 H2]. apply nd_later; [done|].
      pose proof (proj1 (others_walk _) _ _ _ W1 H1) as N1. pose proof (proj2 (others_walk _) _ _ W2 (H2 _ Hs)) as N2.
      rewrite app_assoc in E. apply in_split_at in E as [(a' & E)|(b' & -> & E)].
      { exfalso. assert (In (li_name x) (map li_name (dsub ++ dcond))) as Hi.
        { rewrite E. apply in_map, in_or_app. right. by left. }
        rewrite map_app in_app_iff in Hi. tauto. }
      eapply IH3; eauto. intros Hi. apply Hb. rewrite map_app in_app_iff. by right.
    + by destruct (Hd i None (li_name x) d ch).
    + simpl in Hs. injection Hs as <-. inversion W2; subst. simpl in E. apply in_split_at in E as [(a' & E)|(b' & -> & E)].
      * apply nd_launch. by eapply IH1.
      * rewrite map_app in_app_iff in Hb. apply nd_later; [|eapply IH3; eauto].
        constructor. eapply unnamed_others; [exact W1|done|tauto].
    + simpl in Hs. injection Hs as <-. inversion W2; subst. simpl in E. rewrite group_contents // in W1, IH1.
      apply in_split_at in E as [(a' & E)|(b' & -> & E)].
      * apply nd_group. by eapply IH1.
      * rewrite map_app in_app_iff in Hb. apply nd_later; [|eapply IH3; eauto].
        constructor; [constructor|]. eapply unnamed_others; [exact W1|done|tauto].
Qed.
Lemma calm_listed :
  (forall b l ds, walkd b l ds -> Forall calm l -> forall e i k n d ch, In e l -> inside e (EAct i k (ADeclare n d ch)) -> In n (map li_name ds)) /\
  (forall cs ds, walk_each alw som cs ds -> Forall (Forall calm) cs ->
     forall l e i k n d ch, In l cs -> In e l -> inside e (EAct i k (ADeclare n d ch)) -> In n (map li_name ds)).
Proof.
  apply walk_mut; simpl; try done.
  - intros b i k cfgs l Hl. exfalso. inversion Hl as [|? ? He _]; subst. inversion He.
  - intros b i k m d ch l ds _ IH Hl e i' k' n d' ch' [<-|He] Hi; inversion Hl; subst; [|right; by eapply IH].
    inversion Hi; subst. by left.
  - intros b e l dsub cs dcond ds Hr Hd _ IH1 Hs _ IH2 _ IH3 Hl e' i k n d ch Hin Hi. rewrite !map_app !in_app_iff.
    inversion Hl as [|? ? He Hl']; subst. destruct Hin as [<-|He']; [|right; right; by eapply IH3].
    inversion Hi as [|l0 e0 ? H0 H1|j k0 sc fw cfgs body e0 ? H0 H1]; subst.
    + by destruct (Hd i k n d ch).
    + left. inversion He; subst. by eapply IH1.
    + inversion He as [|? ? ? ? ? ? Hsf Hb| | | | | |]; subst.
      destruct k0 as [k0|].
      * right. left. assert (som (EAct j (Some k0) (AGroup sc fw cfgs body)) = Ok [body]) as Ec by (destruct sc, fw; naive_solver).
        rewrite Ec in Hs. injection Hs as <-. eapply IH2; [by repeat constructor|by left|done|done].
      * left. assert (alw (EAct j None (AGroup sc fw cfgs body)) = body) as Ec by (destruct sc, fw; naive_solver).
        rewrite Ec in IH1. by eapply IH1.
  - intros l ls ds ds' _ IH1 _ IH2 Hl l0 e i k n d ch Hin He Hi. inversion Hl; subst. rewrite map_app in_app_iff.
    destruct Hin as [<-|Hin]; [left; by eapply IH1|right; by eapply IH2].
Qed.
Lemma under_exists :
  (forall b l ds, walkd b l ds -> forall b', exists ds', walk_under alw som b' l ds') /\
  (forall cs ds, walk_each alw som cs ds -> exists ds', walk_under_each alw som cs ds').
Proof.
  apply walk_mut.
  - intros b b'. eexists. constructor.
  - intros b i k cfgs l b'. eexists. constructor.
  - intros b i k n d ch l ds _ IH b'. destruct (IH b') as [ds' H]. eexists. by constructor.
  - intros b e l dsub cs dcond ds H1 H2 _ IH1 Hs _ [d2 IH2] _ IH3 b'. destruct (IH1 b') as [d1 ?]. destruct (IH3 b') as [d3 ?].
    eexists. by eapply wu_other.
  - eexists. constructor.
  - intros l ls ds ds' _ IH1 _ [d2 IH2]. destruct (IH1 true) as [d1 ?]. eexists. by constructor.
Qed.
Lemma under_less :
  (forall b l ds, walkd b l ds -> forall b' ds', (b = true -> b' = true) -> walk_under alw som b' l ds' -> Forall2 says_less ds ds') /\
  (forall cs ds, walk_each alw som cs ds -> forall ds', walk_under_each alw som cs ds' -> Forall2 says_less ds ds').
Proof.
  apply walk_mut.
  - intros b b' ds' Hb H. inversion H; subst. constructor.
  - intros b i k cfgs l b' ds' Hb H. inversion H; subst; [constructor|]. match goal with X : forall i k cfgs, _ <> _ |- _ => by destruct (X i k cfgs) end.
  - intros b i k n d ch l ds _ IH b' ds' Hb H. inversion H; subst.
    + constructor; [|eapply IH; [|eassumption]; done]. split_and!; [done..|]. simpl. rewrite !orb_true_iff. intros [?|?]; auto.
    + match goal with X : forall i k n d ch, _ <> _ |- _ => by destruct (X i k n d ch) end.
  - intros b e l dsub cs dcond ds H1 H2 _ IH1 Hs _ IH2 _ IH3 b' ds' Hb H. inversion H; subst.
    + by destruct (H1 i k cfgs).
    + by destruct (H2 i k n d ch).
    + match goal with X : som e = Ok ?y, Y : walk_under_each _ _ ?y _ |- _ => assert (y = cs) as -> by congruence end. apply Forall2_app; [eapply IH1; [|eassumption]; done|].
      apply Forall2_app; [by apply IH2|eapply IH3; [|eassumption]; done].
  - intros ds' H. inversion H; subst. constructor.
  - intros l ls ds ds' _ IH1 _ IH2 d' H. inversion H; subst. apply Forall2_app; [eapply IH1; [|eassumption]; done|by apply IH2].
Qed.
Lemma first_less ds ds' : Forall2 says_less ds ds' -> forall seen, Forall2 says_less (first_entries seen ds) (first_entries seen ds').
Proof.
  induction 1 as [|x y ds ds' Hx _ IH]; intros seen; simpl; [constructor|]. pose proof Hx as (En & _). rewrite -En.
  destruct (existsb _ _); [done|]. by constructor.
Qed.
Lemma marks fuel l b a : get_launch_arguments w c known fuel l b = Ok a -> exists ds', walk_under alw som b l ds' /\
  Forall2 says_less (map listed_of (a_decls a)) (first_entries [] ds').
Proof.
  intros (ds & H & ->)%listing_sound. destruct (proj1 under_exists _ _ _ H b) as [ds' H']. exists ds'. split; [done|].
  apply first_less. exact (proj1 under_less _ _ _ H b ds' (fun x => x) H').
Qed.
End listing.

(** ** C96 *)
Lemma required_fails w c known lfuel l a n d fuel s s' fs :
  get_launch_arguments w c known lfuel l false = Ok a -> (forall m, n <> ("anon" ++ m)%string) -> Forall (undisputed n) l ->
  In d (a_decls a) -> dl_name d = n -> dl_default d = None -> lc (cx s) !! n = None ->
  visit_all w fuel (ELaunch l) s <> (s', Ok fs).
Proof.
  intros Hl Hn Hu Hd Hdn Hdd Hs E. apply listing_facts in Hl as (ds & W & _ & _ & Hd2).
  destruct (Hd2 (listed_of d)) as [Hd3 _]. destruct Hd3 as (before & after & Eds & Hb); [by apply in_map|].
  apply (proj1 (visit_all_run w fuel)) in E as [t Ht]. apply visit_run_inv in Ht as (f & subs & s1 & kids & gs & E & Hr & _).
  injection E as <- <-. eapply (needs_fails w n Hn); [|exact Hr|done].
  eapply first_needs; [exact W|done|exact Eds|by destruct d|by destruct d|]. by rewrite -Hdn; destruct d.
Qed.
Lemma given_enough w c known lfuel b l a s vs x s' i k n d ch :
  get_launch_arguments w c known lfuel l b = Ok a -> Forall calm l ->
  (forall m, In m (map dl_name (a_decls a)) -> is_Some (lc (cx s) !! m)) ->
  visit_fails w (ELaunch l) s (vs ++ [EAct i k (ADeclare n d ch)]) x s' -> is_Some (lc (cx s') !! n).
Proof.
  intros Hl Hc Hg Hf. apply listing_facts in Hl as (ds & W & _ & Hn & _).
  destruct (fails_keep w grows grows_refl grows_trans grows_sframe calm (calm_ok w) _ _ _ _ _ Hf (ca_launch _ Hc) _ _ _ _ _ _ eq_refl) as [G I].
  apply G, Hg, Hn. inversion I as [|l0 e e' Hin Hi|]; subst. by eapply (proj1 (calm_listed w c known)).
Qed.
