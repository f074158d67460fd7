(** Lemmas about visiting entities: order, conditions, scopes. *)
From Coq Require Import ssreflect.
From Verif Require Import SubstFacts SpecVisit ExecFacts.

Scheme visit_run_mind := Minimality for visit_run Sort Prop
  with visit_runs_mind := Minimality for visit_runs Sort Prop.
Combined Scheme visit_run_mutind from visit_run_mind, visit_runs_mind.

Section facts.
Context (w : world).

Lemma bindS_inv {S A B} (m : S -> S * res A) (k : A -> S -> S * res B) s s' r :
  (a <-- m ;; k a) s = (s', r) ->
  (exists s1 a, m s = (s1, Ok a) /\ k a s1 = (s', r)) \/
  (exists e, m s = (s', Exn e) /\ r = Exn e) \/ (m s = (s', OutOfFuel) /\ r = OutOfFuel).
Proof. rewrite /bindS. destruct (m s) as [s1 [a|e|]]; intros; simplify_eq; eauto 8. Qed.

Lemma visit_list_cons fuel x l :
  visit_list w fuel (x :: l) = (a <-- visit_all w fuel x ;; b <-- visit_list w fuel l ;; retS (a ++ b)).
Proof. done. Qed.
Lemma visit_all_run fuel :
  (forall e s fs s', visit_all w fuel e s = (s', Ok fs) -> exists t, visit_run w e s t fs s') /\
  (forall l s fs s', visit_list w fuel l s = (s', Ok fs) -> exists ts, visit_runs w l s ts fs s').
Proof.
  induction fuel as [|fuel [IH1 IH2]].
  - split; [done|]. intros [|x l] s fs s'; [|done]. intros [= <- <-]. eexists. constructor.
  - assert (forall e s fs s', visit_all w (S fuel) e s = (s', Ok fs) -> exists t, visit_run w e s t fs s') as H1.
    { intros e s fs s'. rewrite visit_all_eq. intros [(s1 & subs & E1 & E2)|[(?&?&?)|[??]]]%bindS_inv; [|done..].
      apply bindS_inv in E2 as [(s2 & gs & E2 & E3)|[(?&?&?)|[??]]]; [|done..].
      injection E3 as <- <-. destruct (IH2 _ _ _ _ E2) as [ts Hts]. eexists. by econstructor. }
    split; [exact H1|].
    induction l as [|x l IHl]; intros s fs s'.
    + intros [= <- <-]. eexists. constructor.
    + rewrite visit_list_cons. intros [(s1 & a & E1 & E2)|[(?&?&?)|[??]]]%bindS_inv; [|done..].
      apply bindS_inv in E2 as [(s2 & b & E2 & E3)|[(?&?&?)|[??]]]; [|done..]. injection E3 as <- <-.
      destruct (H1 _ _ _ _ E1), (IHl _ _ _ E2). eexists. by econstructor.
Qed.
Lemma visit_all_fails fuel :
  (forall e s x s', visit_all w fuel e s = (s', Exn x) -> exists l, visit_fails w e s l x s') /\
  (forall l s x s', visit_list w fuel l s = (s', Exn x) -> exists before k after s1 ts fs vs,
     l = before ++ k :: after /\ visit_runs w before s ts fs s1 /\ visit_fails w k s1 vs x s').
Proof.
  induction fuel as [|fuel [IH1 IH2]].
  - split; [done|]. by intros [|y l] s x s'.
  - assert (forall e s x s', visit_all w (S fuel) e s = (s', Exn x) -> exists l, visit_fails w e s l x s') as H1.
    { intros e s x s'. rewrite visit_all_eq. intros [(s1 & subs & E1 & E2)|[(y & E1 & ?)|[??]]]%bindS_inv; [| |done].
      - apply bindS_inv in E2 as [(s2 & gs & E2 & E3)|[(y & E2 & ?)|[??]]]; [done| |done].
        simplify_eq. destruct (IH2 _ _ _ _ E2) as (before & k & after & s2 & ts & fs & vs & -> & Hb & Hk).
        eexists. by eapply vf_below.
      - simplify_eq. eexists. by eapply vf_here. }
    split; [exact H1|].
    induction l as [|k l IHl]; intros s x s'; [done|].
    rewrite visit_list_cons. intros [(s1 & a & E1 & E2)|[(y & E1 & ?)|[??]]]%bindS_inv; [| |done].
    + apply bindS_inv in E2 as [(s2 & b & E2 & E3)|[(y & E2 & ?)|[??]]]; [done| |done]. simplify_eq.
      destruct (IHl _ _ _ E2) as (before & k' & after & s2 & ts & fs & vs & -> & Hb & Hk).
      destruct (proj1 (visit_all_run (S fuel)) _ _ _ _ E1) as [t Ht].
      exists (k :: before), k', after. do 4 eexists. split_and!; [done| |exact Hk]. by econstructor.
    + simplify_eq. destruct (H1 _ _ _ _ E1) as [vs Hvs].
      exists [], k, l. do 4 eexists. split_and!; [done|constructor|exact Hvs].
Qed.

(** ** One visit *)
Definition cond_result (c : option cond) (x : ctx) : ctx * res bool :=
  match c with None => (x, Ok true) | Some c => evaluate w c x end.
Lemma st_cx_id (s : st) : s <| cx := cx s |> = s.
Proof. by destruct s. Qed.
Lemma visit_one_act fuel a c k s :
  visit_one w fuel (EAct a c k) s =
  let s0 := obs1 (OVisit (EAct a c k)) s in
  let '(c1, rc) := cond_result c (cx s) in
  let s1 := s0 <| cx := c1 |> in
  match rc with
  | Ok true =>
      let '(s2, r) := exec_action w fuel a k (obs1 (OExecuted a) s1) in
      (complete_action w (EAct a c k) a (obs1 (OExecDone a) s2), r)
  | Ok false => (s1, Ok [])
  | Exn e => (s1, Exn e)
  | OutOfFuel => (s1, OutOfFuel)
  end.
Proof.
  rewrite /visit_one /bindS /cond_result. destruct c as [c|]; simpl.
  - rewrite /on_ctx. change (cx (obs1 (OVisit (EAct a (Some c) k)) s)) with (cx s).
    destruct (evaluate w c (cx s)) as [c1 [[]|e|]]; done.
  - rewrite /retS. change (cx s) with (cx (obs1 (OVisit (EAct a None k)) s)). by rewrite st_cx_id.
Qed.

Lemma cond_holds_result c x : cond_holds w c x -> (cond_result c x).2 = Ok true.
Proof. by destruct c. Qed.
Lemma inner_visited l : Forall (fun o => inner o = true) l -> visited l = [] /\ executed l = [].
Proof.
  induction 1 as [|o l Ho _ [IH1 IH2]]; [done|]. change (o :: l) with ([o] ++ l).
  rewrite visited_app executed_app IH1 IH2. by destruct o.
Qed.
Lemma wf_cx s c : wf s -> wf (s <| cx := c |>).
Proof. done. Qed.
Lemma wf_obs1 o s : wf s -> wf (obs1 o s).
Proof. done. Qed.
Lemma hist_cx s c : hist (s <| cx := c |>) = hist s.
Proof. done. Qed.

(** What one visit logs: the visit, then possibly one execution. *)
Lemma visit_one_log fuel e s s' r : wf s -> visit_one w fuel e s = (s', r) ->
  exists l, hist s' = hist s ++ l /\ visited l = [e] /\
    executed l = match e with
                 | ELaunch _ => []
                 | EAct a c _ => match (cond_result c (cx s)).2 with Ok true => [a] | _ => [] end
                 end.
Proof.
  intros Hw. destruct e as [es|a c k].
  { intros [= <- _]. by exists [OVisit (ELaunch es)]. }
  rewrite visit_one_act /=. destruct (cond_result c (cx s)) as [c1 [[]|e|]]; simpl.
  2-4: intros [= <- _]; by exists [OVisit (EAct a c k)].
  destruct (exec_action w fuel a k _) as [s2 r2] eqn:E. intros [= <- _].
  apply P_exec_action in E. specialize (E Hw). destruct (vf_log _ _ _ _ _ E) as (l1 & H1 & F1 & _).
  destruct (vf_log _ _ _ _ _ (complete_action_frame w (EAct a c k) a (obs1 (OExecDone a) s2))) as (l2 & H2 & F2 & _).
  apply inner_visited in F1 as [V1 X1]. apply inner_visited in F2 as [V2 X2].
  exists ([OVisit (EAct a c k); OExecuted a] ++ l1 ++ [OExecDone a] ++ l2).
  split_and!.
  - rewrite H2 hist_obs1 H1 hist_obs1 hist_cx hist_obs1 -!app_assoc //.
  - by rewrite !visited_app V1 V2.
  - by rewrite !executed_app X1 X2.
Qed.
Lemma visit_one_wf fuel e s s' r : wf s -> visit_one w fuel e s = (s', r) -> wf s'.
Proof. intros Hw E. eapply wf_vframe; [exact Hw|]. by eapply P_visit_one. Qed.

Lemma visit_run_log :
  (forall e s t fs s', visit_run w e s t fs s' -> wf s ->
     wf s' /\ root t = e /\ exists l, hist s' = hist s ++ l /\ visited l = preorder t) /\
  (forall es s ts fs s', visit_runs w es s ts fs s' -> wf s ->
     wf s' /\ map root ts = es /\ exists l, hist s' = hist s ++ l /\ visited l = flat_map preorder ts).
Proof.
  apply visit_run_mutind.
  - intros fuel e s subs s1 kids fs s2 E _ IH Hw. pose proof (visit_one_wf _ _ _ _ _ Hw E) as Hw1.
    destruct (IH Hw1) as (Hw2 & Hr & l & Hl & Hv). destruct (visit_one_log _ _ _ _ _ Hw E) as (l1 & H1 & V1 & _).
    split_and!; [done|done|]. exists (l1 ++ l). by rewrite Hl H1 -app_assoc visited_app V1 Hv.
  - intros s Hw. split_and!; [done|done|]. exists []. by rewrite app_nil_r.
  - intros e es s t fs s1 ts gs s2 _ IH1 _ IH2 Hw.
    destruct (IH1 Hw) as (Hw1 & Hr1 & l1 & Hl1 & Hv1). destruct (IH2 Hw1) as (Hw2 & Hr2 & l2 & Hl2 & Hv2).
    split_and!; [done|simpl; congruence|]. exists (l1 ++ l2). by rewrite Hl2 Hl1 -app_assoc visited_app Hv1 Hv2.
Qed.
Lemma visit_fails_log e s vs x s' : visit_fails w e s vs x s' -> wf s ->
  wf s' /\ exists l, hist s' = hist s ++ l /\ visited l = vs.
Proof.
  induction 1 as [fuel e s x s1 E|fuel e s before k after s1 ts fs s2 l x s3 E Hr _ IH]; intros Hw.
  - destruct (visit_one_log _ _ _ _ _ Hw E) as (l1 & H1 & V1 & _). split; [by eapply visit_one_wf|by exists l1].
  - destruct (visit_one_log _ _ _ _ _ Hw E) as (l1 & H1 & V1 & _).
    destruct (proj2 visit_run_log _ _ _ _ _ Hr (visit_one_wf _ _ _ _ _ Hw E)) as (Hw2 & _ & l2 & H2 & V2).
    destruct (IH Hw2) as (Hw3 & l3 & H3 & V3). split; [done|]. exists (l1 ++ l2 ++ l3).
    by rewrite H3 H2 H1 -!app_assoc !visited_app V1 V2 V3.
Qed.

(** ** Scopes *)
Lemma visit_runs_app es1 es2 s ts fs s' : visit_runs w (es1 ++ es2) s ts fs s' ->
  exists ts1 ts2 fs1 fs2 s1, ts = ts1 ++ ts2 /\ fs = fs1 ++ fs2 /\
    visit_runs w es1 s ts1 fs1 s1 /\ visit_runs w es2 s1 ts2 fs2 s'.
Proof.
  revert s ts fs. induction es1 as [|e es1 IH]; intros s ts fs H; simpl in H.
  - exists [], ts, [], fs, s. split_and!; [done|done|constructor|done].
  - inversion H as [|? ? ? t f1 s1 ts' gs ? H1 H2]; subst.
    destruct (IH _ _ _ H2) as (ts1 & ts2 & fs1 & fs2 & s2 & -> & -> & Ha & Hb).
    exists (t :: ts1), ts2, (f1 ++ fs1), fs2, s2. split_and!; [done|by rewrite app_assoc| |done]. by econstructor.
Qed.
Lemma visit_runs_cons_inv e es s ts fs s' : visit_runs w (e :: es) s ts fs s' ->
  exists t ts' f1 gs s1, ts = t :: ts' /\ fs = f1 ++ gs /\ visit_run w e s t f1 s1 /\ visit_runs w es s1 ts' gs s'.
Proof. intros H. inversion H; subst. eauto 10. Qed.
Lemma visit_runs_nil_inv s ts fs s' : visit_runs w [] s ts fs s' -> ts = [] /\ fs = [] /\ s' = s.
Proof. intros H. by inversion H. Qed.
Lemma visit_run_inv e s t fs s' : visit_run w e s t fs s' ->
  exists fuel subs s1 kids gs, visit_one w fuel e s = (s1, Ok subs) /\ visit_runs w subs s1 kids gs s' /\
    t = VNode e kids /\ fs = gs ++ future_of e s'.
Proof. intros H. inversion H; subst. eauto 12. Qed.

(** An internal action without condition, executed. *)
Lemma visit_one_anon fuel k s s' r : visit_one w fuel (anon k) s = (s', r) ->
  exists s2, exec_action w fuel (Gen 0) k (obs1 (OExecuted (Gen 0)) (obs1 (OVisit (anon k)) s)) = (s2, r) /\
    s' = complete_action w (anon k) (Gen 0) (obs1 (OExecDone (Gen 0)) s2).
Proof.
  rewrite visit_one_act. cbv zeta. simpl cond_result. cbv iota beta.
  change (cx s) with (cx (obs1 (OVisit (EAct (Gen 0) None k)) s)). rewrite st_cx_id.
  destruct (exec_action _ _ _ _ _) as [s2 r2] eqn:E. intros [= <- <-]. exists s2. done.
Qed.
(** ... completing it changes nothing but the queue. *)
Lemma complete_action_ctx e a s : same_but_queue (cx s) (cx (complete_action w e a s)).
Proof.
  rewrite /complete_action /same_but_queue. destruct (would_handle_event _ _ _); [|by destruct (cx s)].
  destruct (get_future e s); [simpl; by destruct (cx s)|]. simpl. by destruct (cx s).
Qed.
Lemma same_but_queue_lc c c' : same_but_queue c c' ->
  lc c' = lc c /\ env c' = env c /\ lc_stack c' = lc_stack c /\ env_stack c' = env_stack c /\ env_reset c' = env_reset c.
Proof. intros ->. done. Qed.
Lemma visit_run_anon k s t fs s' :
  visit_run w (anon k) s t fs s' ->
  (forall fuel s1 s2 r, exec_action w fuel (Gen 0) k s1 = (s2, Ok r) -> r = []) ->
  (forall s, get_future (anon k) s = None) ->
  t = VNode (anon k) [] /\ fs = [] /\ exists fuel s0 s2,
    cx s0 = cx s /\ exec_action w fuel (Gen 0) k s0 = (s2, Ok []) /\ same_but_queue (cx s2) (cx s').
Proof.
  intros (fuel & subs & s1 & kids & gs & E & Hr & -> & ->)%visit_run_inv Hk Hf.
  apply visit_one_anon in E as (s2 & E & ->). pose proof (Hk _ _ _ _ E) as ->.
  apply visit_runs_nil_inv in Hr as (-> & -> & ->). rewrite /future_of Hf. split_and!; [done..|].
  eexists fuel, _, s2. split_and!; [|exact E|]; [done|].
  exact (complete_action_ctx (anon k) (Gen 0) (obs1 (OExecDone (Gen 0)) s2)).
Qed.
Lemma visit_push_lc s t fs s' : visit_run w (anon APushLC) s t fs s' ->
  t = VNode (anon APushLC) [] /\ fs = [] /\ same_but_queue (push_lc (cx s)) (cx s').
Proof.
  intros (-> & -> & fuel & s0 & s2 & Hc & E & Hs)%visit_run_anon; [|by intros ??? ? [= _ <-]|done].
  split_and!; [done..|]. injection E as <-. by rewrite /= Hc in Hs.
Qed.
Lemma visit_push_env s t fs s' : visit_run w (anon APushEnv) s t fs s' ->
  t = VNode (anon APushEnv) [] /\ fs = [] /\ same_but_queue (push_env (cx s)) (cx s').
Proof.
  intros (-> & -> & fuel & s0 & s2 & Hc & E & Hs)%visit_run_anon; [|by intros ??? ? [= _ <-]|done].
  split_and!; [done..|]. injection E as <-. by rewrite /= Hc in Hs.
Qed.
Lemma visit_pop_lc s t fs s' : visit_run w (anon APopLC) s t fs s' ->
  t = VNode (anon APopLC) [] /\ fs = [] /\ exists l r, lc_stack (cx s) = l :: r /\
    same_but_queue (cx s <| lc := l |> <| lc_stack := r |>) (cx s').
Proof.
  intros (-> & -> & fuel & s0 & s2 & Hc & E & Hs)%visit_run_anon; [| |done].
  - split_and!; [done..|]. rewrite /= /bindS /on_ctx /pop_lc Hc in E.
    destruct (lc_stack (cx s)) as [|l r] eqn:El; [done|]. injection E as <-. by exists l, r.
  - intros fuel s1 s2 r. rewrite /= /bindS. destruct (on_ctx pop_lc s1) as [? [u|x|]]; by intros [=].
Qed.
Lemma visit_pop_env s t fs s' : visit_run w (anon APopEnv) s t fs s' ->
  t = VNode (anon APopEnv) [] /\ fs = [] /\ exists l r, env_stack (cx s) = l :: r /\
    same_but_queue (cx s <| env := l |> <| env_stack := r |>) (cx s').
Proof.
  intros (-> & -> & fuel & s0 & s2 & Hc & E & Hs)%visit_run_anon; [| |done].
  - split_and!; [done..|]. rewrite /= /bindS /on_ctx /pop_env Hc in E.
    destruct (env_stack (cx s)) as [|l r] eqn:El; [done|]. injection E as <-. by exists l, r.
  - intros fuel s1 s2 r. rewrite /= /bindS. destruct (on_ctx pop_env s1) as [? [u|x|]]; by intros [=].
Qed.

(** What a scoped group visits between its pushes and its pops. *)
Definition group_middle (fw : bool) (cfgs : list (list subst * list subst)) (body : list entity) : list entity :=
  if fw then set_lcs cfgs ++ body else [anon AResetEnv; anon (AResetLC (Some cfgs))] ++ body.
Lemma group_entities_middle fw cfgs body :
  group_entities true fw cfgs body =
  [anon APushLC; anon APushEnv] ++ group_middle fw cfgs body ++ [anon APopEnv; anon APopLC].
Proof. destruct fw; simpl; by rewrite -?app_assoc. Qed.

Lemma group_runs fw cfgs body s ts fs s' :
  visit_runs w (group_entities true fw cfgs body) s ts fs s' ->
  exists mid s1 fsm s2,
    ts = [VNode (anon APushLC) []; VNode (anon APushEnv) []] ++ mid ++
         [VNode (anon APopEnv) []; VNode (anon APopLC) []] /\
    same_but_queue (push_env (push_lc (cx s))) (cx s1) /\ (wf s -> wf s1) /\
    visit_runs w (group_middle fw cfgs body) s1 mid fsm s2 /\
    (same_stacks s1 s2 -> lc (cx s') = lc (cx s) /\ env (cx s') = env (cx s) /\ same_stacks s s').
Proof.
  rewrite group_entities_middle.
  intros (ts1 & ts2 & fs1 & fs2 & s1 & -> & -> & H1 & H2)%visit_runs_app.
  apply visit_runs_app in H2 as (tm & te & fm & fe & s2 & -> & -> & Hm & He).
  apply visit_runs_cons_inv in H1 as (t1 & ts' & f1 & g1 & sa & -> & -> & Hp1 & H1).
  apply visit_runs_cons_inv in H1 as (t2 & ts'' & f2 & g2 & sb & -> & -> & Hp2 & H1).
  apply visit_runs_nil_inv in H1 as (-> & -> & ->).
  apply visit_runs_cons_inv in He as (t3 & ts' & f3 & g3 & sc & -> & -> & Hp3 & He).
  apply visit_runs_cons_inv in He as (t4 & ts'' & f4 & g4 & sd & -> & -> & Hp4 & He).
  apply visit_runs_nil_inv in He as (-> & -> & ->).
  assert (wf s -> wf sb) as Hwf.
  { intros Hw. apply visit_run_log in Hp1 as [Hw1 _]; [|done]. by apply visit_run_log in Hp2 as [Hw2 _]. }
  apply visit_push_lc in Hp1 as (-> & -> & Q1). apply visit_push_env in Hp2 as (-> & -> & Q2).
  apply visit_pop_env in Hp3 as (-> & -> & le & re & Le & Q3).
  apply visit_pop_lc in Hp4 as (-> & -> & ll & rl & Ll & Q4).
  exists tm, sb, fm, s2. split_and!; [done| |done|done|].
  - rewrite /same_but_queue in Q1 Q2 *. rewrite {1}Q2 Q1. by destruct (cx s).
  - intros [S1 S2]. rewrite Q1 in Q2. rewrite Q2 /= in S1 S2. rewrite S2 in Le. injection Le as <- <-.
    rewrite Q3 /= S1 in Ll. injection Ll as <- <-. rewrite /same_stacks Q4 /= Q3 /=. done.
Qed.

Lemma no_raw_inv t : no_raw t ->
  (exists a c fw cfgs body mid, Forall no_raw mid /\
     t = VNode (EAct a c (AGroup true fw cfgs body))
              ([VNode (anon APushLC) []; VNode (anon APushEnv) []] ++ mid ++
               [VNode (anon APopEnv) []; VNode (anon APopLC) []])) \/
  (exists e kids, t = VNode e kids /\ visit_push_pop e = false /\ Forall no_raw kids).
Proof.
  destruct 1 as [a c fw cfgs body mid H|e kids H1 H2]; [left; eauto 10|right].
  exists e, kids. split_and!; [done| |done]. destruct e as [|a c k]; [done|].
  destruct (H1 a c k eq_refl) as (?&?&?&?). by destruct k.
Qed.
Lemma same_stacks_refl s : same_stacks s s.
Proof. done. Qed.
Lemma same_stacks_trans a b c : same_stacks a b -> same_stacks b c -> same_stacks a c.
Proof. intros [??] [??]. split; congruence. Qed.

Lemma visit_one_stacks fuel e s s1 r : wf s -> visit_push_pop e = false ->
  visit_one w fuel e s = (s1, r) -> same_stacks s s1.
Proof.
  intros Hw He E. apply P_visit_one in E. specialize (E Hw). rewrite He in E.
  by apply (vf_stacks _ _ _ _ _ E).
Qed.
Lemma app_inj_sides {A} (a b : A) (c d : A) (m m' : list A) :
  [a; b] ++ m ++ [c; d] = [a; b] ++ m' ++ [c; d] -> m = m'.
Proof. intros [= H]. by apply (inj (.++ [c; d])) in H. Qed.
Lemma visit_one_group fuel a c sc fw cfgs body s s1 subs : visit_one w fuel (EAct a c (AGroup sc fw cfgs body)) s = (s1, Ok subs) ->
  exists b, (cond_result c (cx s)).2 = Ok b /\ subs = (if b then group_entities sc fw cfgs body else []) /\
    same_but_queue (cond_result c (cx s)).1 (cx s1).
Proof.
  rewrite visit_one_act. cbv zeta. destruct (cond_result c (cx s)) as [c1 [b|x|]]; [|done..].
  intros H. exists b. split; [done|]. destruct b.
  - rewrite /= /retS in H. injection H as <- <-. split; [done|].
    exact (complete_action_ctx (EAct a c (AGroup sc fw cfgs body)) a (obs1 (OExecDone a) (obs1 (OExecuted a) (obs1 (OVisit (EAct a c (AGroup sc fw cfgs body))) s <| cx := c1 |>)))).
  - injection H as <- <-. split; [done|]. rewrite /same_but_queue /=. by destruct c1.
Qed.

Lemma visit_run_stacks_n n :
  (forall e s t fs s', length (preorder t) <= n -> visit_run w e s t fs s' -> wf s -> no_raw t -> same_stacks s s')%nat /\
  (forall es s ts fs s', length (flat_map preorder ts) <= n -> visit_runs w es s ts fs s' -> wf s ->
     Forall no_raw ts -> same_stacks s s')%nat.
Proof.
  induction n as [|n [IH1 IH2]].
  { split.
    - intros e s [] fs s'; simpl; lia.
    - intros es s ts fs s' Hn Hr _ _. destruct es as [|e es].
      + by apply visit_runs_nil_inv in Hr as (-> & -> & ->).
      + apply visit_runs_cons_inv in Hr as ([] & ts' & ? & ? & ? & -> & _). simpl in Hn. lia. }
  assert (forall e s t fs s', length (preorder t) <= S n -> visit_run w e s t fs s' -> wf s -> no_raw t -> same_stacks s s')%nat as H1.
  { intros e s t fs s' Hn Hr Hw Ht.
    apply visit_run_inv in Hr as (fuel & subs & s1 & kids & gs & E & Hr & -> & ->).
    pose proof (visit_one_wf _ _ _ _ _ Hw E) as Hw1.
    simpl in Hn.
    apply no_raw_inv in Ht as [(a & c & fw & cfgs & body & mid & Hmid & [= -> ->])|(e' & kids' & [= <- <-] & He & Hk)].
    - assert (same_stacks s s1) as S1 by (eapply visit_one_stacks; [exact Hw| |exact E]; done).
      apply visit_one_group in E as (b & _ & -> & _). destruct b.
      + apply group_runs in Hr as (mid' & s2 & fsm & s3 & Heq & _ & Hw2 & Hm & Hres).
        apply app_inj_sides in Heq as <-.
        eapply same_stacks_trans; [exact S1|]. apply Hres. eapply IH2; [|exact Hm|auto|done].
        simpl in Hn. rewrite flat_map_app app_length in Hn. lia.
      + by apply visit_runs_nil_inv in Hr as (? & _ & ->).
    - eapply same_stacks_trans; [by eapply visit_one_stacks|]. eapply IH2; [|exact Hr|done|done]. lia. }
  split; [exact H1|].
  induction es as [|e es IHes]; intros s ts fs s' Hn Hr Hw HF.
  - by apply visit_runs_nil_inv in Hr as (-> & -> & ->).
  - apply visit_runs_cons_inv in Hr as (t & ts' & f1 & gs & s1 & -> & -> & Ht & Hts).
    apply Forall_cons in HF as [F1 F2]. simpl in Hn. rewrite app_length in Hn.
    eapply same_stacks_trans; [eapply H1; [|exact Ht|done|done]; lia|].
    eapply IHes; [|exact Hts| |done]; [lia|]. by apply visit_run_log in Ht as [? _].
Qed.
Lemma visit_run_stacks e s t fs s' : visit_run w e s t fs s' -> wf s -> no_raw t -> same_stacks s s'.
Proof. by apply (visit_run_stacks_n (length (preorder t))). Qed.
Lemma visit_runs_stacks es s ts fs s' : visit_runs w es s ts fs s' -> wf s -> Forall no_raw ts -> same_stacks s s'.
Proof. by apply (visit_run_stacks_n (length (flat_map preorder ts))). Qed.

(** C01 *)
Lemma group_restores a c fw cfgs body s t fs s' :
  wf s -> visit_run w (EAct a c (AGroup true fw cfgs body)) s t fs s' -> no_raw t ->
  lc (cx s') = lc (after_cond w c (cx s)) /\ env (cx s') = env (after_cond w c (cx s)) /\ same_stacks s s'.
Proof.
  intros Hw Hr Ht. pose proof (visit_run_stacks _ _ _ _ _ Hr Hw Ht) as HS.
  apply visit_run_inv in Hr as (fuel & subs & s1 & kids & gs & E & Hr & -> & ->).
  pose proof (visit_one_wf _ _ _ _ _ Hw E) as Hw1.
  apply visit_one_group in E as (b & _ & -> & Hc).
  assert (lc (cx s1) = lc (after_cond w c (cx s)) /\ env (cx s1) = env (after_cond w c (cx s))) as [<- <-].
  { rewrite Hc. rewrite /cond_result /after_cond. by destruct c. }
  destruct b.
  - apply group_runs in Hr as (mid & s2 & fsm & s3 & -> & _ & Hw2 & Hm & Hres).
    destruct Hres as (-> & -> & _); [|done].
    eapply visit_runs_stacks; [exact Hm|auto|].
    apply no_raw_inv in Ht as [(a' & c' & fw' & cfgs' & body' & mid' & Hmid & Heq)|(e' & kids' & [= <- <-] & He & Hk)].
    + injection Heq as <- <- <- <- <- Heq. by apply app_inv_tail in Heq as <-.
    + apply Forall_cons in Hk as [Hk _]. apply no_raw_inv in Hk as [(?&?&?&?&?&?&?&?)|(?&?&[= <- <-]&?&?)]; done.
  - by apply visit_runs_nil_inv in Hr as (? & _ & ->).
Qed.

(** ** Descriptions without Push and Pop actions *)
Definition yields {A} (Q : A -> Prop) (m : st -> st * res A) : Prop :=
  forall s s' a, m s = (s', Ok a) -> Q a.
Lemma yields_ret {A} (Q : A -> Prop) a : Q a -> yields Q (retS a).
Proof. by intros H s s' a' [= _ <-]. Qed.
Lemma yields_raise {A} (Q : A -> Prop) e : yields Q (raiseS e).
Proof. by intros s s' a'. Qed.
Lemma yields_bind {A B} (Q : B -> Prop) (m : st -> st * res A) (k : A -> st -> st * res B) :
  (forall a, yields Q (k a)) -> yields Q (bindS m k).
Proof. intros Hk s s' b. intros [(s1 & a & _ & E)|[(?&?&?)|[??]]]%bindS_inv; [|done..]. by eapply Hk. Qed.
Lemma yields_need_loop {A} (Q : A -> Prop) m : yields Q m -> yields Q (need_loop m).
Proof. intros H s s' a. rewrite /need_loop. destruct (loop_set (cx s)); [apply H|done]. Qed.
Ltac ys := repeat first [ apply yields_ret; repeat constructor | apply yields_raise | apply yields_bind; intros ? ].

Lemma clean_set_lcs cfgs : Forall clean (set_lcs cfgs).
Proof. apply Forall_forall. intros e. rewrite /set_lcs. intros [[k v] [-> _]]%elem_of_list_fmap. by constructor. Qed.
Lemma shutdown_process_clean a b : yields (Forall clean) (shutdown_process a b).
Proof.
  intros s0 s' l. rewrite /shutdown_process. generalize (obs1 (OAsked a) s0). clear s0. intros s.
  destruct (procs s !! a) as [p|]; [|intros [= _ <-]; constructor].
  destruct (x_shutdown p) as [sf|]; [|intros [= _ <-]; constructor].
  destruct (f_is_done sf s); [intros [= _ <-]; constructor|].
  match goal with |- ?m = _ -> _ => assert (exists m', yields (Forall clean) m' /\ m = m' s) as (m' & HP & ->); [|apply HP] end.
  destruct (x_completed p) as [cf|]; [|eexists; split; [|done]; ys].
  destruct (f_is_done cf s); [eexists; split; [|done]; ys|].
  destruct (x_det p) as [d|]; [destruct (x_transport p) as [tr|]|].
  - eexists; split; [|done]. ys. destruct b; by repeat constructor.
  - eexists; split; [|done]. ys.
  - eexists; split; [|done]. ys.
Qed.
Lemma get_ld_clean src s s' x : clean_world w -> clean_sources s ->
  get_launch_description w src s = (s', Ok x) -> Forall clean x.2.
Proof.
  intros [_ Hw] Hs. rewrite /get_launch_description.
  intros [(s1 & loc & E1 & E2)|[(?&?&?)|[??]]]%bindS_inv; [|done..].
  assert (clean_sources s1) as Hs1.
  { destruct (srcs s !! src) as [[[l|] ld]|] eqn:Ex; [by simplify_eq| |].
    all: apply bindS_inv in E1 as [(s2 & l & E1 & E3)|[(?&?&?)|[??]]]; [|done..].
    all: assert (srcs s2 = srcs s) as Es2
      by (rewrite /perform_st /on_ctx in E1; destruct (perform_substitutions w _ _); by simplify_eq).
    all: rewrite /bindS /modS /retS /= in E3; injection E3 as <- _.
    all: intros src' loc' ld'; simpl; rewrite Es2; (destruct (decide (src' = src)) as [->|Hne];
         [rewrite lookup_insert; intros [= _ ->]; by eapply Hs|rewrite lookup_insert_ne //; apply Hs]). }
  destruct (srcs s1 !! src) as [[l [ld|]]|] eqn:Ex.
  - injection E2 as <- <-. by eapply Hs1.
  - destruct (w_load w src loc _) as [ld'|e|] eqn:El; [|done..]. injection E2 as <- <-. by eapply Hw.
  - destruct (w_load w src loc _) as [ld'|e|] eqn:El; [|done..]. injection E2 as <- <-. by eapply Hw.
Qed.
Lemma exec_proc_clean a c oe : yields (Forall clean) (exec_proc w a c oe).
Proof.
  rewrite /exec_proc. apply yields_bind; intros _. apply yields_bind; intros _. intros s1 s2 l.
  destruct (procs s1 !! a) as [p|]; [|done]. destruct (x_executed p); [done|].
  destruct (is_shutdown _); [intros [= _ <-]; constructor|].
  match goal with |- ?m ?s5 = _ -> _ => assert (yields (Forall clean) m) as HP; [|apply HP] end. ys.
Qed.
Lemma exec_action_clean fuel a c k s s' subs :
  clean_world w -> clean_sources s -> clean (EAct a c k) ->
  exec_action w fuel a k s = (s', Ok subs) ->
  match k with AGroup true _ _ _ => True | _ => Forall clean subs end.
Proof.
  intros Hw Hs Hc.
  assert (forall n v f, yields (Forall clean) (exec_set w f n v)) as Hset by (intros; rewrite /exec_set; ys).
  assert (forall n f, yields (Forall clean) (exec_unset w f n)) as Hunset by (intros; rewrite /exec_unset; ys).
  destruct k; simpl.
  all: try solve [match goal with |- ?m ?s9 = _ -> _ => assert (yields (Forall clean) m) as HP; [|apply HP] end; auto; ys].
  all: try solve [by inversion Hc].
  - match goal with |- ?m s = _ -> _ => assert (yields (Forall clean) m) as HP; [|apply HP] end.
    rewrite /exec_reset_lc. destruct cfgs; ys.
  - match goal with |- ?m s = _ -> _ => assert (yields (Forall clean) m) as HP; [|apply HP] end.
    rewrite /exec_declare. apply yields_bind. intros _. destruct choices; ys.
    intros s1 s2 l9. destruct (lc (cx s1) !! n); [|done]. destruct (existsb _ _); [|done]. intros [= _ <-]. constructor.
  - intros [= _ <-]. destruct scoped; [done|]. simpl. apply Forall_app; split; [apply clean_set_lcs|].
    inversion Hc; subst; done.
  - rewrite /exec_include. intros [(s1 & x & E1 & E2)|[(?&?&?)|[??]]]%bindS_inv; [|done..].
    apply get_ld_clean in E1; [|done..]. destruct x as [loc ld]. simpl in *.
    revert E2. match goal with |- ?m s1 = _ -> _ => assert (yields (Forall clean) m) as HP; [|apply HP] end.
    ys. apply Forall_app; split; [apply clean_set_lcs|]. repeat constructor. done.
  - rewrite /call_user. destruct (w_fun w fid (cx s)) as [ops r] eqn:E. intros [= _ ->].
    by eapply (proj1 Hw).
  - match goal with |- ?m s = _ -> _ => assert (yields (Forall clean) m) as HP; [|apply HP] end.
    rewrite /exec_timer. apply yields_need_loop. intros s1 s2 l.
    destruct (new_future s1) as [s3 f3]. destruct (new_future s3) as [s4 f4].
    destruct (match timers s4 !! a with Some t => t_canceled t | None => false end).
    + destruct (set_result _ _) as [s5 [u|e|]]; simpl; [|done..]. intros [= _ <-]. constructor.
    + match goal with |- ?m ?s5 = _ -> _ => assert (yields (Forall clean) m) as HP; [|apply HP] end. ys.
  - apply exec_proc_clean.
  - match goal with |- ?m s = _ -> _ => assert (yields (Forall clean) m) as HP; [|apply HP] end.
    rewrite /exec_coro. apply yields_need_loop. intros s1 s2 l. destruct (new_future s1) as [s3 f3].
    match goal with |- ?m ?s5 = _ -> _ => assert (yields (Forall clean) m) as HP; [|apply HP] end. ys.
  - match goal with |- ?m s = _ -> _ => assert (yields (Forall clean) m) as HP; [|apply HP] end.
    rewrite /exec_test. intros s1 s2 l. intros [(s3 & l3 & E3 & E4)|[(?&?&?)|[??]]]%bindS_inv; [|done..].
    apply exec_proc_clean in E3. revert E4. match goal with |- ?m s3 = _ -> _ => assert (yields (Forall clean) m) as HP; [|apply HP] end.
    assert (yields (Forall clean) (retS l3)) as H3 by (intros s4 s5 x [= _ <-]; exact E3).
    destruct timeout; [|exact H3]. destruct (no_timeout _); [exact H3|]. do 3 (apply yields_bind; intros ?). intros s4 s5 x [= _ <-]. destruct l3; repeat constructor.
  - match goal with |- ?m s = _ -> _ => assert (yields (Forall clean) m) as HP; [|apply HP] end.
    rewrite /exec_proc_shutdown. apply yields_bind; intros []; try apply yields_raise.
    apply yields_bind; intros []; [|ys]. apply shutdown_process_clean.
  - match goal with |- ?m s = _ -> _ => assert (yields (Forall clean) m) as HP; [|apply HP] end.
    rewrite /exec_proc_signal. apply yields_bind; intros []; try apply yields_raise.
    apply yields_bind; intros []; [|ys]. intros s1 s2 l. destruct (procs s1 !! a0) as [p|]; [|done].
    destruct (x_det p), (x_transport p); try done. destruct (f_is_done _ _); intros [= _ <-]; constructor.
  - apply shutdown_process_clean.
Qed.

Lemma clean_sources_vframe q b s s' : clean_world w -> clean_sources s -> gframe w q b s s' -> clean_sources s'.
Proof.
  intros [_ Hw] Hs HF src loc ld Hl.
  destruct (vf_srcs _ _ _ _ _ HF src ld) as [H|(loc' & n & H)].
  - by rewrite /known_srcs Hl.
  - rewrite /known_srcs in H. destruct (srcs s !! src) as [[? ?]|] eqn:E; [|done]. subst. by eapply Hs.
  - by eapply Hw.
Qed.
Lemma visit_one_clean fuel e s s1 subs : wf s -> clean_world w -> clean_sources s -> clean e ->
  visit_one w fuel e s = (s1, Ok subs) ->
  Forall clean subs \/ exists a c fw cfgs body, e = EAct a c (AGroup true fw cfgs body) /\
     Forall clean body /\ subs = group_entities true fw cfgs body.
Proof.
  intros Hwf Hw Hs He E. destruct e as [l|a c k].
  { left. injection E as _ <-. by inversion He. }
  rewrite visit_one_act in E. cbv zeta in E. destruct (cond_result c (cx s)) as [c1 [[]|x|]]; [| |done..].
  2: { injection E as _ <-. left. constructor. }
  destruct (exec_action w fuel a k _) as [s2 r] eqn:Ex. injection E as <- ->.
  assert (match k with AGroup true _ _ _ => True | _ => Forall clean subs end) as HF.
  { by eapply exec_action_clean; [| |exact He|exact Ex]. }
  destruct k; try (by left). destruct scoped; [|by left]. right.
  injection Ex as _ <-. inversion He; subst; [|done]. eauto 10.
Qed.
Lemma visit_run_clean : clean_world w ->
  (forall e s t fs s', visit_run w e s t fs s' -> wf s -> clean_sources s ->
     clean_sources s' /\ (clean e -> no_raw t)) /\
  (forall es s ts fs s', visit_runs w es s ts fs s' -> wf s -> clean_sources s ->
     clean_sources s' /\ Forall2 (fun e t => clean e -> no_raw t) es ts).
Proof.
  intros HW. apply visit_run_mutind.
  - intros fuel e s subs s1 kids fs s2 E Hr IH Hw Hs. pose proof (visit_one_wf _ _ _ _ _ Hw E) as Hw1.
    assert (clean_sources s1) as Hs1.
    { eapply clean_sources_vframe; [done|exact Hs|]. by eapply P_visit_one. }
    destruct (IH Hw1 Hs1) as [Hs2 HF]. split; [done|]. intros He.
    destruct (visit_one_clean _ _ _ _ _ Hw HW Hs He E) as [Hc|(a & c & fw & cfgs & body & -> & Hb & ->)].
    + apply nr_other.
      * intros a c k -> . inversion He; subst; [|split_and!; by intros ->]. split_and!; by intros [=].
      * clear -HF Hc. induction HF; [constructor|]. apply Forall_cons in Hc as [? ?]. constructor; auto.
    + apply group_runs in Hr as (mid & s3 & fsm & s4 & -> & _ & _ & Hm & _).
      apply nr_group. rewrite group_entities_middle in HF.
      assert (Forall2 (fun e t => clean e -> no_raw t) (group_middle fw cfgs body) mid) as HF2.
      { apply Forall2_cons in HF as [_ HF]. apply Forall2_cons in HF as [_ HF].
        assert (length (group_middle fw cfgs body) = length mid) as Hlen.
        { apply Forall2_length in HF. rewrite !app_length /= in HF. lia. }
        by apply Forall2_app_inv in HF as [??]. }
      assert (Forall clean (group_middle fw cfgs body)) as Hc.
      { destruct fw; simpl; [apply Forall_app; split; [apply clean_set_lcs|done]|].
        do 2 (constructor; [by constructor|]). done. }
      clear -HF2 Hc. induction HF2; [constructor|]. apply Forall_cons in Hc as [? ?]. constructor; auto.
  - intros s _ Hs. split; [done|constructor].
  - intros e l s t fs s1 ts gs s2 H1 IH1 _ IH2 Hw Hs. destruct (IH1 Hw Hs) as [Hs1 Hc].
    apply visit_run_log in H1 as [Hw1 _]; [|done]. destruct (IH2 Hw1 Hs1) as [Hs2 HF]. split; [done|]. by constructor.
Qed.

(** ** What the body of a group sees *)
Lemma on_ctx_inv {A} (m : ctx -> ctx * res A) s s' r : on_ctx m s = (s', r) ->
  m (cx s) = (cx s', r) /\ s' = s <| cx := cx s' |>.
Proof. rewrite /on_ctx. destruct (m (cx s)) as [c x]. by intros [= <- <-]. Qed.
Lemma visit_set_lc n v s t fs s' : visit_run w (anon (ASetLC n v)) s t fs s' ->
  fs = [] /\ exists x c1 k c2, perform_substitutions w v (cx s) = (c1, Ok x) /\
    perform_substitutions w n c1 = (c2, Ok k) /\ same_but_queue (set_lc k x c2) (cx s').
Proof.
  intros (_ & -> & fuel & s0 & s2 & Hc & E & Hs)%visit_run_anon; [| |done].
  - split; [done|]. rewrite /= /exec_set in E.
    apply bindS_inv in E as [(s3 & x & E1 & E)|[(?&?&?)|[??]]]; [|done..].
    apply bindS_inv in E as [(s4 & k & E2 & E)|[(?&?&?)|[??]]]; [|done..].
    apply on_ctx_inv in E1 as [E1 _]. apply on_ctx_inv in E2 as [E2 _].
    injection E as <-. rewrite Hc in E1. eauto 8.
  - intros fuel s1 s2 r. simpl. assert (yields (fun r => r = []) (exec_set w set_lc n v)) as HP; [|apply HP].
    rewrite /exec_set. ys.
Qed.
Lemma visit_set_lcs cfgs s ts fs s' : visit_runs w (set_lcs cfgs) s ts fs s' ->
  fs = [] /\ sets_in_order w cfgs (cx s) (cx s').
Proof.
  revert s ts fs. induction cfgs as [|[n v] cfgs IH]; intros s ts fs H.
  - apply visit_runs_nil_inv in H as (-> & -> & ->). split; [done|constructor].
  - apply visit_runs_cons_inv in H as (t & ts' & f1 & gs & s1 & -> & -> & H1 & H2).
    apply visit_set_lc in H1 as (-> & x & c1 & k & c2 & E1 & E2 & Hs).
    destruct (IH _ _ _ H2) as [-> Ho]. split; [done|]. by econstructor.
Qed.
Lemma sets_in_order_env cfgs c c' : sets_in_order w cfgs c c' -> env c' = env c /\ env_reset c' = env_reset c.
Proof.
  induction 1 as [c|n v cfgs c x c1 k c2 c3 c4 E1 E2 Hs _ [IH1 IH2]]; [done|].
  apply perform_substitutions_frames in E1 as [E1 _ _ _ _]. apply perform_substitutions_frames in E2 as [E2 _ _ _ _].
  rewrite IH1 IH2 Hs /= E2 /= E1. done.
Qed.
Lemma eval_cfgs_all l : forall acc s s' d, eval_cfgs w l acc s = (s', Ok d) ->
  exists kvs, evaluates_all w l (cx s) kvs (cx s') /\ d = fold_left (fun d kv => <[kv.1 := kv.2]> d) kvs acc.
Proof.
  induction l as [|[n v] l IH]; intros acc s s' d; simpl.
  - intros [= <- <-]. exists []. split; [constructor|done].
  - intros [(s1 & k & E1 & E)|[(?&?&?)|[??]]]%bindS_inv; [|done..].
    apply bindS_inv in E as [(s2 & x & E2 & E)|[(?&?&?)|[??]]]; [|done..].
    apply on_ctx_inv in E1 as [E1 _]. apply on_ctx_inv in E2 as [E2 _].
    destruct (IH _ _ _ _ E) as (kvs & Hk & ->). exists ((k, x) :: kvs). split; [|done]. by econstructor.
Qed.
Lemma evaluates_all_frame cfgs c kvs c' : evaluates_all w cfgs c kvs c' -> sframe c c'.
Proof.
  induction 1 as [c|n v cfgs c k c1 x c2 kvs c3 E1 E2 _ IH]; [apply sframe_refl|].
  eapply sframe_trans; [by eapply perform_substitutions_frames|].
  eapply sframe_trans; [by eapply perform_substitutions_frames|done].
Qed.
Lemma visit_reset_env s t fs s' : visit_run w (anon AResetEnv) s t fs s' ->
  fs = [] /\ same_but_queue (reset_env (cx s)) (cx s').
Proof.
  intros (-> & -> & fuel & s0 & s2 & Hc & E & Hs)%visit_run_anon; [|by intros ??? ? [= _ <-]|done].
  split; [done|]. injection E as <-. by rewrite /= Hc in Hs.
Qed.
Lemma visit_reset_lc cfgs s t fs s' : visit_run w (anon (AResetLC (Some cfgs))) s t fs s' ->
  fs = [] /\ exists kvs c1, evaluates_all w cfgs (cx s) kvs c1 /\
    same_but_queue (c1 <| lc := dict_of kvs |>) (cx s').
Proof.
  intros (-> & -> & fuel & s0 & s2 & Hc & E & Hs)%visit_run_anon; [| |done].
  - split; [done|]. rewrite /= in E.
    apply bindS_inv in E as [(s3 & d & E1 & E)|[(?&?&?)|[??]]]; [|done..].
    apply eval_cfgs_all in E1 as (kvs & Hk & ->). injection E as <-. rewrite Hc in Hk. eauto.
  - intros fuel s1 s2 r. match goal with |- ?m ?s5 = _ -> _ => assert (yields (fun r => r = []) m) as HP; [|apply HP] end.
    simpl. ys.
Qed.

(** The run of a scoped group whose condition holds. *)
Lemma group_open a c fw cfgs body s t fs s' :
  visit_run w (EAct a c (AGroup true fw cfgs body)) s t fs s' ->
  cond_holds w c (cx s) ->
  exists s1 mid fsm s2, same_but_queue (push_env (push_lc (after_cond w c (cx s)))) (cx s1) /\
    visit_runs w (group_middle fw cfgs body) s1 mid fsm s2.
Proof.
  intros (fuel & subs & s1 & kids & gs & E & Hr & -> & ->)%visit_run_inv Hc%cond_holds_result.
  apply visit_one_group in E as (b & Hb & -> & Hq). rewrite Hc in Hb. injection Hb as <-.
  apply group_runs in Hr as (mid & s2 & fsm & s3 & -> & H2 & Hw2 & Hm & _).
  exists s2, mid, fsm, s3. split; [|done].
  assert ((cond_result c (cx s)).1 = after_cond w c (cx s)) as <- by (by destruct c).
  rewrite /same_but_queue in Hq H2 *. rewrite H2 Hq. by destruct (cond_result c (cx s)).1.
Qed.
Lemma group_forwarding a c cfgs body s t fs s' :
  visit_run w (EAct a c (AGroup true true cfgs body)) s t fs s' ->
  cond_holds w c (cx s) ->
  exists c0 s1 kids gs s2,
    lc c0 = lc (after_cond w c (cx s)) /\ env c0 = env (after_cond w c (cx s)) /\
    sets_in_order w cfgs c0 (cx s1) /\ env (cx s1) = env (after_cond w c (cx s)) /\
    visit_runs w body s1 kids gs s2.
Proof.
  intros Hr Hc. destruct (group_open _ _ _ _ _ _ _ _ _ Hr Hc) as (s1 & mid & fsm & s2 & Hq & Hm).
  simpl in Hm. apply visit_runs_app in Hm as (ts1 & ts2 & fs1 & fs2 & s3 & -> & -> & H1 & H2).
  apply visit_set_lcs in H1 as (-> & Ho). exists (cx s1), s3, ts2, fs2, s2.
  apply same_but_queue_lc in Hq as (Q1 & Q2 & _). destruct (sets_in_order_env _ _ _ Ho) as [He _].
  split_and!; try done. by rewrite He Q2.
Qed.
Lemma group_isolated a c cfgs body s t fs s' :
  visit_run w (EAct a c (AGroup true false cfgs body)) s t fs s' ->
  cond_holds w c (cx s) ->
  exists c0 kvs c1 s1 kids gs s2,
    lc c0 = lc (after_cond w c (cx s)) /\ env c0 = env_reset (after_cond w c (cx s)) /\
    evaluates_all w cfgs c0 kvs c1 /\
    lc (cx s1) = dict_of kvs /\ env (cx s1) = env_reset (after_cond w c (cx s)) /\
    visit_runs w body s1 kids gs s2.
Proof.
  intros Hr Hc. destruct (group_open _ _ _ _ _ _ _ _ _ Hr Hc) as (s1 & mid & fsm & s2 & Hq & Hm).
  simpl in Hm. apply visit_runs_cons_inv in Hm as (t1 & ts1 & f1 & g1 & sa & -> & -> & H1 & Hm).
  apply visit_runs_cons_inv in Hm as (t2 & ts2 & f2 & g2 & sb & -> & -> & H2 & Hm).
  apply visit_reset_env in H1 as [-> Q1]. apply visit_reset_lc in H2 as (-> & kvs & c1 & Hk & Q2).
  apply same_but_queue_lc in Hq as (P1 & P2 & P3 & P4 & P5).
  exists (cx sa), kvs, c1, sb, ts2, g2, s2.
  pose proof (evaluates_all_frame _ _ _ _ Hk) as [Ef _ _ _ _].
  assert (env (cx sa) = env_reset (after_cond w c (cx s))) as Ea by (rewrite Q1 /= P5; done).
  split_and!; [by rewrite Q1 /= P1|done|done|by rewrite Q2| |done].
  by rewrite Q2 /= Ef /= Ea.
Qed.
Lemma visit_one_group_st fuel a c sc fw cfgs body s s1 subs :
  visit_one w fuel (EAct a c (AGroup sc fw cfgs body)) s = (s1, Ok subs) -> same_but_ctx s s1.
Proof.
  rewrite visit_one_act. cbv zeta. destruct (cond_result c (cx s)) as [c1 [b|x|]]; [|done..].
  destruct b; [|intros [= <- _]; by destruct s].
  intros [= <- _]. rewrite /complete_action. destruct (would_handle_event _ _ _); by destruct s.
Qed.
Lemma group_unscoped a c fw cfgs body s t fs s' :
  visit_run w (EAct a c (AGroup false fw cfgs body)) s t fs s' ->
  cond_holds w c (cx s) ->
  exists s1 kids, same_but_ctx s s1 /\ same_but_queue (after_cond w c (cx s)) (cx s1) /\
    t = VNode (EAct a c (AGroup false fw cfgs body)) kids /\
    visit_runs w (set_lcs cfgs ++ body) s1 kids fs s'.
Proof.
  intros (fuel & subs & s1 & kids & gs & E & Hr & -> & ->)%visit_run_inv Hc%cond_holds_result.
  pose proof (visit_one_group_st _ _ _ _ _ _ _ _ _ _ E) as Hst.
  apply visit_one_group in E as (b & Hb & -> & Hq). rewrite Hc in Hb. injection Hb as <-.
  exists s1, kids. rewrite app_nil_r. split_and!; [done| |done|done].
  by destruct c.
Qed.

(** ** Conditions and completion *)
Lemma visit_all_false fuel a c k s c1 s' r :
  evaluate w c (cx s) = (c1, Ok false) -> visit_all w (S fuel) (EAct a (Some c) k) s = (s', r) ->
  s' = obs1 (OVisit (EAct a (Some c) k)) (s <| cx := c1 |>) /\ r = Ok (future_of (EAct a (Some c) k) s).
Proof.
  intros E. rewrite visit_all_eq /bindS visit_one_act. cbv zeta. rewrite /cond_result E /=.
  intros [= <- <-]. by destruct s.
Qed.
Lemma visit_all_cond_raises fuel a c k s c1 x s' r :
  evaluate w c (cx s) = (c1, Exn x) -> visit_all w (S fuel) (EAct a (Some c) k) s = (s', r) ->
  s' = obs1 (OVisit (EAct a (Some c) k)) (s <| cx := c1 |>) /\ r = Exn x.
Proof.
  intros E. rewrite visit_all_eq /bindS visit_one_act. cbv zeta. rewrite /cond_result E /=.
  intros [= <- <-]. by destruct s.
Qed.
Lemma would_handle_spec a c : would_handle_event w (EvComplete a) c = true <-> listened w a c.
Proof. rewrite /would_handle_event existsb_exists /listened. done. Qed.
Lemma visit_completion fuel a c k s s' r :
  visit_one w fuel (EAct a c k) s = (s', r) -> cond_holds w c (cx s) ->
  exists s2, (exists l, hist s2 = l ++ [OExecDone a]) /\
    (listened w a (cx s2) -> get_future (EAct a c k) s2 = None -> s' = emit (EvComplete a) s2) /\
    (forall f, listened w a (cx s2) -> get_future (EAct a c k) s2 = Some f ->
       s' = s2 <| cbs ::= fun l => l ++ [(f, EvComplete a)] |>) /\
    (~ listened w a (cx s2) -> s' = s2).
Proof.
  intros E Hc%cond_holds_result. rewrite visit_one_act in E. cbv zeta in E.
  destruct (cond_result c (cx s)) as [c1 rc]. simpl in Hc. subst rc.
  destruct (exec_action w fuel a k _) as [s2 r2] eqn:Ex. injection E as <- <-.
  exists (obs1 (OExecDone a) s2). split; [by exists (hist s2)|]. rewrite /complete_action.
  destruct (would_handle_event w (EvComplete a) (cx (obs1 (OExecDone a) s2))) eqn:Ew.
  - apply would_handle_spec in Ew. split_and!.
    + by intros _ ->.
    + by intros f _ ->.
    + done.
  - split_and!; [| |done].
    + intros Hl. apply would_handle_spec in Hl. congruence.
    + intros f Hl. apply would_handle_spec in Hl. congruence.
Qed.

Lemma C01_static a c fw cfgs body fuel s fs s' :
  numbered s -> clean_world w -> clean_sources s -> Forall clean body ->
  visit_all w fuel (EAct a c (AGroup true fw cfgs body)) s = (s', Ok fs) ->
  lc (cx s') = lc (after_cond w c (cx s)) /\ env (cx s') = env (after_cond w c (cx s)).
Proof.
  intros Hw HW Hs Hb E. destruct (proj1 (visit_all_run fuel) _ _ _ _ E) as [t Ht].
  assert (no_raw t) as Hn.
  { apply (proj1 (visit_run_clean HW) _ _ _ _ _ Ht Hw Hs). by constructor. }
  by destruct (group_restores _ _ _ _ _ _ _ _ _ Hw Ht Hn) as (? & ? & _).
Qed.
Lemma C07_ok fuel e s fs s' : numbered s -> visit_all w fuel e s = (s', Ok fs) ->
  exists t l, root t = e /\ visit_run w e s t fs s' /\ hist s' = hist s ++ l /\ visited l = preorder t.
Proof.
  intros Hw E. destruct (proj1 (visit_all_run fuel) _ _ _ _ E) as [t Ht].
  destruct (proj1 visit_run_log _ _ _ _ _ Ht Hw) as (_ & Hr & l & Hl & Hv). exists t, l. by split_and!.
Qed.
Lemma C07_exn fuel e s x s' : numbered s -> visit_all w fuel e s = (s', Exn x) ->
  exists vs l, visit_fails w e s vs x s' /\ hist s' = hist s ++ l /\ visited l = vs.
Proof.
  intros Hw E. destruct (proj1 (visit_all_fails fuel) _ _ _ _ E) as [vs Hf].
  destruct (visit_fails_log _ _ _ _ _ Hf Hw) as (_ & l & Hl & Hv). exists vs, l. by split_and!.
Qed.
Lemma C08_once fuel a c k s s' r : numbered s -> visit_one w fuel (EAct a c k) s = (s', r) ->
  cond_holds w c (cx s) -> exists l, hist s' = hist s ++ l /\ executed l = [a].
Proof.
  intros Hw E Hc%cond_holds_result. destruct (visit_one_log _ _ _ _ _ Hw E) as (l & Hl & _ & Hx).
  exists l. split; [done|]. by rewrite Hx Hc.
Qed.
End facts.
