(** Lemmas for C104. *)
From Coq Require Import ssreflect.
From Verif Require Import StrFacts SubstFacts ArgsFacts ExecFacts VisitFacts ActionFacts SpecOpen.

Section open.
Context (w : world) (HW : clean_world w).
Lemma anon_fails k s l x s' : (forall fuel s1, cx s1 = cx s -> exists s2, exec_action w fuel (Gen 0) k s1 = (s2, Ok [])) ->
  visit_fails w (anon k) s l x s' -> False.
Proof.
  intros Hk Hf. inversion Hf as [fuel e s0 x0 s1 E|fuel e s0 before k0 after s1 ts fs s2 l0 x0 s3 E]; subst.
  - apply visit_one_anon in E as (s2 & E & _). destruct (Hk fuel (obs1 (OExecuted (Gen 0)) (obs1 (OVisit (anon k)) s)) eq_refl) as [s3 E3]. by rewrite E3 in E.
  - apply visit_one_anon in E as (s4 & E & _). destruct (Hk fuel (obs1 (OExecuted (Gen 0)) (obs1 (OVisit (anon k)) s)) eq_refl) as [s5 E5]. rewrite E5 in E. injection E as _ E. by destruct before.
Qed.
Lemma clean_middle fw cfgs body : Forall clean body -> Forall clean (group_middle fw cfgs body).
Proof.
  intros H. rewrite /group_middle. destruct fw.
  - apply Forall_app. split; [apply clean_set_lcs|done].
  - simpl. constructor; [by apply cl_act|]. constructor; [by apply cl_act|done].
Qed.
Lemma runs_clean es s ts fs s' : visit_runs w es s ts fs s' -> numbered s -> clean_sources s -> Forall clean es ->
  numbered s' /\ clean_sources s' /\ same_stacks s s'.
Proof.
  intros H Hw Hs Hc. destruct (proj2 (visit_run_clean w HW) _ _ _ _ _ H Hw Hs) as [Hs' HF].
  split_and!; [by eapply visit_run_log|done|]. eapply visit_runs_stacks; [exact H|done|].
  clear H. induction HF as [|e t es ts H1 H2 IH]; constructor; apply Forall_cons in Hc as [? ?]; auto.
Qed.
Lemma clean_pp e : clean e -> visit_push_pop e = false.
Proof. intros H. inversion H as [| |a c k Hk]; [done..|by destruct k]. Qed.
Lemma fails_open e s l x s' : visit_fails w e s l x s' -> numbered s -> clean_sources s -> clean e ->
  exists cs, stops w e s cs x s' /\ lc_stack (cx s') = map lc cs ++ lc_stack (cx s) /\ env_stack (cx s') = map env cs ++ env_stack (cx s).
Proof.
  induction 1 as [fuel e s x s1 E|fuel e s before k after s1 ts fs s2 l x s3 E Hr Hf IH]; intros Hw Hs Hc.
  - exists []. split; [by eapply stops_here|]. destruct (visit_one_stacks w _ _ _ _ _ Hw (clean_pp _ Hc) E) as [-> ->]. done.
  - pose proof (visit_one_wf _ _ _ _ _ _ Hw E) as Hw1.
    assert (clean_sources s1) as Hs1. { eapply clean_sources_vframe; [done|exact Hs|]. by eapply P_visit_one. }
    destruct (visit_one_stacks w _ _ _ _ _ Hw (clean_pp _ Hc) E) as [L1 E1].
    destruct (scoped e) eqn:He.
    + assert (exists a c fw cfgs body, e = EAct a c (AGroup true fw cfgs body)) as (a & c & forwarding & cfgs & body & ->).
      { destruct e as [|a c k0]; [done|]. destruct k0 as [| | | | | | | | | | | |sc fw cfgs body| | | | | | | | | | | | | | | | | |]; try done. destruct sc; [|done]. by eexists _, _, _, _, _. }
      assert (Forall clean body) as Hb by (inversion Hc; done).
      pose proof E as E0. apply visit_one_group in E0 as ([] & _ & Hsub & _); [|by destruct before].
      symmetry in Hsub. rewrite group_entities_middle in Hsub. pose proof (clean_middle forwarding cfgs body Hb) as Hm.
      destruct before as [|b1 [|b2 before]].
      { injection Hsub as <- _. exfalso. eapply anon_fails; [|exact Hf]. intros ? s4 _. by eexists. }
      { injection Hsub as _ <- _. exfalso. eapply anon_fails; [|exact Hf]. intros ? s4 _. by eexists. }
      injection Hsub as <- <- Hsub.
      pose proof Hr as Hr0.
      apply visit_runs_cons_inv in Hr as (t1 & ts1 & f1 & g1 & sa & -> & -> & Hp1 & Hr).
      apply visit_runs_cons_inv in Hr as (t2 & ts2 & f2 & g2 & sb & -> & -> & Hp2 & Hr).
      destruct (proj1 (visit_run_clean w HW) _ _ _ _ _ Hp1 Hw1 Hs1) as [Hsa _]. pose proof (visit_run_log w) as [HL _].
      destruct (HL _ _ _ _ _ Hp1 Hw1) as [Hwa _]. destruct (proj1 (visit_run_clean w HW) _ _ _ _ _ Hp2 Hwa Hsa) as [Hsb _].
      destruct (HL _ _ _ _ _ Hp2 Hwa) as [Hwb _].
      apply visit_push_lc in Hp1 as (_ & _ & Q1). apply visit_push_env in Hp2 as (_ & _ & Q2).
      assert (lc_stack (cx sb) = lc (cx s1) :: lc_stack (cx s1) /\ env_stack (cx sb) = env (cx s1) :: env_stack (cx s1)) as [Lb Eb].
      { rewrite Q2 /= Q1. done. }
      apply app_eq_inv in Hsub as [(kk & Hmid & Hk)|(kk & -> & Hk)].
      * destruct kk as [|k' kk].
        -- injection Hk as -> _. rewrite app_nil_r in Hmid. subst before. exfalso.
           destruct (runs_clean _ _ _ _ _ Hr Hwb Hsb Hm) as (_ & _ & [_ Es]).
           eapply anon_fails; [|exact Hf]. intros ? s4 Hs4. simpl. rewrite /bindS /on_ctx Hs4 /pop_env Es Eb. by eexists.
        -- injection Hk as -> _. rewrite Hmid in Hm. apply Forall_app in Hm as [Hm1 Hm2]. apply Forall_cons in Hm2 as [Hk _].
           destruct (runs_clean _ _ _ _ _ Hr Hwb Hsb Hm1) as (Hw2 & Hs2 & [Ls Es]).
           destruct (IH Hw2 Hs2 Hk) as (cs & Hst & HL3 & HE3). exists (cs ++ [cx s1]). split.
           { eapply (stops_below w fuel (EAct a c (AGroup true forwarding cfgs body))); [exact E|exact Hr0|exact Hst]. }
           rewrite !map_app -!app_assoc /= HL3 HE3 Ls Es Lb Eb L1 E1. done.
      * exfalso. apply visit_runs_app in Hr as (tsm & tse & fm & fe & sm & -> & -> & Hrm & Hre).
        destruct (runs_clean _ _ _ _ _ Hrm Hwb Hsb Hm) as (_ & _ & [Ls Es]).
        destruct kk as [|x1 [|x2 kk]].
        -- injection Hk as <- _. apply visit_runs_nil_inv in Hre as (_ & _ & ->).
           eapply anon_fails; [|exact Hf]. intros ? s4 Hs4. simpl. rewrite /bindS /on_ctx Hs4 /pop_env Es Eb. by eexists.
        -- injection Hk as <- <- _. apply visit_runs_cons_inv in Hre as (? & ? & ? & ? & sc & _ & _ & Hp & Hre).
           apply visit_runs_nil_inv in Hre as (_ & _ & ->). apply visit_pop_env in Hp as (_ & _ & ? & ? & _ & Q3).
           eapply anon_fails; [|exact Hf]. intros ? s4 Hs4. simpl. rewrite /bindS /on_ctx Hs4 /pop_lc Q3 /= Ls Lb. by eexists.
        -- destruct kk; done.
    + destruct (visit_one_clean w _ _ _ _ _ Hw HW Hs Hc E) as [HF|(a & c & fw & cfgs & body & -> & _)]; [|done].
      apply Forall_app in HF as [HF1 HF2]. apply Forall_cons in HF2 as [Hk _].
      destruct (runs_clean _ _ _ _ _ Hr Hw1 Hs1 HF1) as (Hw2 & Hs2 & [Ls Es]).
      destruct (IH Hw2 Hs2 Hk) as (cs & Hst & HL3 & HE3). exists (cs ++ if scoped e then [cx s1] else []). split; [by eapply stops_below|].
      rewrite He app_nil_r HL3 HE3 Ls Es L1 E1. done.
Qed.
Lemma scopes_open n e s x s' : numbered s -> clean_sources s -> clean e -> visit_all w n e s = (s', Exn x) ->
  exists cs, stops w e s cs x s' /\ lc_stack (cx s') = map lc cs ++ lc_stack (cx s) /\ env_stack (cx s') = map env cs ++ env_stack (cx s).
Proof. intros Hw Hs Hc E. destruct (proj1 (visit_all_fails w n) _ _ _ _ E) as [l Hl]. by eapply fails_open. Qed.
End open.
