(** Lemmas about launch tests in pytest. *)
From Coq Require Import ssreflect.
From Verif Require Import SpecPytestHooks TestRunFacts.

Lemma add_markers_app marks own : add_markers marks own = own ++ marks.
Proof. revert own. induction marks as [|m marks IH]; intros own; simpl; [by rewrite app_nil_r|]. by rewrite IH -app_assoc. Qed.
Lemma first_alone (l : list (option node)) last : (forall n, ~ In (Some n) l) -> first_result l last = last.
Proof.
  induction l as [|[n|] l IH]; intros H; simpl; [done| |].
  - destruct (H n). by left.
  - apply IH. intros n Hn. apply (H n). by right.
Qed.
Lemma first_spec l last n : first_result l last = Some n <->
  (exists pre post, l = pre ++ Some n :: post /\ forall x, ~ In (Some x) pre) \/ ((forall x, ~ In (Some x) l) /\ last = Some n).
Proof.
  induction l as [|[m|] l IH]; simpl.
  - split; [intros ->; right; split; [intros x []|done]|]. intros [(pre & post & E & _)|[_ E]]; [by destruct pre|done].
  - split.
    + intros [= ->]. left. exists [], l. split; [done|]. intros x [].
    + intros [(pre & post & E & Hp)|[H _]]; [|destruct (H m); by left]. destruct pre as [|x pre]; [by injection E as -> _|]. injection E as <- E. destruct (Hp m). by left.
  - rewrite IH. split.
    + intros [(pre & post & -> & Hp)|[H E]]; [left|right].
      * exists (None :: pre), post. split; [done|]. intros x [?|Hx]; [done|]. exact (Hp _ Hx).
      * split; [|done]. intros x [?|Hx]; [done|]. exact (H _ Hx).
    + intros [(pre & post & E & Hp)|[H E]]; [left|right].
      * destruct pre as [|x pre]; [done|]. injection E as <- ->. exists pre, post. split; [done|]. intros x Hx. apply (Hp x). by right.
      * split; [|done]. intros x Hx. apply (H x). by right.
Qed.
Lemma launch_iff marks n : launch_makemodule marks = Some n <-> (exists a, In ("launch_test", a) marks) /\ n = NLaunch marks.
Proof.
  rewrite /launch_makemodule. rewrite add_markers_app /=. destruct marks as [|m marks]; [split; [done|]; by intros [[a []] _]|].
  destruct (existsb (fun m => String.eqb (fst m) "launch_test") (m :: marks)) eqn:E.
  - apply existsb_exists in E as ([x a] & Hx & Ex%String.eqb_eq). simpl in Ex. subst x. split; [intros [= <-]; split; [by exists a|done]|by intros [_ ->]].
  - split; [done|]. intros [[a Ha] _]. assert (existsb (fun m => String.eqb (fst m) "launch_test") (m :: marks) = true) as E'; [|by rewrite E in E'].
    apply existsb_exists. exists ("launch_test", a). split; [done|]. by apply String.eqb_eq.
Qed.
Lemma collect_law init i others n : makemodule init i others = Some n <->
  match i with
  | MRaises => False
  | MModule (Some marks) =>
      (exists pre post, others marks = pre ++ Some n :: post /\ forall x, ~ In (Some x) pre) \/
      (forall x, ~ In (Some x) (others marks)) /\
      (marked i marks /\ n = NLaunch marks \/ (~ marked i marks) /\ n = if init then NPackage else NModule)
  | _ => n = if init then NPackage else NModule
  end.
Proof.
  rewrite /makemodule. destruct i as [| |[marks|]]; cbn [find_entrypoint].
  - split; [by intros [= <-]|by intros ->].
  - done.
  - destruct (first_result (others marks) (launch_makemodule marks)) as [m|] eqn:E.
    + pose proof E as E'. apply first_spec in E'. split.
      * intros [= <-]. destruct E' as [H|[H H2]]; [by left|right]. split; [done|]. apply launch_iff in H2 as [H2 ->]. left. done.
      * intros [H|[H H2]].
        -- rewrite -E. apply first_spec. by left.
        -- destruct E' as [(pre & post & Eo & _)|[_ E2]]; [destruct (H m); rewrite Eo; apply in_app_iff; right; by left|].
           apply launch_iff in E2 as [E2 ->]. destruct H2 as [[_ ->]|[H2 _]]; [done|]. destruct H2. done.
    + split.
      * intros [= <-]. right. assert (forall x, ~ In (Some x) (others marks)) as H.
        { intros x Hx. clear -E Hx. induction (others marks) as [|[y|] l IH]; simpl in *; [done|done|]. destruct Hx as [?|Hx]; [done|]. by apply IH. }
        split; [done|]. right. split; [|done]. intros [_ Hm]. assert (launch_makemodule marks = Some (NLaunch marks)) as Hl by (by apply launch_iff).
        rewrite first_alone // in E. by rewrite E in Hl.
      * intros [(pre & post & Eo & Hp)|[H H2]].
        -- assert (first_result (others marks) (launch_makemodule marks) = Some n) as E'; [|by rewrite E in E'].
           apply first_spec. left. eauto.
        -- destruct H2 as [[[_ Hm] ->]|[_ ->]]; [|done].
           assert (launch_makemodule marks = Some (NLaunch marks)) as Hl by (by apply launch_iff).
           rewrite first_alone // in E. by rewrite E in Hl.
  - split; [by intros [= <-]|by intros ->].
Qed.

Lemma results_both runs rs : runner_run runs = Some rs -> map snd (with_results runs) = rs /\ map fst (with_results runs) = with_result runs.
Proof.
  revert rs. induction runs as [|[c t] runs IH]; intros rs; simpl; [by intros [= <-]|].
  destruct t as [| |[r| |]]; try done.
  - destruct (runner_run runs) as [rs'|]; [|done]. intros [= <-]. destruct (IH _ eq_refl) as [E1 E2]. simpl. by rewrite -E1 -E2.
  - destruct (runner_run runs) as [rs'|]; [|done]. intros [= <-]. destruct (IH _ eq_refl) as [E1 E2]. simpl. by rewrite -E1 -E2.
  - intros [= <-]. done.
Qed.
Lemma forallb_existsb {A} (f : A -> bool) l : existsb (fun x => negb (f x)) l = negb (forallb f l).
Proof. induction l as [|x l IH]; [done|]. simpl. rewrite IH. by destruct (f x). Qed.
Lemma forallb_of_map {A B} (f : B -> bool) (g : A -> B) l : forallb f (map g l) = forallb (fun x => f (g x)) l.
Proof. induction l as [|x l IH]; [done|]. simpl. by rewrite IH. Qed.
Lemma runtest_code is_case runs :
  match runtest is_case true runs with IPass => exit_code runs = 0%Z | IFailed _ => exit_code runs = 1%Z | IRaised => exit_code runs = 2%Z end.
Proof.
  rewrite /runtest /exit_code /=. destruct (runner_run runs) as [rs|] eqn:E; [|done].
  destruct (results_both _ _ E) as [_ <-]. rewrite (forallb_existsb (fun x : trun * tresult => run_success (fst x))) forallb_of_map. by destruct (forallb _ _).
Qed.
Lemma pass_law is_case valid runs : runtest is_case valid runs = IPass <-> valid = true /\ forall cases t, In (cases, t) runs -> good_run t.
Proof.
  destruct valid; [|split; [done|by intros [? _]]]. rewrite -exit_zero. pose proof (runtest_code is_case runs) as H.
  destruct (runtest is_case true runs) eqn:E; rewrite H; split; try done; by intros [_ ?].
Qed.
Lemma raise_law is_case valid runs : runtest is_case valid runs = IRaised <-> valid = false \/
  exists pre cases t post, runs = pre ++ (cases, t) :: post /\ raising t /\ forall c, ~ In (c, TWorks WDied) pre.
Proof.
  destruct valid; [|split; [by left|done]]. rewrite -exit_two. pose proof (runtest_code is_case runs) as H.
  destruct (runtest is_case true runs) eqn:E; rewrite H; split; try done; try (by intros [?|?]). by right.
Qed.
Lemma until_total runs : exists l, until_death runs l.
Proof.
  induction runs as [|[c t] runs [l IH]]; [exists []; constructor|].
  destruct t as [| |[r| |]]; try (exists ((c, TWorks WDied) :: []); by constructor); eexists; apply ud_on; done.
Qed.
Lemma reported_law is_case runs l rs t : runner_run runs = Some rs -> until_death runs l ->
  (In t (reported is_case (with_results runs)) <-> is_case t = true /\ exists run, In run l /\ ~ good_run (snd run) /\ blamed run t).
Proof.
  intros Hr Hl. revert rs Hr. induction Hl as [|c runs|[c u] runs l Hu Hl IH]; intros rs Hr.
  - split; [done|]. by intros [_ (? & [] & _)].
  - assert (with_results ((c, TWorks WDied) :: runs) = [(TWorks WDied, fail_result c)]) as -> by done.
    rewrite /reported /= app_nil_r filter_In. split.
    + intros [Hc Hi]. rewrite andb_true_r in Hi. split; [done|]. exists (c, TWorks WDied). split; [by left|]. split; [|done]. intros [?|(? & ? & _)]; done.
    + intros [Hi (run & [<-|[]] & _ & Hb)]. rewrite andb_true_r. done.
  - simpl in Hu, Hr. destruct u as [| |[r| |]]; try done.
    + destruct (runner_run runs) as [rs'|] eqn:E; [|done]. specialize (IH _ eq_refl). change (with_results ((c, TSkips) :: runs)) with ((TSkips, skip_result c) :: with_results runs).
      rewrite /reported /= -/(reported is_case (with_results runs)) IH. split; intros [Hi (run & Hrun & Hg & Hb)]; (split; [done|]).
      * exists run. split; [by right|done].
      * destruct Hrun as [<-|Hrun]; [|eauto]. by destruct Hb.
    + destruct (runner_run runs) as [rs'|] eqn:E; [|done]. specialize (IH _ eq_refl).
      change (with_results ((c, TWorks (WResults r)) :: runs)) with ((TWorks (WResults r), r) :: with_results runs).
      rewrite /reported. cbn [flat_map]. rewrite in_app_iff -/(reported is_case (with_results runs)) IH filter_In in_app_iff /=. split.
      * intros [[Hb [Hi Hs]%andb_true_iff]|[Hi (run & Hrun & Hg & Hb)]].
        -- split; [done|]. exists (c, TWorks (WResults r)). split; [by left|]. split; [|done].
           intros [?|(r' & [= <-] & Hs')]; [done|]. by rewrite Hs' in Hs.
        -- split; [done|]. exists run. split; [by right|done].
      * intros [Hi (run & [<-|Hrun] & Hg & Hb)]; [left|right; split; [done|]; eauto]. split; [exact Hb|]. rewrite Hi /=.
        destruct (tr_success r) eqn:Es; [|done]. destruct Hg. right. eauto.
Qed.
Lemma args_concat sets : launch_args sets = concat sets.
Proof.
  rewrite /launch_args. assert (forall acc, fold_left (fun acc s => acc ++ s) sets acc = acc ++ concat sets) as H; [|by rewrite H].
  induction sets as [|s sets IH]; intros acc; simpl; [by rewrite app_nil_r|]. by rewrite IH -app_assoc.
Qed.
