(** Proofs about what a process action runs (C90). *)
From Coq Require Import ssreflect.
From Verif Require Import StrFacts SubstFacts SpecCommand ExecFacts VisitFacts MicroSteps ActionFacts ArgsFacts NameFacts RespawnFacts.

Lemma basename_aux_last acc s : no_slash acc -> exists b, basename_aux acc s = b /\ no_slash b /\
  ((acc ++ s)%string = b \/ exists dir, (acc ++ s)%string = (dir ++ "/" ++ b)%string).
Proof.
  revert acc. induction s as [|c s IH]; intros acc Ha; simpl.
  - exists acc. split; [done|]. split; [done|]. left. by rewrite str_app_nil.
  - destruct (Ascii.eqb_spec c "/"%char) as [->|Hc].
    + destruct (IH ""%string) as (b & E & Hb & Hd); [by intros []|]. exists b. split; [done|]. split; [done|]. right.
      destruct Hd as [Hd|[dir Hd]]; change ("" ++ s)%string with s in Hd.
      * exists acc. rewrite -Hd. done.
      * exists (acc ++ "/" ++ dir)%string. rewrite !str_app_assoc. by rewrite -Hd.
    + destruct (IH (acc ++ String c "")%string) as (b & E & Hb & Hd).
      { rewrite /no_slash ascii_app. intros [?|[?|[]]]%in_app_or; [by apply Ha|congruence]. }
      exists b. split; [done|]. split; [done|]. rewrite str_app_assoc in Hd. exact Hd.
Qed.
Lemma basename_last p : last_component p (basename p).
Proof. destruct (basename_aux_last "" p) as (b & E & Hb & Hd); [by intros []|]. rewrite /basename E. by split. Qed.

Lemma last_fun p b b' : last_component p b -> last_component p b' -> b = b'.
Proof.
  assert (forall (a d : string) x y, no_slash x -> no_slash y -> (a ++ "/" ++ x = d ++ "/" ++ y)%string -> x = y) as H2.
  { induction a as [|c a IH]; intros [|c' d] x y Hx Hy E.
    - by injection E.
    - injection E as _ E. destruct Hx. rewrite E /= !ascii_app. apply in_or_app. right. by left.
    - injection E as _ E. destruct Hy. rewrite -E /= !ascii_app. apply in_or_app. right. by left.
    - injection E as _ E. by eapply IH. }
  assert (forall (d : string) x y, no_slash x -> x = (d ++ "/" ++ y)%string -> False) as H1.
  { intros d x y Hx ->. apply Hx. rewrite ascii_app. apply in_or_app. right. by left. }
  intros [Hb [E|[d E]]] [Hb' [E'|[d' E']]].
  - congruence.
  - destruct (H1 d' b b' Hb). congruence.
  - destruct (H1 d b' b Hb'). congruence.
  - eapply (H2 d d'); [done|done|congruence].
Qed.
Lemma prefix_decided w c first rest : exists b, last_component first b /\
  forall pre, prefix_words w c (first :: rest) None pre <->
    pre = if w_rematch w (conf_or_empty c "launch-prefix-filter") b then w_shlex w (conf_or_empty c "launch-prefix") else [].
Proof.
  exists (basename first). pose proof (basename_last first) as HB. split; [done|]. intros pre. split.
  - inversion 1 as [|f r b Ew Hl Hm|f r b Ew Hl Hm]; subst; injection Ew as <- <-; by rewrite (last_fun _ _ _ HB Hl) Hm.
  - intros ->. destruct (w_rematch w _ (basename first)) eqn:E; [by eapply pw_conf|by eapply pw_not].
Qed.

Section command.
Context (w : world).
Lemma sframe_conf c c' k : sframe c c' -> (forall n, k <> ("anon" ++ n)%string) -> conf_or_empty c' k = conf_or_empty c k.
Proof.
  intros [_ Hs Hn _ _] Hk. rewrite /conf_or_empty. destruct (lc c !! k) as [v|] eqn:E.
  - by rewrite (lookup_weaken _ _ _ _ E Hs).
  - destruct (lc c' !! k) as [v|] eqn:E'; [|done]. destruct (Hn k E) as [n ?]; [by eexists|]. by destruct (Hk n).
Qed.
Lemma conf_performs k c : perform_substitutions w [SLaunchConfig [SText k] (Some [SText ""])] c = (c, Ok (conf_or_empty c k)).
Proof.
  rewrite /conf_or_empty /perform_substitutions /bindS /= /bindS /retS /= !str_app_nil. by destruct (lc c !! k); simpl; rewrite ?str_app_nil.
Qed.
Lemma says_in c c1 c2 l t : sframe c c1 -> perform_substitutions w l c1 = (c2, Ok t) -> says w c l t.
Proof. intros H E. exists c1, c2. split; [by apply sframe_same|done]. Qed.
Lemma list_fails ls c c' e : perform_list w ls c = (c', Exn e) -> exists l c1 c2, In l ls /\ sframe c c1 /\ perform_substitutions w l c1 = (c2, Exn e).
Proof.
  revert c. induction ls as [|l ls IH]; intros c; simpl; [done|].
  intros [(c1 & t & E1 & E2)|[(x & E1 & [= <-])|[? ?]]]%bindS_inv; [| |done].
  - revert E2. intros [(c2 & ts & E2 & E3)|[(x & E2 & [= <-])|[? ?]]]%bindS_inv; [done| |done].
    destruct (IH _ E2) as (l' & c3 & c4 & Hin & Hf & E). exists l', c3, c4. split; [by right|]. split; [|done].
    eapply sframe_trans; [|exact Hf]. by eapply perform_substitutions_frames.
  - exists l, c, c'. split; [by left|]. split; [apply sframe_refl|done].
Qed.
Lemma env_fails l acc s s' e : eval_env w l acc s = (s', Exn e) ->
  exists x c1 c2, In x (concat (map (fun kv => [kv.1; kv.2]) l)) /\ sframe (cx s) c1 /\ perform_substitutions w x c1 = (c2, Exn e).
Proof.
  revert acc s. induction l as [|[k v] l IH]; intros acc s; cbn [eval_env]; [done|].
  intros [(s1 & v' & (c1 & E1 & ->)%perform_st_inv & E)|[(x & (c1 & E1 & ->)%perform_st_inv & [= <-])|[? ?]]]%bindS_inv; [| |done].
  2: { exists v, (cx s), c1. split; [right; by left|]. split; [apply sframe_refl|done]. }
  assert (sframe (cx s) c1) as F1 by by eapply perform_substitutions_frames.
  revert E; intros [(s2 & k' & (c2 & E2 & ->)%perform_st_inv & E)|[(x & (c2 & E2 & ->)%perform_st_inv & [= <-])|[? ?]]]%bindS_inv; [| |done].
  2: { exists k, c1, c2. split; [by left|]. split; [done|done]. }
  destruct (IH _ _ E) as (x & c3 & c4 & Hin & Hf & E3). exists x, c3, c4. split; [by right; right|]. split; [|done].
  eapply sframe_trans; [exact F1|]. eapply sframe_trans; [|exact Hf]. by eapply perform_substitutions_frames.
Qed.
Lemma st_cases l s s' r : perform_st w l s = (s', r) -> exists c, perform_substitutions w l (cx s) = (c, r) /\ cx s' = c /\ sframe (cx s) (cx s').
Proof. intros (c & E & ->)%perform_st_inv. exists c. split; [done|]. split; [done|]. by eapply perform_substitutions_frames. Qed.

Lemma prepare_runs o s s' d : prepare_executable w o s = (s', Ok d) -> will_run w (cx s) o (pcount s + 1) d.
Proof.
  intros H0. destruct (prepare_number w _ _ _ _ H0) as [_ Hk']. revert H0. rewrite /prepare_executable.
  intros [(s1 & words & E1 & H)|[(e & _ & ?)|[_ ?]]]%bindS_inv; [|done..].
  revert E1. rewrite /on_ctx. destruct (perform_list w (p_cmd o) (cx s)) as [c1 r1] eqn:E1. intros [= <- ->].
  assert (sframe (cx s) c1) as F1 by by eapply perform_list_frame. apply perform_list_evals in E1.
  revert H; intros [(s2 & b & E2 & H)|[(e & _ & ?)|[_ ?]]]%bindS_inv; [|done..].
  revert H; intros [(s3 & cmd & E3 & H)|[(e & _ & ?)|[_ ?]]]%bindS_inv; [|done..].
  assert (exists pre, cmd = pre ++ words /\ prefix_words w (cx s) words (p_prefix o) pre /\ sframe (cx s) (cx s3)) as (pre & -> & Hpre & F3).
  { destruct (p_prefix o) as [l|] eqn:Ep.
    - injection E2 as <- <-. revert E3. intros [(s4 & t & (c4 & E4 & Ec & F4)%st_cases & E)|[(e & _ & ?)|[_ ?]]]%bindS_inv; [|done..]. injection E as <- <-.
      exists (w_shlex w t). split; [done|]. split; [|by eapply sframe_trans]. constructor. by eapply says_in.
    - revert E2. intros [(s4 & f & (c4 & E4 & Ec & F4)%st_cases & E)|[(e & _ & ?)|[_ ?]]]%bindS_inv; [|done..].
      change (cx (s <| cx := c1 |>)) with c1 in *. rewrite /prefix_filter_default conf_performs in E4. injection E4 as <- <-.
      destruct words as [|first rest]; [done|]. injection E as <- <-.
      assert (forall n, "launch-prefix-filter"%string <> ("anon" ++ n)%string) as N1 by done.
      assert (forall n, "launch-prefix"%string <> ("anon" ++ n)%string) as N2 by done.
      rewrite (sframe_conf _ _ _ F1 N1) in E3.
      destruct (w_rematch w (conf_or_empty (cx s) "launch-prefix-filter") (basename first)) eqn:Em.
      + revert E3. intros [(s5 & t & (c5 & E5 & Ec5 & F5)%st_cases & E)|[(e & _ & ?)|[_ ?]]]%bindS_inv; [|done..].
        change (default prefix_default None) with prefix_default in E5. rewrite Ec /prefix_default conf_performs in E5. injection E5 as <- <-.
        injection E as <- <-. rewrite (sframe_conf _ _ _ F1 N2). eexists. split; [reflexivity|]. split; [|by rewrite Ec5].
        eapply pw_conf; [done|apply basename_last|done].
      + injection E3 as <- <-. exists []. split; [done|]. split; [|by rewrite Ec]. eapply pw_not; [done|apply basename_last|done]. }
  revert H; intros [(s4 & n & E4 & H)|[(e & _ & ?)|[_ ?]]]%bindS_inv; [|done..].
  assert (match p_name o with Some l => says w (cx s) l n | None => exists program args, pre ++ words = program :: args /\ last_component program n end /\ sframe (cx s3) (cx s4)) as [Hn F4].
  { destruct (p_name o) as [l|].
    - apply st_cases in E4 as (c4 & E4 & _ & F4). split; [by eapply says_in|done].
    - destruct (pre ++ words) as [|x rest]; [done|]. injection E4 as <- <-. split; [|apply sframe_refl]. exists x, rest. split; [done|apply basename_last]. }
  revert H. rewrite {1}/bindS /=. set (s4' := set pcount _ s4).
  intros [(s5 & cwd & E5 & H)|[(e & _ & ?)|[_ ?]]]%bindS_inv; [|done..].
  assert (match p_cwd o, cwd with Some l, Some dir => says w (cx s) l dir | None, None => True | _, _ => False end /\ pcount s5 = pcount s4') as [Hc Hp5].
  { destruct (p_cwd o) as [l|].
    - revert E5. intros [(s6 & t & E6 & E)|[(e & _ & ?)|[_ ?]]]%bindS_inv; [|done..]. injection E as <- <-.
      pose proof (C_on_ctx _ _ _ _ E6) as Hp. apply st_cases in E6 as (c6 & E6 & _ & _). split; [|exact Hp].
      eapply says_in; [|exact E6]. by eapply sframe_trans.
    - by injection E5 as <- <-. }
  revert H; intros [(s6 & e1 & E6 & H)|[(e & _ & ?)|[_ ?]]]%bindS_inv; [|done..].
  revert H; intros [(s7 & e2 & E7 & H)|[(e & _ & ?)|[_ ?]]]%bindS_inv; [|done..].
  injection H as <- <-.
  assert (pcount s6 = pcount s5) as Hp6. { destruct (p_env o); [by apply C_eval_env in E6|by injection E6 as <- _]. }
  assert (pcount s7 = pcount s6) as Hp7. { destruct (p_addenv o); [by apply C_eval_env in E7|by injection E7 as <- _]. }
  assert (pcount s4' = pcount s + 1)%Z as Hk by congruence.
  split; [|split].
  - exists words, pre, c1. done.
  - exists n. split; [by rewrite /numbered /= -Hk|done].
  - done.
Qed.

Lemma prepare_refused o s s' e : prepare_executable w o s = (s', Exn e) ->
  some_text_raises w (cx s) o e \/ (e = XIndex /\ p_cmd o = [] /\ (p_prefix o = None \/ exists l t, p_prefix o = Some l /\ p_name o = None /\ says w (cx s) l t /\ w_shlex w t = [])).
Proof.
  assert (forall l c1 c2, In l (texts_of_options o) -> sframe (cx s) c1 -> perform_substitutions w l c1 = (c2, Exn e) -> some_text_raises w (cx s) o e) as HR.
  { intros l c1 c2 H1 H2 H3. exists l, c1, c2. split; [done|]. split; [by apply sframe_same|done]. }
  rewrite /texts_of_options in HR.
  rewrite /prepare_executable.
  intros [(s1 & words & E1 & H)|[(e' & E1 & [= <-])|[_ ?]]]%bindS_inv; [| |done].
  2: { revert E1. rewrite /on_ctx. destruct (perform_list w (p_cmd o) (cx s)) as [c1 r1] eqn:E1. intros [= <- ->].
       apply list_fails in E1 as (l & c2 & c3 & Hin & Hf & E). left. eapply HR; [apply in_or_app; left; exact Hin|done|done]. }
  revert E1. rewrite /on_ctx. destruct (perform_list w (p_cmd o) (cx s)) as [c1 r1] eqn:E1. intros [= <- ->].
  assert (sframe (cx s) c1) as F1 by by eapply perform_list_frame. apply perform_list_evals in E1.
  revert H; intros [(s2 & b & E2 & H)|[(e' & E2 & [= <-])|[_ ?]]]%bindS_inv; [| |done].
  2: { destruct (p_prefix o) as [l|]; [done|]. revert E2. intros [(s4 & f & (c4 & E4 & Ec & F4)%st_cases & E)|[(x & (c4 & E4 & Ec & F4)%st_cases & [= <-])|[_ ?]]]%bindS_inv; [| |done].
       - destruct words; [|done]. injection E as _ <-. right. split; [done|]. inversion E1; subst. split; [done|]. by left.
       - by rewrite /prefix_filter_default conf_performs in E4. }
  assert (sframe (cx s) (cx s2) /\ (b = false -> words <> []) /\ (p_prefix o = None -> words <> [])) as (F2 & Hb & Hw).
  { destruct (p_prefix o) as [l|]; [injection E2 as <- <-; by split|].
    revert E2. intros [(s4 & f & (c4 & E4 & Ec & F4)%st_cases & E)|[(x & _ & ?)|[_ ?]]]%bindS_inv; [|done..]. destruct words; [done|]. injection E as <- <-. split; [by eapply sframe_trans|done]. }
  clear E2. revert H; intros [(s3 & cmd & E3 & H)|[(e' & E3 & [= <-])|[_ ?]]]%bindS_inv; [| |done].
  2: { destruct b; [|done]. revert E3. intros [(s4 & t & _ & E)|[(x & (c4 & E4 & Ec & F4)%st_cases & [= <-])|[_ ?]]]%bindS_inv; [done| |done].
       destruct (p_prefix o) as [l|]; [|cbn [default] in E4; by rewrite /prefix_default conf_performs in E4].
       left. eapply HR; [apply in_or_app; right; by left|exact F2|exact E4]. }
  assert (sframe (cx s) (cx s3) /\ (cmd = [] -> words = [] /\ exists l t, p_prefix o = Some l /\ says w (cx s) l t /\ w_shlex w t = [])) as [F3 Hcmd].
  { destruct b; [|injection E3 as <- <-; split; [done|]; intros ->; by destruct (Hb eq_refl)].
    revert E3. intros [(s4 & t & (c4 & E4 & Ec & F4)%st_cases & E)|[(x & _ & ?)|[_ ?]]]%bindS_inv; [|done..]. injection E as <- <-.
    split; [by eapply sframe_trans|]. intros [Ha Hb']%app_eq_nil. split; [done|].
    destruct (p_prefix o) as [l|]; [|by destruct (Hw eq_refl)]. exists l, t. split; [done|]. split; [by eapply says_in|done]. }
  clear E3. revert H; intros [(s4 & n & E4 & H)|[(e' & E4 & [= <-])|[_ ?]]]%bindS_inv; [| |done].
  2: { destruct (p_name o) as [l|].
       - apply st_cases in E4 as (c4 & E4 & _ & _). left. eapply HR; [|exact F3|exact E4]. rewrite !in_app_iff. right; right; by left; left.
       - destruct cmd as [|x rest]; [|done]. injection E4 as _ <-. destruct (Hcmd eq_refl) as (-> & l & t & Hl & Hs & Ht). right. split; [done|]. inversion E1; subst. split; [done|]. right. by exists l, t. }
  assert (sframe (cx s) (cx s4)) as F4.
  { destruct (p_name o) as [l|]; [apply st_cases in E4 as (c4 & _ & _ & F4); by eapply sframe_trans|]. destruct cmd; [done|]. by injection E4 as <- _. }
  revert H. rewrite {1}/bindS /=. set (s4' := set pcount _ s4). change (cx s4) with (cx s4') in F4. clearbody s4'. clear E4.
  intros [(s5 & cwd & E5 & H)|[(e' & E5 & [= <-])|[_ ?]]]%bindS_inv; [| |done].
  2: { destruct (p_cwd o) as [l|]; [|done]. revert E5. intros [(s6 & t & _ & E)|[(x & (c6 & E6 & _ & _)%st_cases & [= <-])|[_ ?]]]%bindS_inv; [done| |done].
       left. eapply HR; [|exact F4|exact E6]. rewrite !in_app_iff. right; right; right; by left; left. }
  assert (sframe (cx s) (cx s5)) as F5.
  { destruct (p_cwd o) as [l|]; [|by injection E5 as <- _]. revert E5. intros [(s6 & t & (c6 & E6 & _ & F6)%st_cases & E)|[(x & _ & ?)|[_ ?]]]%bindS_inv; [|done..]. injection E as <- _. by eapply sframe_trans. }
  revert H; intros [(s6 & e1 & E6 & H)|[(e' & E6 & [= <-])|[_ ?]]]%bindS_inv; [| |done].
  2: { destruct (p_env o) as [l|] eqn:Eo; [|done]. apply env_fails in E6 as (x & c2 & c3 & Hin & Hf & E). left. eapply HR; [|by eapply sframe_trans|exact E].
       rewrite !in_app_iff. do 4 right. cbn [default]. rewrite map_app concat_app in_app_iff. by left. }
  assert (sframe (cx s) (cx s6)) as F6.
  { destruct (p_env o) as [l|]; [|by injection E6 as <- _]. apply eval_env_cases in E6 as (c6 & ts & Ht & _ & ->). eapply sframe_trans; [exact F5|]. by eapply evals_frame. }
  revert H; intros [(s7 & e2 & E7 & H)|[(e' & E7 & [= <-])|[_ ?]]]%bindS_inv; [done| |done].
  destruct (p_addenv o) as [l|] eqn:Eo; [|done]. apply env_fails in E7 as (x & c2 & c3 & Hin & Hf & E). left. eapply HR; [|by eapply sframe_trans|exact E].
  rewrite !in_app_iff. do 4 right. cbn [default]. rewrite map_app concat_app in_app_iff. by right.
Qed.
End command.

Section executed.
Context (w : world).
Lemma start_det a out s s' p : start_proc w a out s = (s', Ok tt) -> procs s !! a = Some p ->
  exists p', procs s' !! a = Some p' /\ x_det p' = x_det p.
Proof.
  rewrite /start_proc /need_loop. destruct (loop_set (cx s)); [|done]. intros H Ep. revert H. rewrite /new_future /=.
  intros [(s3 & b & E5 & E6)|[(y & _ & ?)|[_ ?]]]%bindS_inv; [|done..].
  apply (O_on_ctx _ (perform_substitutions_frames w _)) in E5 as (c5 & n5 & pc5 & _ & _ & Hs5 & _ & ->). revert E6.
  intros [(s3 & [] & E5 & E6)|[(y & _ & ?)|[_ ?]]]%bindS_inv; [|done..].
  revert E5. destruct (w_output_ok w b); [|done]. intros [= <-]. revert E6. intros [= <-].
  eexists. split; [by rewrite /= !lookup_alter Ep|done].
Qed.
Lemma exec_runs a c oe s s' l : exec_proc w a c oe s = (s', Ok l) -> procs s !! a = None ->
  exists d p, will_run w (cx s) c (pcount s + 1) d /\ procs s' !! a = Some p /\ x_det p = Some d.
Proof.
  intros H Hn. revert H. rewrite /exec_proc {1}/bindS /=. set (s0 := s <| procs ::= _ |>).
  assert (procs s0 !! a = Some (mkPobj c oe (p_respawn c) false 0 None None None None None None emptyBuf emptyBuf false)) as E0 by (by rewrite /= lookup_insert /get_proc Hn).
  assert (cx s0 = cx s) as Ex by done. assert (pcount s0 = pcount s) as Ek by done. clearbody s0.
  intros [(s1 & [] & E1 & E2)|[(y & _ & ?)|[_ ?]]]%bindS_inv; [|done..].
  assert (exists d p, will_run w (cx s) c (pcount s + 1) d /\ procs s1 !! a = Some p /\ x_det p = Some d) as (d & p & H1 & H3 & H4).
  { revert E1. rewrite /prepare_proc E0. intros [(s3 & d & E3 & E4)|[(y & _ & ?)|[_ ?]]]%bindS_inv; [|done..].
    simpl in E3. pose proof (prepare_runs w _ _ _ _ E3) as HR. rewrite Ex Ek in HR.
    apply O_prepare_executable in E3 as (cc & n1 & pc1 & _ & _ & _ & _ & Es3). revert E4. rewrite {1}/bindS /=. rewrite {1}/bindS /on_ctx /=.
    destruct (perform_bval w (p_respawn c) (cx s3)) as [c2 rb] eqn:Eb. destruct rb as [b| |]; [|done..]. intros [= <-].
    exists d. eexists. split; [done|]. rewrite /= !lookup_alter Es3 /= E0 /=. done. }
  revert E2. rewrite H3. destruct (x_executed p); [done|]. destruct (is_shutdown _).
  { intros [= <- _]. exists d. eexists. split; [done|]. rewrite /= lookup_alter H3 /=. done. }
  intros [(s3 & [] & E3 & E4)|[(y & _ & ?)|[_ ?]]]%bindS_inv; [|done..]. revert E4. intros [= <- _].
  apply guard_procs in E3. eapply start_det in E3 as (p' & F1 & F2); [|by rewrite /= lookup_alter H3].
  exists d, p'. split; [done|]. split; [done|]. by rewrite F2.
Qed.
End executed.
