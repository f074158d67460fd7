(** Lemmas about individual actions. *)
From Coq Require Import ssreflect.
From Verif Require Import SubstFacts SubstLaws ExecFacts SpecActions VisitFacts.

#[local] Arguments String.append : simpl nomatch.

Lemma sframe_same c c' : sframe c c' -> same_variables c c'.
Proof.
  intros [E Hs Hn _ _]. rewrite /same_variables. split_and!; try by rewrite E.
  - intros k v H. by eapply lookup_weaken.
  - intros k v H1 H2. apply (Hn k H1). by exists v.
Qed.
Lemma same_refl c : same_variables c c.
Proof. apply sframe_same, sframe_refl. Qed.

Section w.
Context (w : world).

Lemma evals_frame ls c c' ts : evals w ls c c' ts -> sframe c c'.
Proof.
  induction 1; [apply sframe_refl|]. eapply sframe_trans; [|done]. by eapply perform_substitutions_frames.
Qed.
Lemma evals_fail_frame ls c c' e : evals_fail w ls c c' e -> sframe c c'.
Proof.
  intros (b & l & a & c1 & ts & -> & H & E). eapply sframe_trans; [by eapply evals_frame|].
  by eapply perform_substitutions_frames.
Qed.
Lemma evals_app a b c c1 c2 ts us :
  evals w a c c1 ts -> evals w b c1 c2 us -> evals w (a ++ b) c c2 (ts ++ us).
Proof. induction 1; intros; simpl; [done|]. econstructor; eauto. Qed.
Lemma evals_fail_app a b c c1 c2 ts e :
  evals w a c c1 ts -> evals_fail w b c1 c2 e -> evals_fail w (a ++ b) c c2 e.
Proof.
  intros Ha (p & l & q & c3 & us & -> & H & E).
  exists (a ++ p), l, q, c3, (ts ++ us). split_and!; [by rewrite -app_assoc|by eapply evals_app|done].
Qed.
Lemma evals_fail_here l q c c1 e :
  perform_substitutions w l c = (c1, Exn e) -> evals_fail w (l :: q) c c1 e.
Proof. intros H. exists [], l, q, c, []. split_and!; [done|constructor|done]. Qed.
Lemma evals_fail_cons l q c c1 c2 t e :
  perform_substitutions w l c = (c1, Ok t) -> evals_fail w q c1 c2 e -> evals_fail w (l :: q) c c2 e.
Proof. intros H Hq. apply (evals_fail_app [l] q c c1 c2 [t]); [|done]. econstructor; [done|constructor]. Qed.

Lemma perform_st_eq l s : perform_st w l s =
  ((s <| cx := (perform_substitutions w l (cx s)).1 |>), (perform_substitutions w l (cx s)).2).
Proof. rewrite /perform_st /on_ctx. by destruct (perform_substitutions w l (cx s)). Qed.
Lemma perform_st_inv l s s' r : perform_st w l s = (s', r) ->
  exists c, perform_substitutions w l (cx s) = (c, r) /\ s' = s <| cx := c |>.
Proof. rewrite perform_st_eq. destruct (perform_substitutions w l (cx s)) as [c x]. intros [= <- <-]. by exists c. Qed.
Lemma cx_cx (s : st) c d : s <| cx := c |> <| cx := d |> = s <| cx := d |>.
Proof. by destruct s. Qed.
Lemma cx_upd (s : st) f : s <| cx ::= f |> = s <| cx := f (cx s) |>.
Proof. by destruct s. Qed.
Lemma cx_get (s : st) c : cx (s <| cx := c |>) = c.
Proof. by destruct s. Qed.
Lemma cx_id (s : st) : s <| cx := cx s |> = s.
Proof. by destruct s. Qed.

(** ** Setting and unsetting *)
Lemma exec_set_cases set n v s s' r :
  exec_set w set n v s = (s', r) -> r <> OutOfFuel ->
  (exists c k x, evals w [v; n] (cx s) c [x; k] /\ r = Ok [] /\ s' = s <| cx := set k x c |>)
  \/ (exists c e, evals_fail w [v; n] (cx s) c e /\ r = Exn e /\ s' = s <| cx := c |>).
Proof.
  intros [(s1 & x & (c1 & E1 & ->)%perform_st_inv & E)|[(e & (c1 & E1 & ->)%perform_st_inv & ->)|[? ->]]]%bindS_inv Hr;
    [| |done].
  - revert E; intros [(s2 & k & (c2 & E2 & ->)%perform_st_inv & E)|[(e & (c2 & E2 & ->)%perform_st_inv & ->)|[? ->]]]%bindS_inv; [| |done].
    + revert E; intros [= <- <-]. left. exists c2, k, x. split_and!; [|done|by destruct s].
      econstructor; [done|]. econstructor; [done|constructor].
    + right. exists c2, e. split_and!; [|done|by destruct s].
      eapply evals_fail_cons; [done|]. by apply evals_fail_here.
  - right. exists c1, e. split_and!; [|done|done]. by apply evals_fail_here.
Qed.
Lemma exec_unset_cases del n s s' r :
  exec_unset w del n s = (s', r) -> r <> OutOfFuel ->
  (exists c k, evals w [n] (cx s) c [k] /\ r = Ok [] /\ s' = s <| cx := del k c |>)
  \/ (exists c e, evals_fail w [n] (cx s) c e /\ r = Exn e /\ s' = s <| cx := c |>).
Proof.
  intros [(s1 & x & (c1 & E1 & ->)%perform_st_inv & E)|[(e & (c1 & E1 & ->)%perform_st_inv & ->)|[? ->]]]%bindS_inv Hr;
    [| |done].
  - revert E; intros [= <- <-]. left. exists c1, x. split_and!; [|done|by destruct s]. econstructor; [done|constructor].
  - right. exists c1, e. split_and!; [|done|done]. by apply evals_fail_here.
Qed.
(** Setting a launch configuration in [s]. *)
Lemma set_lc_law fuel a n v s s' r :
  exec_action w fuel a (ASetLC n v) s = (s', r) -> r <> OutOfFuel ->
  exists c, same_variables (cx s) c /\
   ((exists k x, evals w [v; n] (cx s) c [x; k] /\ r = Ok []
                 /\ s' = s <| cx := c <| lc := <[k := x]> (lc c) |> |>)
    \/ (exists e, evals_fail w [v; n] (cx s) c e /\ r = Exn e /\ s' = s <| cx := c |>)).
Proof.
  intros H Hr. destruct (exec_set_cases _ _ _ _ _ _ H Hr) as [(c & k & x & He & -> & ->)|(c & e & He & -> & ->)]; exists c.
  - split; [by eapply sframe_same, evals_frame|]. left. by exists k, x.
  - split; [by eapply sframe_same, evals_fail_frame|]. right. by exists e.
Qed.
Lemma set_env_law fuel a n v s s' r :
  exec_action w fuel a (ASetEnv n v) s = (s', r) -> r <> OutOfFuel ->
  exists c, same_variables (cx s) c /\
   ((exists k x, evals w [v; n] (cx s) c [x; k] /\ r = Ok []
                 /\ s' = s <| cx := c <| env := <[k := x]> (env c) |> |>)
    \/ (exists e, evals_fail w [v; n] (cx s) c e /\ r = Exn e /\ s' = s <| cx := c |>)).
Proof.
  intros H Hr. destruct (exec_set_cases _ _ _ _ _ _ H Hr) as [(c & k & x & He & -> & ->)|(c & e & He & -> & ->)]; exists c.
  - split; [by eapply sframe_same, evals_frame|]. left. by exists k, x.
  - split; [by eapply sframe_same, evals_fail_frame|]. right. by exists e.
Qed.
Lemma unset_lc_law fuel a n s s' r :
  exec_action w fuel a (AUnsetLC n) s = (s', r) -> r <> OutOfFuel ->
  exists c, same_variables (cx s) c /\
   ((exists k, evals w [n] (cx s) c [k] /\ r = Ok []
                 /\ s' = s <| cx := c <| lc := delete k (lc c) |> |>)
    \/ (exists e, evals_fail w [n] (cx s) c e /\ r = Exn e /\ s' = s <| cx := c |>)).
Proof.
  intros H Hr. destruct (exec_unset_cases _ _ _ _ _ H Hr) as [(c & k & He & -> & ->)|(c & e & He & -> & ->)]; exists c.
  - split; [by eapply sframe_same, evals_frame|]. left. by exists k.
  - split; [by eapply sframe_same, evals_fail_frame|]. right. by exists e.
Qed.
Lemma unset_env_law fuel a n s s' r :
  exec_action w fuel a (AUnsetEnv n) s = (s', r) -> r <> OutOfFuel ->
  exists c, same_variables (cx s) c /\
   ((exists k, evals w [n] (cx s) c [k] /\ r = Ok []
                 /\ s' = s <| cx := c <| env := delete k (env c) |> |>)
    \/ (exists e, evals_fail w [n] (cx s) c e /\ r = Exn e /\ s' = s <| cx := c |>)).
Proof.
  intros H Hr. destruct (exec_unset_cases _ _ _ _ _ H Hr) as [(c & k & He & -> & ->)|(c & e & He & -> & ->)]; exists c.
  - split; [by eapply sframe_same, evals_frame|]. left. by exists k.
  - split; [by eapply sframe_same, evals_fail_frame|]. right. by exists e.
Qed.

Lemma bval_frames b : frames (perform_bval w b).
Proof.
  destruct b as [b|l]; [apply frames_ret|]. apply frames_bind; [apply perform_substitutions_frames|].
  intros t. apply frames_lift.
Qed.
Lemma append_env_law fuel a n v p sep s s' r :
  exec_action w fuel a (AAppendEnv n v p sep) s = (s', r) -> r <> OutOfFuel ->
  exists c, same_variables (cx s) c /\
   ((exists c1 c2 k x front sp,
       evals w [n; v] (cx s) c1 [k; x] /\ perform_bval w p c1 = (c2, Ok front) /\ evals w [sep] c2 c [sp]
       /\ r = Ok []
       /\ s' = s <| cx := c <| env := <[k := match env (cx s) !! k with
                                             | None => x
                                             | Some old => if front then (x ++ sp ++ old)%string
                                                           else (old ++ sp ++ x)%string
                                             end]> (env c) |> |>)
    \/ (exists e, r = Exn e /\ s' = s <| cx := c |>)).
Proof.
  intros H Hr.
  revert H; intros [(s1 & k & (c1 & E1 & ->)%perform_st_inv & E)|[(e & (c1 & E1 & ->)%perform_st_inv & ->)|[? ->]]]%bindS_inv;
    [| |done]; last first.
  { exists c1. split; [by eapply sframe_same, perform_substitutions_frames|]. right. by exists e. }
  revert E; intros [(s2 & x & (c2 & E2 & ->)%perform_st_inv & E)|[(e & (c2 & E2 & ->)%perform_st_inv & ->)|[? ->]]]%bindS_inv;
    [| |done]; cbn in *; last first.
  { exists c2. split; [|right; exists e; split; [done|by destruct s]].
    eapply sframe_same, sframe_trans; by eapply perform_substitutions_frames. }
  revert E; intros [(s3 & f & E3 & E)|[(e & E3 & ->)|[? ->]]]%bindS_inv; [| |done];
    revert E3; rewrite /on_ctx /=; destruct (perform_bval w p c2) as [c3 r3] eqn:E3; intros [= <- ->]; last first.
  { exists c3. split; [|right; exists e; split; [done|by destruct s]].
    eapply sframe_same, sframe_trans; [by eapply perform_substitutions_frames|].
    eapply sframe_trans; [by eapply perform_substitutions_frames|by eapply bval_frames]. }
  revert E; intros [(s4 & sp & (c4 & E4 & ->)%perform_st_inv & E)|[(e & (c4 & E4 & ->)%perform_st_inv & ->)|[? ->]]]%bindS_inv;
    [| |done]; cbn in *.
  all: assert (F : sframe (cx s) c4) by
   (eapply sframe_trans; [by eapply perform_substitutions_frames|];
    eapply sframe_trans; [by eapply perform_substitutions_frames|];
    eapply sframe_trans; [by eapply bval_frames|by eapply perform_substitutions_frames]).
  all: exists c4; (split; [by apply sframe_same|]); try (right; exists e; split; [done|by destruct s]).
  left. revert E; intros [= <- <-]. exists c2, c3, k, x, f, sp. split_and!; try done.
  - econstructor; [done|]. econstructor; [done|constructor].
  - econstructor; [done|constructor].
  - assert (env c4 = env (cx s)) as Ee by by destruct (sframe_same _ _ F).
    rewrite -Ee cx_upd. rewrite !cx_get !cx_cx. f_equal. by destruct (env c4 !! k).
Qed.

(** ** ResetLaunchConfigurations *)
Lemma eval_cfgs_cases l acc s s' r :
  eval_cfgs w l acc s = (s', r) -> r <> OutOfFuel ->
  (exists c ts, evals w (texts_of l) (cx s) c ts /\ r = Ok (list_to_map (rev (pairs_of ts)) ∪ acc) /\ s' = s <| cx := c |>)
  \/ (exists c e, evals_fail w (texts_of l) (cx s) c e /\ r = Exn e /\ s' = s <| cx := c |>).
Proof.
  revert acc s. induction l as [|[k v] l IH]; intros acc s; cbn [eval_cfgs].
  { intros [= <- <-] _. left. exists (cx s), []. split_and!; [constructor|by rewrite left_id_L|by destruct s]. }
  intros [(s1 & k' & (c1 & E1 & ->)%perform_st_inv & E)|[(e & (c1 & E1 & ->)%perform_st_inv & ->)|[? ->]]]%bindS_inv Hr;
    [| |done]; last first.
  { right. exists c1, e. split_and!; [|done..]. by apply evals_fail_here. }
  revert E; intros [(s2 & v' & (c2 & E2 & ->)%perform_st_inv & E)|[(e & (c2 & E2 & ->)%perform_st_inv & ->)|[? ->]]]%bindS_inv;
    [| |done]; cbn in *; last first.
  { right. exists c2, e. split_and!; [|done|by destruct s].
    eapply evals_fail_cons; [done|]. by apply evals_fail_here. }
  destruct (IH _ _ E Hr) as [(c & ts & Ht & -> & ->)|(c & e & He & -> & ->)].
  - left. exists c, (k' :: v' :: ts). split_and!; [|f_equal|by destruct s].
    + econstructor; [done|]. econstructor; [done|]. exact Ht.
    + simpl. rewrite list_to_map_app. cbn [list_to_map foldr]. rewrite insert_empty -assoc_L.
      by rewrite insert_union_singleton_l.
  - right. exists c, e. split_and!; [|done|by destruct s].
    eapply evals_fail_cons; [done|]. by eapply evals_fail_cons.
Qed.
Lemma reset_law fuel a l s s' r :
  exec_action w fuel a (AResetLC (Some l)) s = (s', r) -> r <> OutOfFuel ->
  exists c, same_variables (cx s) c /\
   ((exists ts, evals w (texts_of l) (cx s) c ts /\ r = Ok []
                /\ s' = s <| cx := c <| lc := dict_of (pairs_of ts) |> |>)
    \/ (exists e, evals_fail w (texts_of l) (cx s) c e /\ r = Exn e /\ s' = s <| cx := c |>)).
Proof.
  intros H Hr. cbn in H.
  revert H; intros [(s1 & d & E & E')|[(e & E & ->)|[? ->]]]%bindS_inv; [| |done].
  - destruct (eval_cfgs_cases _ _ _ _ _ E ltac:(done)) as [(c & ts & Ht & [= ->] & ->)|(? & ? & ? & ? & ?)]; [|done].
    exists c. split; [by eapply sframe_same, evals_frame|]. left. exists ts. revert E'; intros [= <- <-].
    split_and!; [done..|]. rewrite right_id_L. by destruct s.
  - destruct (eval_cfgs_cases _ _ _ _ _ E ltac:(done)) as [(c & ts & Ht & ? & ->)|(c & e' & He & [= ->] & ->)]; [done|].
    exists c. split; [by eapply sframe_same, evals_fail_frame|]. right. by exists e'.
Qed.
Lemma reset_all_law fuel a s :
  exec_action w fuel a (AResetLC None) s = (s <| cx := (cx s) <| lc := ∅ |> |>, Ok []).
Proof. by destruct s. Qed.

(** ** DeclareLaunchArgument *)
Lemma existsb_in (x : string) l : existsb (String.eqb x) l = true <-> In x l.
Proof.
  rewrite existsb_exists. split; [intros (y & H & ->%String.eqb_eq); done|].
  intros H. exists x. split; [done|]. by apply String.eqb_eq.
Qed.
Lemma declare_law fuel a n d ch s s' r :
  exec_action w fuel a (ADeclare n d ch) s = (s', r) -> r <> OutOfFuel ->
  (exists c v, same_variables (cx s) c /\ s' = s <| cx := c <| lc := <[n := v]> (lc c) |> |>
      /\ (lc (cx s) !! n = Some v /\ c = cx s
          \/ lc (cx s) !! n = None /\ exists t, d = Some t /\ evals w [t] (cx s) c [v])
      /\ (r = Ok [] /\ (forall l, ch = Some l -> In v l)
          \/ r = Exn XRuntime /\ exists l, ch = Some l /\ ~ In v l))
  \/ (lc (cx s) !! n = None /\ d = None /\ r = Exn XRuntime /\ s' = s)
  \/ (exists t c e, lc (cx s) !! n = None /\ d = Some t /\ evals_fail w [t] (cx s) c e
        /\ r = Exn e /\ s' = s <| cx := c |>).
Proof.
  intros H Hr. cbn in H. rewrite /exec_declare in H.
  destruct (lc (cx s) !! n) as [v|] eqn:En.
  { left. exists (cx s), v.
    assert (Es : s = s <| cx := (cx s) <| lc := <[n := v]> (lc (cx s)) |> |>).
    { rewrite insert_id; [done|]. by destruct s as [[]]. }
    split; [apply same_refl|].
    rewrite /bindS En /= in H. destruct ch as [l|].
    - rewrite En in H. destruct (existsb (String.eqb v) l) eqn:Ei; simplify_eq.
      + apply existsb_in in Ei. split_and!; [done|by left|]. left. split; [done|]. by intros ? [= <-].
      + split_and!; [done|by left|]. right. split; [done|]. exists l. split; [done|].
        intros Hi%existsb_in. congruence.
    - revert H; intros [= <- <-]. split_and!; [done|by left|]. left. by split. }
  destruct d as [t|]; last first.
  { right; left. rewrite /bindS En /= in H. by simplify_eq. }
  revert H; intros [(s1 & x & E & E')|[(e & E & ->)|[E ->]]]%bindS_inv; [| |done]; rewrite En in E.
  - left. revert E; intros [(s2 & v & (c & E1 & ->)%perform_st_inv & E)|[(?&?&?)|[??]]]%bindS_inv; [|done..].
    revert E; intros [= <-]. exists c, v. split; [by eapply sframe_same, perform_substitutions_frames|].
    assert (evals w [t] (cx s) c [v]) by (econstructor; [done|constructor]).
    destruct ch as [l|]; cbn in E'.
    + rewrite lookup_insert in E'. destruct (existsb (String.eqb v) l) eqn:Ei; simplify_eq.
      * apply existsb_in in Ei. split_and!; [by destruct s|right; eauto|]. left. split; [done|]. by intros ? [= <-].
      * split_and!; [by destruct s|right; eauto|]. right. split; [done|]. exists l. split; [done|].
        intros Hi%existsb_in. congruence.
    + revert E'; intros [= <- <-]. split_and!; [by destruct s|right; eauto|]. left. by split.
  - right; right. revert E; intros [(s2 & v & E1 & E)|[(e' & (c & E1 & ->)%perform_st_inv & ?)|[??]]]%bindS_inv; [done| |done].
    simplify_eq. exists t, c, e'. split_and!; try done. by apply evals_fail_here.
Qed.
End w.
