(** What the automaton of ProcFacts says about the history of a process action. *)
From Coq Require Import ssreflect.
From Verif Require Import SubstFacts SpecProc ExecFacts VisitFacts HandleFacts StepFacts MicroSteps OwnFacts ProcFacts.

(** ** Invariants of the automaton *)
Record avok (v : aview) : Prop := {
  ak_cfg : v_cfg v = None -> v_on v = false;
  ak_off : v_on v = false -> v_ph v = [] /\ v_tr v = None /\ v_comp v = None /\ v_sd v = None /\ v_tries v = 0%Z;
  ak_tr : v_tr v = Some false -> exists d, v_ph v = [PhRun d None];
  ak_ph : v_ph v <> [] -> v_comp v = Some false /\ v_sd v <> None;
  ak_one : (length (v_ph v) <= 1)%nat;
  ak_resp : forall c b, v_cfg v = Some c -> p_respawn c = BV b -> v_resp v = BV b;
  ak_run : forall d, v_ph v = [PhRun d None] -> v_tr v = Some false }.
Lemma avok_none b : avok (v_none b).
Proof. by constructor; simpl; auto. Qed.
Lemma avok_step a v l v' : astep a v l v' -> avok v -> avok v'.
Proof.
  intros H [A1 A2 A3 A4 A5 A6 A7]. destruct H; try by constructor.
  all: try (assert (v_comp v = Some false /\ v_sd v <> None) as [Hcomp Hsd] by (apply A4; congruence)).
  all: try (assert (v_on v <> false) as Hon by (intros E; destruct (A2 E) as (E1 & _); congruence)).
  all: try (destruct (A2 ltac:(done)) as (B1 & B2 & B3 & B4 & B5)).
  all: constructor; simpl; try done; try (intros; exfalso; congruence); auto.
  all: try by (intros E; specialize (A3 E) as [? ?]; congruence).
  all: try by rewrite ?B2.
  - intros c0 b0 [= <-]. done.
  - intros c0 b0 E1 E2. f_equal. assert (c0 = c) as -> by congruence. apply H0. by eapply A6.
  - by destruct H2 as [->| ->]; simpl; lia.
  - intros d ->. by destruct H2.
  - intros E. destruct (A2 E) as (_ & _ & _ & E4 & _). congruence.
  - intros E. destruct (A4 E). congruence.
  - intros E. destruct (A2 E) as (_ & _ & _ & E4 & _). congruence.
  - intros E. eexists. destruct rc; [done|reflexivity].
  - by intros d0 [= -> ->].
  - by destruct H1 as [->|[->|[dl ->]]]; simpl; lia.
  - intros d0 ->. by destruct H1 as [|[|[dl ?]]].
  - by destruct H1 as [->| ->]; simpl; lia.
  - intros d0 ->. by destruct H1.
Qed.

Definition thist (a : aid) (l : list obs) : list obs := process_history a (rev l).
Lemma thist_app a l1 l2 : thist a (l1 ++ l2) = thist a l2 ++ thist a l1.
Proof. by rewrite /thist /process_history rev_app_distr List.filter_app. Qed.
Lemma thist_abouts a l : thist a (abouts a l) = thist a l.
Proof.
  induction l as [|o l IH]; [done|]. change (o :: l) with ([o] ++ l). rewrite /abouts List.filter_app !thist_app.
  fold (abouts a l). rewrite IH. f_equal. rewrite /thist /=. destruct (about a o) eqn:E; [done|].
  destruct o; try done; simpl in *; by rewrite ?E.
Qed.
(** The lives that are over, and what is known of the current one. *)
Definition current (a : aid) (ph : list phase) (cur : list obs) : Prop :=
  match ph with
  | [PhConn d None] => exists pid, d_pid d = Some pid /\ cur = [OSpawn a pid]
  | [PhConn d (Some rc)] => exists pid, d_pid d = Some pid /\ cur = [OSpawn a pid; OReap a rc]
  | [PhRun d None] => exists pid sigs, d_pid d = Some pid /\ Forall (is_signal a) sigs /\
      cur = OSpawn a pid :: OLife (EvStarted a d) :: sigs
  | [PhRun d (Some rc)] => exists pid, d_pid d = Some pid /\
      ((exists sigs, Forall (is_signal a) sigs /\ cur = OSpawn a pid :: OLife (EvStarted a d) :: sigs ++ [OReap a rc]) \/
       cur = [OSpawn a pid; OReap a rc; OLife (EvStarted a d)])
  | _ => cur = []
  end.
Definition lives (a : aid) (l : list obs) (v : aview) : Prop :=
  exists ls cur, thist a l = concat ls ++ cur /\ Forall (session a) ls /\ current a (v_ph v) cur.
Lemma lives_same a l l1 v v' : lives a l v -> v_ph v' = v_ph v -> thist a l1 = [] -> lives a (l1 ++ l) v'.
Proof. intros (ls & cur & E & HS & HC) E1 E2. exists ls, cur. rewrite thist_app E2 app_nil_r E1. done. Qed.
Lemma lives_next a l l1 v v' : lives a l v -> (forall cur, current a (v_ph v) cur -> current a (v_ph v') (cur ++ thist a l1)) ->
  lives a (l1 ++ l) v'.
Proof.
  intros (ls & cur & E & HS & HC) H. exists ls, (cur ++ thist a l1). rewrite thist_app E app_assoc. split; [done|]. split; [done|]. by apply H.
Qed.
Lemma lives_end a l l1 v v' : lives a l v -> (forall cur, current a (v_ph v) cur -> session a (cur ++ thist a l1)) ->
  current a (v_ph v') [] -> lives a (l1 ++ l) v'.
Proof.
  intros (ls & cur & E & HS & HC) H H'. exists (ls ++ [cur ++ thist a l1]), []. rewrite thist_app E concat_app /= !app_nil_r app_assoc.
  split; [done|]. split; [|done]. apply Forall_app_2; [done|]. constructor; [by apply H|done].
Qed.
Lemma lives_step a l v l1 v' : avok v -> astep a v l1 v' -> lives a l v -> lives a (l1 ++ l) v'.
Proof.
  intros [A1 A2 A3 A4 A5 A6 A7] H HL. assert (forall o, of_process a o = true -> thist a [o] = [o]) as T1.
  { intros o Ho. by rewrite /thist /= Ho. }
  destruct H.
  all: try (by apply (lives_same a l _ v)).
  - destruct (A2 (A1 H)) as [E _]. by apply (lives_same a l _ v).
  - destruct (A2 H0) as [E _]. eapply (lives_next a l [] v); [done|]. rewrite E /=. intros cur ->. by destruct H2 as [->| ->].
  - destruct (A3 H) as [d E]. eapply (lives_next a l _ v); [done|]. rewrite E /=. intros cur (pid & sigs & Hd & Hs & ->).
    rewrite T1 /= ?bool_decide_true //. exists pid, (sigs ++ [OSignal a sg]). split; [done|]. split; [|done].
    apply Forall_app_2; [done|]. constructor; [by eexists|done].
  - eapply (lives_next a l [] v); [done|]. rewrite H /=. by intros cur ->.
  - eapply (lives_next a l [] v); [done|]. rewrite H /=. by intros cur ->.
  - eapply (lives_next a l _ v); [done|]. rewrite H /= T1 /= ?bool_decide_true //. intros cur ->. exists pid. by rewrite H0.
  - eapply (lives_next a l [] v); [done|]. rewrite H /=. by intros cur ->.
  - eapply (lives_next a l _ v); [done|]. rewrite H /= T1 /= ?bool_decide_true //. intros cur (pid & Hd & ->). by exists pid.
  - eapply (lives_next a l _ v); [done|]. rewrite H /= T1 /= ?bool_decide_true //. intros cur (pid & sigs & Hd & Hs & ->).
    exists pid. split; [done|]. left. by exists sigs.
  - eapply (lives_next a l _ v); [done|]. rewrite H /= T1 /= ?bool_decide_true //. destruct rc as [rc|].
    + intros cur (pid & Hd & ->). exists pid. split; [done|]. by right.
    + intros cur (pid & Hd & ->). by exists pid, [].
  - eapply (lives_end a l _ v); [done| |done]. rewrite H /= T1 /= ?bool_decide_true //.
    intros cur (pid & Hd & [(sigs & Hs & ->)| ->]); [|by constructor]. rewrite /= -app_assoc /=. by constructor.
  - eapply (lives_end a l _ v); [done| |by destruct H1 as [->|[->|[dl ->]]]]. rewrite H /= T1 /= ?bool_decide_true //.
    intros cur (pid & Hd & [(sigs & Hs & ->)| ->]); [|by constructor]. rewrite /= -app_assoc /=. by constructor.
  - eapply (lives_next a l [] v); [done|]. rewrite H /=. intros cur ->. by destruct H1 as [->| ->].
  - eapply (lives_next a l [] v); [done|]. rewrite H /=. by intros cur ->.
Qed.
Lemma arun_inv a (I : list obs -> aview -> Prop) : (forall l v l1 v', I l v -> avok v -> astep a v l1 v' -> I (l1 ++ l) v') ->
  forall v l v' l0, arun a v l v' -> avok v -> I l0 v -> I (l ++ l0) v' /\ avok v'.
Proof.
  intros HI v l v' l0 H. induction H as [|v l v1 l1 v2 _ IH H]; [done|]. intros Hv H0. destruct (IH Hv H0) as [H1 H2].
  split; [|by eapply avok_step]. rewrite -app_assoc. by eapply HI.
Qed.
Lemma arun_inv0 a (I : list obs -> aview -> Prop) : (forall b, I [] (v_none b)) ->
  (forall l v l1 v', I l v -> avok v -> astep a v l1 v' -> I (l1 ++ l) v') ->
  forall l v, arun a (v_none false) l v -> I l v /\ avok v.
Proof. intros H0 HI l v H. destruct (arun_inv a I HI _ _ _ [] H) as [H1 H2]; [apply avok_none|apply H0|]. by rewrite app_nil_r in H1. Qed.
Lemma current_prefix a ph cur : current a ph cur -> exists more, session a (cur ++ more).
Proof.
  intros H.
  assert (session a ([] ++ [OSpawn a 1; OReap a 0; OLife (EvStarted a (mkPdet "" [] None ∅ (Some 1%Z))); OLife (EvExited a (mkPdet "" [] None ∅ (Some 1%Z)) 0)])) as H0.
  { by constructor. }
  destruct ph as [|x [|]]; simpl in H; [subst; by eexists| |destruct x; subst; try by eexists].
  2,3: by destruct rc; subst; eexists.
  destruct x as [| |d rc|d rc|]; subst; try by eexists.
  - destruct rc as [rc|].
    + destruct H as (pid & Hd & ->). eexists [_; _]. by eapply session_short.
    + destruct H as (pid & Hd & ->). exists [OReap a 0; OLife (EvStarted a d); OLife (EvExited a d 0)]. by eapply session_short.
  - destruct rc as [rc|].
    + destruct H as (pid & Hd & [(sigs & Hs & ->)| ->]).
      * exists [OLife (EvExited a d rc)]. rewrite /= -app_assoc. by constructor.
      * eexists [_]. by eapply session_short.
    + destruct H as (pid & sigs & Hd & Hs & ->). exists [OReap a 0; OLife (EvExited a d 0)]. by constructor.
Qed.

(** ** Counting *)
Definition cnt (f : obs -> bool) (l : list obs) : nat := length (List.filter f l).
Lemma cnt_app f l1 l2 : cnt f (l1 ++ l2) = (cnt f l1 + cnt f l2)%nat.
Proof. by rewrite /cnt List.filter_app app_length. Qed.
Lemma cnt_rev f l : cnt f (rev l) = cnt f l.
Proof. induction l as [|x l IH]; [done|]. simpl. rewrite cnt_app IH /cnt /=. destruct (f x); simpl; lia. Qed.
Lemma cnt_abouts a f l : (forall o, f o = true -> about a o = true) -> cnt f (abouts a l) = cnt f l.
Proof.
  intros Hf. induction l as [|o l IH]; [done|]. rewrite /cnt /=. destruct (about a o) eqn:E; simpl.
  - destruct (f o); simpl; by rewrite -/(cnt f (abouts a l)) IH.
  - destruct (f o) eqn:Ef; [by rewrite (Hf _ Ef) in E|]. by rewrite -/(cnt f (abouts a l)) IH.
Qed.
Definition is_spawn (a : aid) (o : obs) : bool := match o with OSpawn b _ => bool_decide (b = a) | _ => false end.
Definition is_escal (a : aid) (o : obs) : bool := match o with OEscalate b _ _ _ => bool_decide (b = a) | _ => false end.

(** The number of processes started. *)
Definition waits (ph : list phase) : nat := match ph with [PhInit] | [PhSpawn _] | [PhDelay _] => 1 | _ => 0 end.
Record counted (a : aid) (l : list obs) (v : aview) : Prop := {
  cd_off : v_comp v = None -> cnt (is_spawn a) l = O;
  cd_le : (cnt (is_spawn a) l + waits (v_ph v) <= 1 + Z.to_nat (v_tries v))%nat;
  cd_pos : (0 <= v_tries v)%Z;
  cd_max : forall c, v_cfg v = Some c -> (0 <= p_max c)%Z -> (v_tries v <= p_max c)%Z;
  cd_no : forall c, v_cfg v = Some c -> p_respawn c = BV false -> v_tries v = 0%Z;
  cd_esc : (v_sd v <> Some true -> cnt (is_escal a) l = O) /\ (cnt (is_escal a) l <= 1)%nat }.
Lemma counted_step a l v l1 v' : counted a l v -> avok v -> astep a v l1 v' -> counted a (l1 ++ l) v'.
Proof.
  intros [C1 C2 C3 C4 C5 C6] [A1 A2 A3 A4 A5 A6 A7] H.
  destruct C6 as [C6 C7].
  destruct H; rewrite ?cnt_app; try rewrite (cnt_app _ [OAsked a]).
  all: try (assert (v_comp v = Some false /\ v_sd v <> None) as [Hcomp Hsd] by (apply A4; congruence)).
  all: try (assert (v_on v <> false) as Hon by (intros E; destruct (A2 E) as (E1 & _); congruence)).
  all: try (destruct (A2 ltac:(auto)) as (B1 & B2 & B3 & B4 & B5)).
  all: constructor; rewrite /= ?cnt_app /cnt /= ?bool_decide_true //=; rewrite -/(cnt (is_spawn a) l) -/(cnt (is_escal a) l); try done; try (intros; exfalso; congruence); auto.
  all: try rewrite -> B1 in *; try match goal with HH : v_ph ?v0 = _ |- _ => rewrite -> HH in * end; simpl in *.
  all: try rewrite -> C1 in * by done; try lia.
  - by rewrite C6 ?B4.
  - destruct H2 as [->| ->]; simpl; lia.
  - by rewrite C6 ?B4.
  - rewrite C6; [congruence|]. split; [done|lia].
  - destruct H1 as [->|[->|[dl ->]]]; simpl; lia.
  - intros c Ec Hp. move: H0. rewrite /respawns Ec /max_left => /andb_prop [_]. intros [?%Z.ltb_lt|?%Z.ltb_lt]%orb_prop; lia.
  - intros c Ec Hp. exfalso. move: H0. rewrite /respawns (A6 _ _ Ec Hp) /= andb_false_r. done.
  - destruct H1 as [->| ->]; simpl; lia.
Qed.
Lemma counted_none a b : counted a [] (v_none b).
Proof. constructor; simpl; try done; rewrite /cnt /=; try lia. Qed.

(** ** What cannot happen any more *)
Definition quiet (v : aview) : Prop := v_ph v = [] /\ (v_on v = true \/ v_flag v = true).
Lemma quiet_step a v l v' : astep a v l v' -> avok v -> quiet v -> quiet v' /\ thist a l = [].
Proof.
  intros H [A1 A2 A3 A4 A5 A6 A7] [Q1 Q2]. destruct H; try congruence; try done.
  all: try by (split; [split; simpl; auto|]).
  - split; [split; [done|]|done]. destruct Q2 as [E|E]; [|by right]. rewrite (A1 H) in E. done.
  - destruct Q2; congruence.
  - destruct (A3 H). congruence.
Qed.
Definition doomed (v : aview) : Prop := v_sd v = Some true /\ v_ph v <> [PhInit] /\ forall d, v_ph v <> [PhSpawn d].
Lemma doomed_step a v l v' : astep a v l v' -> avok v -> doomed v -> doomed v' /\ cnt (is_spawn a) l = O.
Proof.
  intros H [A1 A2 A3 A4 A5 A6 A7] (D1 & D2 & D3). destruct H; try congruence; try done.
  all: try by (split; [split; simpl; auto|]).
  all: try (by destruct (D3 _ H)).
  - destruct (A2 (A1 H)) as (_ & _ & _ & ? & _). congruence.
  - destruct (A2 H0) as (_ & _ & _ & ? & _). congruence.
  - exfalso. move: H0. by rewrite /respawns D1 /= andb_false_r.
Qed.
Definition ends (v : aview) : Prop := doomed v /\ (v_ph v <> [] \/ v_comp v = Some true).
Lemma ends_step a v l v' : astep a v l v' -> avok v -> ends v -> ends v'.
Proof.
  intros H Hv [HD HE]. split; [by eapply doomed_step|]. destruct Hv as [A1 A2 A3 A4 A5 A6 A7], HD as (D1 & D2 & D3).
  destruct H; try congruence; try done; simpl; auto.
  - destruct (A2 (A1 H)) as (_ & _ & _ & ? & _). congruence.
  - destruct (A2 H0) as (_ & _ & _ & ? & _). congruence.
  - exfalso. move: H0. by rewrite /respawns D1 /= andb_false_r.
Qed.
Lemma over_step a v l v' : astep a v l v' -> avok v -> v_comp v = Some true ->
  v_comp v' = Some true /\ v_ph v' = [] /\ thist a l = [] /\ cnt (is_escal a) l = O.
Proof.
  intros H [A1 A2 A3 A4 A5 A6 A7] HC.
  assert (v_ph v = []) as HP. { destruct (v_ph v) eqn:E; [done|]. destruct A4 as [E1 _]; [done|]. congruence. }
  destruct H; try congruence; try done.
  - destruct (A2 (A1 H)) as (_ & _ & ? & _). congruence.
  - destruct (A2 H0) as (_ & _ & ? & _). congruence.
  - destruct (A3 H). congruence.
Qed.
(** A request stays taken into account; counts never fall. *)
Lemma sd_step a v l v' : astep a v l v' -> avok v -> v_sd v = Some true -> v_sd v' = Some true.
Proof.
  intros H [A1 A2 A3 A4 A5 A6 A7] E. destruct H; try congruence; try done.
  - destruct (A2 (A1 H)) as (_ & _ & _ & ? & _). congruence.
  - destruct (A2 H0) as (_ & _ & _ & ? & _). congruence.
Qed.

(** ** From the automaton to the model *)
Section life.
Context (w : world).
Implicit Types (s : st) (a : aid).

Lemma life_all a s : reachable w s -> lives a (log s) (view a s) /\ counted a (log s) (view a s) /\ avok (view a s).
Proof.
  intros H. apply (sim_reachable w a) in H.
  destruct (arun_inv0 a (fun l v => lives a l v /\ counted a l v)) with (3 := H) as [[H1 H2] H3].
  - intros b. split; [|apply counted_none]. by exists [], [].
  - intros l v l1 v' [HL HC] Hv Hs. split; [by eapply lives_step|by eapply counted_step].
  - split; [|split; [|done]].
    + destruct H1 as (ls & cur & E & R). exists ls, cur. by rewrite -E thist_abouts.
    + destruct H2 as [C1 C2 C3 C4 C5 C6]. revert C1 C2 C6. rewrite !cnt_abouts; [by intros []|by intros []|]. intros. by constructor.
Qed.
Lemma steps_app s1 l1 s2 l2 s3 : steps w s1 l1 s2 -> steps w s2 l2 s3 -> steps w s1 (l1 ++ l2) s3.
Proof. induction 1; [done|]. intros. simpl. econstructor; eauto. Qed.
Lemma reachable_steps s ls s' : reachable w s -> steps w s ls s' -> reachable w s'.
Proof. intros (n & e & ls0 & H0) H. exists n, e, (ls0 ++ ls). by eapply steps_app. Qed.
Lemma closed_steps a (J : aview -> Prop) (K : list obs -> Prop) s ls s' :
  K [] -> (forall l1 l, K l1 -> K l -> K (l1 ++ l)) ->
  (forall v l v', astep a v l v' -> avok v -> J v -> J v' /\ K l) ->
  reachable w s -> steps w s ls s' -> J (view a s) -> exists l, log s' = l ++ log s /\ J (view a s') /\ K (abouts a l).
Proof.
  intros K0 KA HS Hr H HJ. destruct (sim_steps w a s ls s') as (l & El & A); [by apply (pinv_reachable w)|done|].
  exists l. split; [done|]. destruct (life_all a s Hr) as (_ & _ & Hv).
  destruct (arun_inv a (fun l v => J v /\ K l)) with (v := view a s) (l := abouts a l) (v' := view a s') (l0 := @nil obs) as [[H1 H2] _]; try done.
  - intros l0 v l1 v' [HJ0 HK0] Hv0 H0. destruct (HS _ _ _ H0 Hv0 HJ0). split; [done|]. by apply KA.
  - by rewrite app_nil_r in H2.
Qed.

(** ** Reading the view *)
Lemma v_sd_true a s : v_sd (view a s) = Some true <-> shut_requested a s.
Proof.
  rewrite /view /key /viewf /shut_requested /f_is_done /f_get. destruct (procs s !! a) as [p|]; simpl.
  - destruct (x_shutdown p) as [f|] eqn:Ef; simpl; split; try done.
    + intros [= E]. by exists p, f.
    + intros (? & g & [= <-] & E & H). assert (g = f) as -> by congruence. by rewrite H.
    + intros (? & ? & [= <-] & ? & _). congruence.
  - split; [done|]. by intros (? & ? & ? & _).
Qed.
Lemma v_comp_eq a s : v_comp (view a s) = completion a s.
Proof.
  rewrite /view /key /viewf /completion /f_is_done /f_get. destruct (procs s !! a) as [p|]; simpl; [|done].
  by destruct (x_completed p).
Qed.
Lemma v_cfg_eq a s : v_cfg (view a s) = config a s.
Proof. rewrite /view /key /viewf /config. by destruct (procs s !! a). Qed.
Lemma v_tries_eq a s : v_tries (view a s) = tries a s.
Proof. rewrite /view /key /viewf /tries. by destruct (procs s !! a). Qed.
Lemma v_ph_eq a s : v_ph (view a s) = phases (ptasks a s).
Proof. rewrite /view /viewf. by destruct (key a s). Qed.
Lemma v_on_true a s : v_on (view a s) = true <-> was_executed a s.
Proof.
  rewrite /view /key /viewf /was_executed. destruct (procs s !! a) as [p|]; simpl; split; try done.
  - intros E. by exists p.
  - by intros (? & [= <-] & ?).
  - by intros (? & ? & ?).
Qed.
Lemma v_flag_eq a s : v_flag (view a s) = is_shutdown (cx s).
Proof. rewrite /view /viewf. by destruct (key a s). Qed.
Lemma active_ph a s : active a s <-> v_ph (view a s) <> [].
Proof.
  rewrite v_ph_eq /active. split.
  - intros (t & Hin & Ht) E. assert (In t (ptasks a s)) as Hp. { apply filter_In. split; [done|]. by destruct t; subst; try done; apply bool_decide_true. }
    by destruct (ptasks a s).
  - intros E. destruct (ptasks a s) as [|t pt] eqn:Et; [done|]. assert (In t (ptasks a s)) as [H1 H2]%filter_In by (rewrite Et; by left).
    exists t. split; [done|]. destruct t; try done; by apply bool_decide_eq_true in H2.
Qed.
Lemma in_ptasks a s t : In t (tasks s) -> ptask a t = true -> In t (ptasks a s).
Proof. intros. by apply filter_In. Qed.
Lemma not_starting a s : ~ starting a s -> v_ph (view a s) <> [PhInit] /\ forall d, v_ph (view a s) <> [PhSpawn d].
Proof.
  rewrite v_ph_eq. intros H. destruct (ptasks a s) as [|t [|t' pt]] eqn:Et; simpl; [done| |by split; [|intros d] => ?].
  assert (In t (ptasks a s)) as [H1 H2]%filter_In by (rewrite Et; by left).
  destruct t; try done; simpl in *; apply bool_decide_eq_true in H2; subst.
  - destruct H. eexists. split; [done|]. by left.
  - destruct H. eexists. split; [done|]. right. by eexists.
Qed.
Lemma one_phase a s t : avok (view a s) -> In t (tasks s) -> ptask a t = true -> ptasks a s = [t].
Proof.
  intros Hv H1 H2. pose proof (in_ptasks a s t H1 H2) as Hin. pose proof (ak_one _ Hv) as Hl. move: Hl. rewrite v_ph_eq /phases map_length.
  destruct (ptasks a s) as [|t0 [|]]; simpl in *; [done| |lia]. destruct Hin as [->|[]]. done.
Qed.
Lemma alive_ph a s : avok (view a s) -> alive a s <-> exists d, v_ph (view a s) = [PhConn d None] \/ v_ph (view a s) = [PhRun d None].
Proof.
  intros Hv. split.
  - intros (f & d & [H|H]); exists d; rewrite v_ph_eq (one_phase a s _ Hv H) /= ?bool_decide_true //; auto.
  - rewrite v_ph_eq. intros (d & H). destruct (ptasks a s) as [|t [|]] eqn:Et; simpl in H; try by destruct H.
    assert (In t (ptasks a s)) as [H1 H2]%filter_In by (rewrite Et; by left).
    destruct t; simpl in *; destruct H as [H|H]; try done; apply bool_decide_eq_true in H2; subst; simplify_eq; eexists _, _; eauto.
Qed.

(** ** C24 *)
Lemma life_cycles_thm a s : reachable w s -> life_cycles a (process_history a (hist s)).
Proof.
  intros H. destruct (life_all a s H) as ((ls & cur & E & HS & HC) & _ & _). destruct (current_prefix _ _ _ HC) as [more Hm].
  by exists ls, cur, more.
Qed.
Lemma cnt_history f a l : (forall o, f o = true -> of_process a o = true) -> cnt f (process_history a l) = cnt f l.
Proof.
  intros Hf. induction l as [|o l IH]; [done|]. rewrite /cnt /process_history /=. destruct (of_process a o) eqn:E; simpl.
  - by destruct (f o); simpl; rewrite -/(cnt f l) -IH.
  - destruct (f o) eqn:E1; [by rewrite (Hf _ E1) in E|]. by rewrite -/(cnt f l) -IH.
Qed.
Lemma cnt_concat f n ls : Forall (fun l => cnt f l = n) ls -> cnt f (concat ls) = (length ls * n)%nat.
Proof. induction 1 as [|l ls H _ IH]; [done|]. simpl. rewrite cnt_app. lia. Qed.
Definition is_reap (a : aid) (o : obs) : bool := match o with OReap b _ => bool_decide (b = a) | _ => false end.
Lemma cnt_sigs f a sigs : Forall (is_signal a) sigs -> (forall sg, f (OSignal a sg) = false) -> cnt f sigs = O.
Proof. intros H Hf. induction H as [|o l [sg ->] _ IH]; [done|]. by rewrite /cnt /= Hf. Qed.
Lemma session_counts a l : session a l -> cnt (is_spawn a) l = 1%nat /\ cnt (is_reap a) l = 1%nat.
Proof.
  intros []; rewrite /cnt /= ?bool_decide_true //=. rewrite !List.filter_app !app_length /= ?bool_decide_true //=.
  split; [|rewrite Nat.add_comm /=]; do 1 f_equal; change (cnt (is_spawn a) sigs + 0 = 0)%nat || idtac; rewrite ?Nat.add_0_r.
  - by eapply cnt_sigs.
  - by eapply cnt_sigs.
Qed.
Lemma spawn_cnt a l : spawned a l = cnt (is_spawn a) l. Proof. done. Qed.
Lemma reap_cnt a l : reaped a l = cnt (is_reap a) l. Proof. done. Qed.
Lemma escal_cnt a l : escalations a l = cnt (is_escal a) l. Proof. done. Qed.
Lemma one_alive a s : reachable w s ->
  (alive a s -> spawned a (hist s) = S (reaped a (hist s))) /\ (~ alive a s -> spawned a (hist s) = reaped a (hist s)).
Proof.
  intros H. destruct (life_all a s H) as ((ls & cur & E & HS & HC) & _ & Hv).
  assert (forall f n, (forall o, f o = true -> of_process a o = true) -> (forall l, session a l -> cnt f l = n) ->
    cnt f (hist s) = (length ls * n + cnt f cur)%nat) as Hcnt.
  { intros f n Hf Hn. rewrite -(cnt_history f a) //. rewrite /hist -/(thist a (log s)) E cnt_app (cnt_concat f n) //.
    eapply Forall_impl; [done|]. intros l Hl. by apply Hn. }
  rewrite spawn_cnt reap_cnt. rewrite (Hcnt (is_spawn a) 1%nat); [by intros []|by intros l [? ?]%session_counts|].
  rewrite (Hcnt (is_reap a) 1%nat); [by intros []|by intros l [? ?]%session_counts|].
  assert (cnt (is_spawn a) cur = (match v_ph (view a s) with [PhConn _ None] | [PhRun _ None] => 1 | _ => 0 end) + cnt (is_reap a) cur)%nat as Hc.
  { clear Hcnt E. destruct (v_ph (view a s)) as [|x [|y ph]]; simpl in HC; [by subst| |by destruct x as [| |? []|? []|]; subst].
    destruct x as [| |d [rc|]|d [rc|]|]; subst; try done.
    - destruct HC as (pid & _ & ->). by rewrite /cnt /= !bool_decide_true.
    - destruct HC as (pid & _ & ->). by rewrite /cnt /= !bool_decide_true.
    - destruct HC as (pid & _ & [(sigs & Hs & ->)| ->]); [|by rewrite /cnt /= !bool_decide_true].
      change (OSpawn a pid :: OLife (EvStarted a d) :: sigs ++ [OReap a rc]) with ([OSpawn a pid; OLife (EvStarted a d)] ++ sigs ++ [OReap a rc]).
      rewrite !cnt_app !(cnt_sigs _ a sigs) // /cnt /= !bool_decide_true //.
    - destruct HC as (pid & sigs & _ & Hs & ->).
      change (OSpawn a pid :: OLife (EvStarted a d) :: sigs) with ([OSpawn a pid; OLife (EvStarted a d)] ++ sigs).
      rewrite !cnt_app !(cnt_sigs _ a sigs) // /cnt /= !bool_decide_true //. }
  rewrite Hc. split.
  - intros (d & [->| ->])%(alive_ph a s Hv); lia.
  - intros Hn. assert (forall d, v_ph (view a s) <> [PhConn d None] /\ v_ph (view a s) <> [PhRun d None]) as Hd.
    { intros d. split; intros E1; apply Hn, (alive_ph a s Hv); eauto. }
    destruct (v_ph (view a s)) as [|[| |d [|]|d [|]|] [|]]; try lia; by destruct (Hd d).
Qed.

(** ** C25 *)
Lemma respawn_bound a s c : reachable w s -> config a s = Some c ->
  (p_respawn c = BV false -> (spawned a (hist s) <= 1)%nat) /\
  (0 <= p_max c -> (spawned a (hist s) <= 1 + Z.to_nat (p_max c))%nat)%Z.
Proof.
  intros H Ec. destruct (life_all a s H) as (_ & [C1 C2 C3 C4 C5 C6] & Hv). rewrite -v_cfg_eq in Ec.
  rewrite spawn_cnt /hist cnt_rev. split.
  - intros E. rewrite (C5 _ Ec E) in C2. simpl in C2. lia.
  - intros E. specialize (C4 _ Ec E). lia.
Qed.
Lemma tries_bound a s : reachable w s -> (Z.of_nat (spawned a (hist s)) <= 1 + tries a s)%Z.
Proof.
  intros H. destruct (life_all a s H) as (_ & [C1 C2 C3 C4 C5 C6] & Hv). rewrite spawn_cnt /hist cnt_rev -v_tries_eq. lia.
Qed.

(** ** C22, C26, C27, C29 *)
Lemma thist_none_app a l1 l : thist a l1 = [] -> thist a l = [] -> thist a (l1 ++ l) = [].
Proof. intros E1 E2. by rewrite thist_app E1 E2. Qed.
Lemma quiet_steps a s ls s' : reachable w s -> steps w s ls s' -> was_executed a s \/ is_shutdown (cx s) = true -> ~ active a s ->
  process_history a (hist s') = process_history a (hist s) /\ ~ active a s'.
Proof.
  intros Hr H Hq Ha. rewrite active_ph in Ha. destruct (closed_steps a quiet (fun l => thist a l = []) s ls s') as (l & El & HJ & HK); try done.
  - apply thist_none_app.
  - intros. by eapply quiet_step.
  - split; [by destruct (v_ph (view a s)); [|destruct Ha]|]. rewrite v_on_true v_flag_eq. tauto.
  - split; [|rewrite active_ph; intros Hn; by destruct HJ]. rewrite /hist El -!/(thist a _) thist_app -(thist_abouts a l) HK app_nil_r. done.
Qed.
Lemma doomed_steps a s ls s' : reachable w s -> steps w s ls s' -> shut_requested a s -> ~ starting a s ->
  spawned a (hist s') = spawned a (hist s) /\ shut_requested a s'.
Proof.
  intros Hr H Hsd Hst. destruct (closed_steps a doomed (fun l => cnt (is_spawn a) l = O) s ls s') as (l & El & HJ & HK); try done.
  - intros. rewrite cnt_app. lia.
  - intros. by eapply doomed_step.
  - split; [by apply v_sd_true|by apply not_starting].
  - split; [|by apply v_sd_true, HJ]. rewrite cnt_abouts in HK; [by intros []|]. by rewrite !spawn_cnt /hist !cnt_rev El cnt_app HK.
Qed.
Lemma ends_steps a s ls s' : reachable w s -> steps w s ls s' -> shut_requested a s -> ~ starting a s -> active a s ->
  active a s' \/ completion a s' = Some true.
Proof.
  intros Hr H Hsd Hst Ha. rewrite active_ph in Ha. destruct (closed_steps a ends (fun _ => True) s ls s') as (l & El & HJ & HK); try done.
  - intros. split; [by eapply ends_step|done].
  - split; [|by left]. split; [by apply v_sd_true|by apply not_starting].
  - rewrite active_ph -v_comp_eq. apply HJ.
Qed.
Lemma over_steps a s ls s' : reachable w s -> steps w s ls s' -> completion a s = Some true ->
  completion a s' = Some true /\ process_history a (hist s') = process_history a (hist s) /\
  escalations a (hist s') = escalations a (hist s).
Proof.
  intros Hr H Hc. rewrite -!v_comp_eq in Hc |- *.
  destruct (closed_steps a (fun v => v_comp v = Some true) (fun l => thist a l = [] /\ cnt (is_escal a) l = O) s ls s') as (l & El & HJ & HK1 & HK2); try done.
  - intros ?? [] []. split; [by apply thist_none_app|]. rewrite cnt_app. lia.
  - intros ??? H1 H2 H3. by destruct (over_step _ _ _ _ H1 H2 H3) as (? & _ & ? & ?).
  - split; [done|]. rewrite cnt_abouts in HK2; [by intros []|]. rewrite !escal_cnt /hist !cnt_rev El cnt_app HK2. split; [|done].
    rewrite -!/(thist a _) -El El thist_app -(thist_abouts a l) HK1 app_nil_r. done.
Qed.
Lemma over_idle a s : reachable w s -> completion a s = Some true -> ~ active a s.
Proof.
  intros Hr Hc. rewrite -v_comp_eq in Hc. destruct (life_all a s Hr) as (_ & _ & Hv). rewrite active_ph. intros Hn.
  destruct (ak_ph _ Hv Hn). congruence.
Qed.
Lemma inactive_sessions a s : reachable w s -> ~ active a s ->
  exists lives, process_history a (hist s) = concat lives /\ Forall (session a) lives.
Proof.
  intros Hr Ha. destruct (life_all a s Hr) as ((ls & cur & E & HS & HC) & _ & Hv). rewrite active_ph in Ha.
  exists ls. split; [|done]. rewrite -/(thist a (log s)) E. destruct (v_ph (view a s)); [|by destruct Ha]. simpl in HC. by rewrite HC app_nil_r.
Qed.
Lemma escal_once a s : reachable w s -> (escalations a (hist s) <= 1)%nat.
Proof.
  intros H. destruct (life_all a s H) as (_ & [C1 C2 C3 C4 C5 C6] & Hv). rewrite escal_cnt /hist cnt_rev. apply C6.
Qed.
Lemma escal_steps a s ls s' : reachable w s -> steps w s ls s' -> shut_requested a s -> escalations a (hist s') = escalations a (hist s).
Proof.
  intros Hr H Hsd. destruct (closed_steps a (fun v => v_sd v = Some true) (fun l => cnt (is_escal a) l = O) s ls s') as (l & El & HJ & HK); try done.
  - intros. rewrite cnt_app. lia.
  - intros v l v' Hs Hv E. split; [by eapply sd_step|]. destruct Hs; try done; congruence.
  - by apply v_sd_true.
  - rewrite cnt_abouts in HK; [by intros []|]. by rewrite !escal_cnt /hist !cnt_rev El cnt_app HK.
Qed.

(** ** What a step does *)
Lemma task_at a s i t : reachable w s -> tasks s !! i = Some t -> ptask a t = true ->
  exists p fc fs, procs s !! a = Some p /\ x_completed p = Some fc /\ x_shutdown p = Some fs /\ futs s !! fc = Some FPending.
Proof.
  intros Hr Hi Ht. destruct (pinv_reachable w s Hr) as [Ho HL]. specialize (HL a).
  destruct (link_key a s i t HL Hi Ht) as (p & Ep & Ek). destruct (link_task a s i t _ HL Hi Ht Ek) as [L1 L2 L3 [(fc & Ec & Hf) _]].
  destruct L2 as [L2 _]. destruct L2 as [fs Es]; [by rewrite Ec|]. by exists p, fc, fs.
Qed.
Lemma done_eq (f : nat) s s' : futs s' = futs s -> f_is_done f s' = f_is_done f s.
Proof. intros E. by rewrite /f_is_done /f_get E. Qed.
Lemma cleanup_done i a s p fc : own s -> procs s !! a = Some p -> x_completed p = Some fc -> futs s !! fc = Some FPending ->
  completion a (task_res i (cleanup a s)) = Some true.
Proof.
  intros Ho Ep Ec Hf. destruct (cleanup_spec a s Ho) as ((P1 & _) & _ & HC). destruct (HC _ _ Ep Ec Hf) as [R F].
  destruct (cleanup a s) as [s1 r]. simpl in *. subst r. by rewrite /completion /= P1 Ep Ec /f_is_done /f_get /= F.
Qed.
Lemma loop_task i s s' : step w (LTask i) s = Some s' -> task_step w i s = Some s'.
Proof. simpl. rewrite /loop_step. by destruct (in_loop s). Qed.
Lemma respawn_cond a s p fs : reachable w s -> procs s !! a = Some p -> x_shutdown p = Some fs ->
  negb (is_shutdown (cx s)) && negb (f_is_done fs s) && respawn_true (x_respawn p) && ((p_max (x_cfg p) <? 0) || (x_retries p <? p_max (x_cfg p)))%Z = true
  <-> may_respawn a s.
Proof.
  intros Hr Ep Es. destruct (resp_value w a s p fs Hr Ep Es) as [b Eb]. rewrite !andb_true_iff !negb_true_iff orb_true_iff !Z.ltb_lt. split.
  - intros [[[H1 H2] H3] H4]. split; [done|]. split; [|exists p; rewrite Eb in H3; simpl in H3; subst b; done]. intros (p' & f & E1 & E2 & E3). simplify_eq. by rewrite H2 in E3.
  - intros (H1 & H2 & p' & E & H3 & H4). simplify_eq. rewrite H3. repeat split; try done. destruct (f_is_done fs s) eqn:E; [|done]. destruct H2. by exists p, fs.
Qed.
Lemma exit_ends a s i f d rc s' : reachable w s -> tasks s !! i = Some (TProcRun a f d (Some rc)) -> step w (LTask i) s = Some s' ->
  ~ may_respawn a s -> completion a s' = Some true.
Proof.
  intros Hr Hi Hs%loop_task Hn. destruct (task_at a s i _ Hr Hi) as (p & fc & fs & Ep & Ec & Es & Hf); [by apply bool_decide_true|].
  move: Hs. rewrite /task_step Hi /proc_exited Ep Es. rewrite (done_eq fs s (emit (EvExited a d rc) (obs1 (OLife (EvExited a d rc)) s)) eq_refl).
  destruct (_ && _ && _ && _) eqn:Eb; [by apply (respawn_cond a s p fs Hr Ep Es) in Eb|]. intros [= <-].
  apply (cleanup_done _ _ _ p fc); try done. apply own_emit, own_obs. by apply (pinv_reachable w).
Qed.
Lemma exit_again a s i f d rc s' : reachable w s -> tasks s !! i = Some (TProcRun a f d (Some rc)) -> step w (LTask i) s = Some s' ->
  may_respawn a s -> loop_set (cx s) = true ->
  tries a s' = (tries a s + 1)%Z /\ completion a s' = Some false /\
  exists c, config a s = Some c /\
    match p_delay c with
    | Some q => if Qle_bool q 0 then about_to_start a s' else In (TProcDelay a (now s + q)%Q) (tasks s')
    | None => about_to_start a s'
    end.
Proof.
  intros Hr Hi Hs%loop_task Hn Hl. destruct (task_at a s i _ Hr Hi) as (p & fc & fs & Ep & Ec & Es & Hf); [by apply bool_decide_true|].
  move: Hs. rewrite /task_step Hi /proc_exited Ep Es. rewrite (done_eq fs s (emit (EvExited a d rc) (obs1 (OLife (EvExited a d rc)) s)) eq_refl).
  apply (respawn_cond a s p fs Hr Ep Es) in Hn. rewrite Hn. rewrite /tries /completion /config Ep /=.
  assert (forall x, In x (set_nth i x (tasks s))) as Hin. { intros x. destruct (at_split _ _ _ Hi) as (l1 & l2 & _ & -> & _). apply in_or_app. right. by left. }
  assert (forall s0, procs s0 = procs s -> futs s0 = futs s ->
    (match procs (upd_proc a (fun p => p <| x_retries ::= Z.succ |>) s0) !! a with Some p => x_retries p | None => 0 end = x_retries p + 1)%Z /\
    match procs (upd_proc a (fun p => p <| x_retries ::= Z.succ |>) s0) !! a with Some p => match x_completed p with Some f => Some (f_is_done f s0) | None => None end | None => None end = Some false) as HP.
  { intros s0 E1 E2. rewrite /upd_proc /= lookup_alter E1 Ep /= Ec /f_is_done /f_get E2 Hf. split; [lia|done]. }
  assert (forall s0, loop_set (cx s0) = true -> procs (proc_again i a s0) = procs s0 /\ futs (proc_again i a s0) = futs s0 /\ about_to_start a (proc_again i a s0)) as HA.
  { intros s0 E. rewrite /proc_again E /about_to_start /=. split; [done|]. split; [done|]. apply in_or_app. right. by left. }
  destruct (p_delay (x_cfg p)) as [q|] eqn:Ed; [destruct (Qle_bool q 0) eqn:Eq|]; intros [= <-].
  - match goal with |- context [proc_again i a ?s1] => destruct (HA s1 Hl) as (A1 & A2 & A3) end.
    rewrite A1. split; [|split; [|exists (x_cfg p); by rewrite Ed Eq]]; [eapply HP; done|].
    by rewrite /f_is_done /f_get A2 /upd_proc /= lookup_alter Ep /= Ec /= Hf.
  - split; [eapply HP; done|]. split; [|exists (x_cfg p); rewrite Ed Eq; split; [done|apply Hin]]. by eapply (HP (emit (EvExited a d rc) (obs1 (OLife (EvExited a d rc)) s))).
  - match goal with |- context [proc_again i a ?s1] => destruct (HA s1 Hl) as (A1 & A2 & A3) end.
    rewrite A1. split; [|split; [|exists (x_cfg p); by rewrite Ed]]; [eapply HP; done|].
    by rewrite /f_is_done /f_get A2 /upd_proc /= lookup_alter Ep /= Ec /= Hf.
Qed.
Lemma delay_ends a s i dl s' : reachable w s -> tasks s !! i = Some (TProcDelay a dl) -> step w (LTask i) s = Some s' ->
  (shut_requested a s -> completion a s' = Some true) /\
  (~ shut_requested a s -> (dl <= now s)%Q /\ (loop_set (cx s) = true -> about_to_start a s')).
Proof.
  intros Hr Hi Hs%loop_task. destruct (task_at a s i _ Hr Hi) as (p & fc & fs & Ep & Ec & Es & Hf); [by apply bool_decide_true|].
  move: Hs. rewrite /task_step Hi /proc_delay Ep Es. destruct (f_is_done fs s) eqn:Ed.
  - intros [= <-]. split; [|by intros []; exists p, fs]. intros _. apply (cleanup_done _ _ _ p fc); try done. by apply (pinv_reachable w).
  - destruct (Qle_bool dl (now s)) eqn:Eq; [|done]. intros [= <-]. split.
    + intros (p' & f & E1 & E2 & E3). simplify_eq. congruence.
    + intros _. split; [by apply Qle_bool_iff|]. intros Hl. rewrite /proc_again Hl /about_to_start /=. apply in_or_app. right. by left.
Qed.
Lemma nospawn_ends a s i d s' : reachable w s -> tasks s !! i = Some (TProcSpawn a d) -> step w (LSpawnFail i) s = Some s' -> completion a s' = Some true.
Proof.
  intros Hr Hi. simpl. rewrite /loop_step. destruct (in_loop s); [|done]. rewrite /spawn_fail Hi. intros [= <-].
  destruct (task_at a s i _ Hr Hi) as (p & fc & fs & Ep & Ec & Es & Hf); [by apply bool_decide_true|].
  apply (cleanup_done _ _ _ p fc); try done. by apply (pinv_reachable w).
Qed.
(** The exit of the process is always processed. *)
Lemma exit_enabled a s i f d rc : reachable w s -> in_loop s = true -> tasks s !! i = Some (TProcRun a f d (Some rc)) ->
  exists s', step w (LTask i) s = Some s'.
Proof.
  intros Hr Hl Hi. destruct (task_at a s i _ Hr Hi) as (p & fc & fs & Ep & Ec & Es & Hf); [by apply bool_decide_true|].
  rewrite /= /loop_step Hl /task_step Hi /proc_exited Ep Es. destruct (_ && _); [|by eexists]. destruct (p_delay _); [|by eexists]. destruct (Qle_bool _ _); by eexists.
Qed.

(** ** Announcements are events *)
Definition no_life (l : list obs) : Prop := Forall (fun o => match o with OLife _ => False | _ => True end) l.
Lemma no_life_nil : no_life []. Proof. constructor. Qed.
#[local] Hint Resolve no_life_nil : core.
Definition fine (l : list obs) : Prop := forall l1 e l2, l = l1 ++ OLife e :: l2 -> exists l1', l1 = l1' ++ [OEmit e].
Lemma fine_none l : no_life l -> fine l.
Proof. intros H l1 e l2 ->. apply Forall_app in H as [_ H]. inversion H; subst. done. Qed.
Lemma fine_life e : fine [OEmit e; OLife e].
Proof.
  intros [|x [|y l1]] e' l2; simpl; intros E; simplify_eq; [by exists []|]. by destruct l1.
Qed.
Lemma fine_app l l0 : fine l -> fine l0 -> fine (l ++ l0).
Proof.
  intros H H0 l1 e l2 E. apply app_eq_app in E as (k & [[-> E]|[-> E]]).
  - destruct k as [|x k]; simpl in E.
    + rewrite app_nil_r in H |- *. destruct (H0 [] e l2) as [l1' El]; [done|]. by destruct l1'.
    + injection E as <- E. eapply H. reflexivity.
  - destruct (H0 k e l2 E) as [l1' ->]. exists (l ++ l1'). by rewrite app_assoc.
Qed.
Lemma aside_no_life l : Forall (fun o => aside o = true) l -> no_life l.
Proof. intros H. eapply Forall_impl; [done|]. by intros []. Qed.
Lemma lines_no_life l : lines l -> no_life l.
Proof. intros H. eapply Forall_impl; [done|]. by intros []. Qed.
Definition logs (s s' : st) : Prop := exists l, log s' = l ++ log s /\ fine l.
Lemma logs_no l s s' : log s' = l ++ log s -> no_life l -> logs s s'.
Proof. intros E H. exists l. split; [done|by apply fine_none]. Qed.
Lemma buffers_logs b s s' : buffers b s s' -> logs s s'.
Proof.
  intros [g l Hg Hl ->| ->]; [|by apply (logs_no [])]. apply (logs_no l); [done|by apply lines_no_life].
Qed.
Lemma on_ctx_log {A} (m : ctx -> ctx * res A) s s' r : on_ctx m s = (s', r) -> log s' = log s.
Proof. rewrite /on_ctx. destruct (m (cx s)). by intros [= <- <-]. Qed.
Lemma task_res_log i r : log (task_res i r) = log r.1.
Proof. by destruct r as [s [| |]]. Qed.
Lemma task_logs i s s' : own s -> task_step w i s = Some s' -> logs s s'.
Proof.
  intros Ho. rewrite /task_step. destruct (tasks s !! i) as [[]|]; try done.
  - rewrite /timer_init. destruct (timers s !! a); [|done].
    destruct (on_ctx _ s) as [s1 r] eqn:E. apply on_ctx_log in E.
    destruct (t_canceled_fut t), r; try done; intros [= <-].
    + eapply (logs_no [_]); [by rewrite /= E|by repeat constructor].
    + by apply (logs_no []).
    + by apply (logs_no []).
  - rewrite /timer_wake. destruct (_ || _); [|done]. destruct (timers s !! a); [|done].
    destruct (t_canceled_fut t) as [fx|], (t_completed t) as [fc|]; try done. intros [= <-].
    destruct (f_is_done fx s).
    + apply (logs_no []); [|done]. rewrite task_res_log. by rewrite set_result_only.
    + apply (logs_no [OEmit (EvTimer a); OFire a (now s)]); [|by repeat constructor]. rewrite task_res_log. by rewrite set_result_only.
  - rewrite /proc_init. destruct (procs s !! a); [|done]. destruct (x_det p); [|by intros [= <-]; apply (logs_no [])].
    set (x := match lc (cx s) !! _ with Some _ => _ | None => _ end). assert (log x.1 = log s) as Ex.
    { rewrite /x. destruct (lc (cx s) !! _); [|done]. destruct (on_ctx _ _) eqn:E. by apply on_ctx_log in E. }
    destruct x as [s1 []]; simpl in Ex; intros [= <-]; by apply (logs_no []).
  - intros [= <-]. exists [OEmit (EvStarted a d); OLife (EvStarted a d)]. split; [done|apply fine_life].
  - destruct rc as [rc|]; [|done]. rewrite /proc_exited. destruct (procs s !! a); [|done].
    assert (forall s0, log (emit (EvExited a d rc) (obs1 (OLife (EvExited a d rc)) s)) = log s0 -> logs s s0) as HE.
    { intros s0 E. exists [OEmit (EvExited a d rc); OLife (EvExited a d rc)]. split; [by rewrite -E|apply fine_life]. }
    assert (forall s0, log (proc_again i a s0) = log s0) as HA. { intros s0. rewrite /proc_again. by destruct (loop_set _). }
    match goal with |- (if ?b then _ else _) = _ -> _ => destruct b end.
    + destruct (p_delay _); [destruct (Qle_bool _ _)|]; intros [= <-]; apply HE; by rewrite ?HA.
    + intros [= <-]. apply HE. rewrite task_res_log. symmetry. apply cleanup_spec. by apply own_emit, own_obs.
  - rewrite /proc_delay. destruct (procs s !! a); [|done]. destruct (match x_shutdown p with Some _ => _ | None => _ end).
    + intros [= <-]. apply (logs_no []); [|done]. rewrite task_res_log. by apply cleanup_spec.
    + destruct (Qle_bool _ _); [|done]. intros [= <-]. apply (logs_no []); [|done]. rewrite /proc_again. by destruct (loop_set _).
Qed.
Lemma micro_logs s s' : own s -> micro w s s' -> logs s s'.
Proof.
  intros Ho H. destruct H; forget_handlers.
  - destruct (ut_log _ _ H) as (l & E & Hl). apply (logs_no l); [done|by apply aside_no_life].
  - apply (logs_no []); [|done]. apply timer_cancel_sameP.
  - by apply (logs_no [OTimer a]); [|repeat constructor].
  - by apply (logs_no []).
  - by apply (logs_no []).
  - destruct (O_prepare_executable w _ _ _ _ H0) as (c & n & pc & _ & _ & _ & _ & ->). by apply (logs_no []).
  - by apply (logs_no []).
  - by apply (logs_no []).
  - by apply (logs_no []).
  - destruct (shutdown_process_case a sg s Ho) as [? ->|p sf ???? ->| |].
    + by apply (logs_no [OAsked a]); [|repeat constructor].
    + by apply (logs_no [OAsked a]); [|repeat constructor].
    + match goal with H : log _ = _ |- _ => rename H into El end. eapply (logs_no [_; _]); [exact El|by repeat constructor].
    + match goal with H : untouched _ _ |- _ => destruct (ut_log _ _ H) as (l & El & Hl) end.
      apply (logs_no (l ++ [OAsked a])); [by rewrite El -app_assoc|]. apply Forall_app_2; [by apply aside_no_life|by repeat constructor].
  - by apply (logs_no [OSignal a sg]); [|repeat constructor].
  - eapply buffers_logs, proc_io_buffers.
  - eapply buffers_logs, proc_flush_buffers.
  - by eapply task_logs.
  - revert H. rewrite /spawn_ok. destruct (tasks s !! i) as [[]|]; try done. intros [= <-]. by apply (logs_no [OSpawn a pid]); [|repeat constructor].
  - revert H. rewrite /spawn_fail. destruct (tasks s !! i) as [[]|]; try done. intros [= <-]. apply (logs_no []); [|done].
    rewrite task_res_log. by apply cleanup_spec.
  - revert H. rewrite /proc_exit. destruct (tasks s !! i) as [[| | | |b f d [|]|b f d [|]| |]|]; try done; intros [= <-];
    (apply (logs_no [OReap b rc]); [|by repeat constructor]); by rewrite /= set_result_only.
Qed.
Lemma announced s : reachable w s -> fine (log s).
Proof.
  intros H. apply (micro_reachable w (fun s => own s /\ fine (log s))) in H; [by destruct H| |].
  - intros n e. split; [apply own_init|]. by intros [|] ?.
  - intros s1 s2 Hm [Ho Hf]. split; [by eapply own_micro|]. destruct (micro_logs s1 s2 Ho Hm) as (l & -> & Hl). by apply fine_app.
Qed.
Lemma announced_hist s l1 e l2 : reachable w s -> hist s = l1 ++ OLife e :: l2 -> exists l, l2 = OEmit e :: l.
Proof.
  intros H E. apply (f_equal (@rev obs)) in E. rewrite /hist rev_involutive rev_app_distr /= -app_assoc /= in E.
  destruct (announced s H _ _ _ E) as [l El]. apply (f_equal (@rev obs)) in El. rewrite rev_involutive rev_app_distr /= in El. by eexists.
Qed.
Lemma flag_steps s ls s' : reachable w s -> steps w s ls s' -> is_shutdown (cx s) = true -> is_shutdown (cx s') = true.
Proof.
  intros Hr H Hs. destruct (closed_steps (User 0) (fun v => v_flag v = true) (fun _ => True) s ls s') as (l & El & HJ & HK); try done.
  - intros v l v' Hv _ E. split; [|done]. by destruct Hv.
  - by rewrite v_flag_eq.
  - by rewrite v_flag_eq in HJ.
Qed.
End life.
