(** Lemmas about timers (C35, C36). *)
From Coq Require Import ssreflect.
From Verif Require Import SubstFacts SpecTimer ExecFacts VisitFacts HandleFacts StepFacts MicroSteps OwnFacts ProcFacts NameFacts LifeFacts TimerSteps StayFacts.

Definition of_timer (a : aid) (t : task) : bool :=
  match t with TTimerInit b | TTimerWait b _ _ => bool_decide (a = b) | _ => false end.
Definition is_start (a : aid) (o : obs) : bool := match o with OTimer b => bool_decide (a = b) | _ => false end.
Definition cntb {A} (p : A -> bool) (l : list A) : nat := length (List.filter p l).
Lemma cntb_app {A} (p : A -> bool) l1 l2 : cntb p (l1 ++ l2) = (cntb p l1 + cntb p l2)%nat.
Proof. by rewrite /cntb List.filter_app app_length. Qed.
Lemma cntb_cons {A} (p : A -> bool) x l : cntb p (x :: l) = ((if p x then 1 else 0) + cntb p l)%nat.
Proof. rewrite /cntb /=. by destruct (p x). Qed.
Lemma cntb_mid {A} (p : A -> bool) l1 x l2 : cntb p (l1 ++ x :: l2) = ((if p x then 1 else 0) + cntb p (l1 ++ l2))%nat.
Proof. rewrite !cntb_app cntb_cons. lia. Qed.
Lemma cntb_in {A} (p : A -> bool) x l : In x l -> p x = true -> (1 <= cntb p l)%nat.
Proof. intros (l1 & l2 & ->)%in_split H. rewrite cntb_mid H. lia. Qed.
Lemma filter_sub {A} (p q : A -> bool) l : (forall x, p x = true -> q x = true) -> List.filter p (List.filter q l) = List.filter p l.
Proof.
  intros H. induction l as [|x l IH]; [done|]. simpl. destruct (q x) eqn:Eq; simpl; [by rewrite IH|].
  destruct (p x) eqn:Ep; [|done]. apply H in Ep. congruence.
Qed.
Lemma fired_tlog a s : times_fired a s = cntb (is_fire a) (tlog s).
Proof. rewrite /times_fired /cntb /tlog filter_sub //. by intros []. Qed.

Lemma timer_cancel_timers a b s : timers (timer_cancel a s) !! b =
  if bool_decide (a = b) then
    Some (match timers s !! b with Some t => t <| t_canceled := true |> | None => mkTobj [] (FV FNan) ∅ None None true 0 end)
  else timers s !! b.
Proof.
  rewrite /timer_cancel. destruct (timers s !! a) as [t|] eqn:Et.
  - assert (timers (upd_timer a (fun t => t <| t_canceled := true |>) s) !! b = if bool_decide (a = b) then
      Some (match timers s !! b with Some t => t <| t_canceled := true |> | None => mkTobj [] (FV FNan) ∅ None None true 0 end) else timers s !! b) as E.
    { simpl. case_bool_decide as E; [subst; by rewrite lookup_alter Et|by rewrite lookup_alter_ne]. }
    destruct (t_canceled_fut t); [|done]. destruct (f_is_done _ _); [done|]. by rewrite set_result_only.
  - simpl. case_bool_decide as E; [subst; by rewrite lookup_insert Et|by rewrite lookup_insert_ne].
Qed.
Lemma timer_cancel_gen a b s : timer_gen b (timer_cancel a s) = timer_gen b s.
Proof. rewrite /timer_gen timer_cancel_timers. case_bool_decide; [|done]. by destruct (timers s !! b). Qed.
Lemma timer_cancel_flag a b s : timer_canceled b (timer_cancel a s) = (bool_decide (a = b) || timer_canceled b s).
Proof. rewrite /timer_canceled timer_cancel_timers. case_bool_decide; [|done]. by destruct (timers s !! b). Qed.
Lemma timer_cancel_rest a s : ttasks (timer_cancel a s) = ttasks s /\ tlog (timer_cancel a s) = tlog s /\ now (timer_cancel a s) = now s.
Proof. destruct (timer_cancel_sameP a s) as (_ & E1 & E2 & _ & E3 & _). by rewrite /ttasks /tlog E1 E2. Qed.
Lemma done_set_result f g s : f_is_done f s = true -> f_is_done f (set_result g s).1 = true.
Proof.
  rewrite /f_is_done /f_get. destruct (set_result_lookup g f s) as [->|(-> & E & ->)]; done.
Qed.
Lemma timer_cancel_done a f s : f_is_done f s = true -> f_is_done f (timer_cancel a s) = true.
Proof.
  intros H. rewrite /timer_cancel. destruct (timers s !! a); [|done]. destruct (t_canceled_fut t); [|done].
  destruct (f_is_done n _); [done|]. by apply done_set_result.
Qed.
Lemma timer_cancel_fut a t f s : own s -> timers s !! a = Some t -> t_canceled_fut t = Some f -> f_is_done f (timer_cancel a s) = true.
Proof.
  intros Ho Et Ef. rewrite /timer_cancel Et Ef. set (s1 := upd_timer _ _ _). destruct (f_is_done f s1) eqn:Ed; [done|].
  assert (futs s !! f = Some FPending) as Hp by (eapply not_done_pending; [done|by eapply us_tcanc|done]).
  rewrite /set_result. change (futs s1) with (futs s). rewrite Hp /f_is_done /f_get /=. by rewrite lookup_insert.
Qed.

Ltac tm := repeat match goal with
  | HH : timers ?x = _ |- context [timers ?x] => rewrite HH
  | HH : ttasks ?x = _ |- context [ttasks ?x] => rewrite HH
  | HH : tlog ?x = _ |- context [tlog ?x] => rewrite HH
  end.
Ltac tmx x := repeat match goal with
  | HH : timers x = _ |- context [timers x] => rewrite HH
  | HH : ttasks x = _ |- context [ttasks x] => rewrite HH
  | HH : tlog x = _ |- context [tlog x] => rewrite HH
  end.
Section timers.
Context (w : world).

(** ** Effects on the counters *)
Lemma gen_mono a s s' : tmove s s' -> (timer_gen a s <= timer_gen a s')%nat.
Proof.
  intros H. rewrite /timer_gen. destruct H; tm; try done.
  - subst s'. fold (timer_gen a s) (timer_gen a (timer_cancel a0 s)). by rewrite timer_cancel_gen.
  - destruct (decide (a0 = a)) as [->|Hne]; [rewrite lookup_insert /timer_gen /=|rewrite lookup_insert_ne //]. by destruct (timers s !! a); simpl; lia.
  - destruct (decide (a0 = a)) as [->|Hne]; [rewrite lookup_insert /timer_gen /=|rewrite lookup_insert_ne //]. by destruct (timers s !! a); simpl; lia.
Qed.
Lemma flag_mono a s s' : tmove s s' -> timer_canceled a s = true -> timer_canceled a s' = true.
Proof.
  intros H Hc. destruct H; rewrite /timer_canceled; tm; try done.
  - subst s'. fold (timer_canceled a (timer_cancel a0 s)). rewrite timer_cancel_flag Hc. apply orb_true_r.
  - destruct (decide (a0 = a)) as [->|Hne]; [congruence|rewrite lookup_insert_ne //].
  - destruct (decide (a0 = a)) as [->|Hne]; [by rewrite lookup_insert|rewrite lookup_insert_ne //].
Qed.
(** C35: at most one firing per execution. *)
Definition counted (a : aid) (s : st) : Prop :=
  (cntb (is_fire a) (tlog s) + cntb (of_timer a) (ttasks s) <= cntb (is_start a) (tlog s))%nat /\
  (cntb (is_start a) (tlog s) <= timer_gen a s)%nat.
Lemma counted_move a s s' : tmove s s' -> counted a s -> counted a s'.
Proof.
  intros H [C1 C2]. pose proof (gen_mono a _ _ H) as HG. destruct H; rewrite /counted.
  - tm. split; [done|lia].
  - subst s'. destruct (timer_cancel_rest a0 s) as (-> & -> & _). rewrite timer_cancel_gen. split; [done|lia].
  - tm. rewrite cntb_app !cntb_cons /= (_ : cntb (of_timer a) [] = 0%nat) //. rewrite {1}/timer_gen. tm.
    case_bool_decide; [subst a0; rewrite lookup_insert /=|rewrite lookup_insert_ne //]; [split; lia|]. split; [lia|exact C2].
  - tm. split; [done|lia].
  - tm. match goal with HH : ttasks s = _ |- _ => rewrite HH cntb_mid in C1 end. rewrite cntb_mid !cntb_cons /=. simpl in C1. split; lia.
  - tm. match goal with HH : ttasks s = _ |- _ => rewrite HH cntb_mid in C1 end. split; lia.
  - tm. match goal with HH : ttasks s = _ |- _ => rewrite HH cntb_mid in C1 end. simpl in C1.
    rewrite !(cntb_app _ _ (tlog s)). destruct (f_is_done fx s); rewrite ?cntb_cons /= /cntb /=; rewrite /cntb in C1, C2; split; try lia.
Qed.
Lemma counted_reachable a s : reachable w s -> counted a s.
Proof.
  intros (Ho & n & e & HT)%T_reachable. eapply (T_inv (counted a)); [|exact HT|].
  - intros s1 s2 _ _. apply counted_move.
  - split; rewrite /cntb /=; lia.
Qed.
(** ** The objects and futures of timers *)
Lemma entry_back a s s' t' : tmove s s' -> timers s' !! a = Some t' ->
  (exists t, timers s !! a = Some t /\ t_canceled_fut t' = t_canceled_fut t /\ t_completed t' = t_completed t /\ t_gen t' = t_gen t) \/
  (timers s !! a = None /\ t_canceled_fut t' = None /\ t_completed t' = None /\ t_gen t' = O) \/
  (t_gen t' = S (timer_gen a s) /\ t_canceled_fut t' = Some (S (next s)) /\ t_completed t' = Some (next s) /\
   futs s' !! S (next s) = Some FPending /\ t_canceled t' = timer_canceled a s).
Proof.
  intros H. destruct H; tm; try (intros E; left; by exists t').
  - subst s'. rewrite timer_cancel_timers. case_bool_decide; [subst a0|intros E; left; by exists t'].
    destruct (timers s !! a) as [t|]; intros [= <-]; [left; by exists t|by right; left].
  - match goal with HH : futs s' = _ |- _ => rewrite HH end.
    destruct (decide (a0 = a)) as [->|Hne]; [rewrite lookup_insert|rewrite lookup_insert_ne //; intros E; left; by exists t'].
    intros [= <-]. right; right. split_and!; try done. by rewrite lookup_insert.
  - match goal with HH : futs s' = _ |- _ => rewrite HH end.
    destruct (decide (a0 = a)) as [->|Hne]; [rewrite lookup_insert|rewrite lookup_insert_ne //; intros E; left; by exists t'].
    intros [= <-]. right; right. split_and!; try done. rewrite lookup_insert_ne; [lia|]. by rewrite lookup_insert.
Qed.
Lemma done_fwd s s' f a : own s -> tmove s s' -> uses s f (KTCanc a) -> f_is_done f s = true -> f_is_done f s' = true.
Proof.
  intros Ho H Hu. pose proof (own_lt _ _ _ Ho Hu) as Hlt. rewrite /f_is_done /f_get.
  destruct H as [? ? ? ? HK| | | | | |]; try (match goal with HH : futs s' = _ |- _ => rewrite HH end); try done.
  - rewrite (HK f a) //. by right.
  - subst s'. by apply timer_cancel_done.
  - rewrite !lookup_insert_ne //; lia.
  - rewrite !lookup_insert_ne //; lia.
  - apply done_set_result.
Qed.
Lemma done_back s s' f a : own s -> tmove s s' -> uses s f (KTCanc a) -> f_is_done f s' = true ->
  f_is_done f s = true \/ timer_canceled a s' = true.
Proof.
  intros Ho H Hu. pose proof (own_lt _ _ _ Ho Hu) as Hlt. rewrite {1 2}/f_is_done /f_get.
  destruct H as [? ? ? ? HK| | | | | |]; try (match goal with HH : futs s' = _ |- _ => rewrite HH end); try by left.
  - rewrite (HK f a); [by right|by left].
  - subst s'. destruct (timer_cancel_futs a0 s f) as [->|Hu0]; [by left|]. right.
    pose proof (ow_one _ Ho _ _ _ Hu Hu0) as [= ->]. rewrite timer_cancel_flag. by rewrite bool_decide_true.
  - rewrite !lookup_insert_ne //; [lia..|]. by left.
  - rewrite !lookup_insert_ne //; [lia..|]. by left.
  - destruct (set_result_lookup fc f s) as [->|(-> & _)]; [by left|].
    assert (uses s fc (KTComp a0)) as Hu0 by (by eapply us_tcomp). by pose proof (ow_one _ Ho _ _ _ Hu Hu0).
Qed.

Record tinv (s : st) : Prop := {
  ti_cnt : forall a, counted a s;
  ti_cur : forall a t f, timers s !! a = Some t -> t_canceled_fut t = Some f -> f_is_done f s = true -> timer_canceled a s = true;
  ti_task : forall x a, In x (ttasks s) -> of_timer a x = true -> exists t fc fx, timers s !! a = Some t /\
    t_completed t = Some fc /\ t_canceled_fut t = Some fx /\
    ((t_gen t <= 1)%nat -> timer_canceled a s = true -> f_is_done fx s = true);
  ti_wait : forall a f dl, In (TTimerWait a f dl) (ttasks s) ->
    (exists p t0, In (OArmed a p t0) (tlog s) /\ dl = deadline p t0) /\
    (f_is_done f s = true -> timer_canceled a s = true) /\
    (forall t, timers s !! a = Some t -> (t_gen t <= 1)%nat -> t_canceled_fut t = Some f);
  ti_fire : forall a l1 l2 t, tlog s = l2 ++ OFire a t :: l1 ->
    (exists p t0, In (OArmed a p t0) l1 /\ elapsed p t0 t) \/ ((2 <= timer_gen a s)%nat /\ timer_canceled a s = true) }.
Lemma in_ttasks x s : In x (ttasks s) -> In x (tasks s).
Proof. by intros [? _]%filter_In. Qed.
Lemma tinv_init n e : tinv (init n e).
Proof.
  constructor; try done.
  - intros a l1 l2 t. simpl. intros E. by destruct l2.
Qed.
Lemma task_cases s s' x : tmove s s' -> In x (ttasks s') ->
  In x (ttasks s) \/ (exists a, x = TTimerInit a /\ timer_canceled a s = false /\ tlog s' = OTimer a :: tlog s) \/
  (exists a t f p, x = TTimerWait a f (deadline p (now s)) /\ In (TTimerInit a) (ttasks s) /\ timers s !! a = Some t /\
     t_canceled_fut t = Some f /\ tlog s' = OArmed a p (now s) :: tlog s).
Proof.
  intros H. destruct H; tmx s'; try by left.
  - subst s'. destruct (timer_cancel_rest a s) as (-> & _). by left.
  - intros [?|[<-|[]]]%in_app_or; [by left|right; left]. by exists a.
  - match goal with HH : ttasks s = _ |- _ => rewrite HH end. intros [->|?]%in_mid; [right; right|left; apply in_mid; by right].
    eexists a, t, f, p. split_and!; try done. apply in_mid. by left.
  - match goal with HH : ttasks s = _ |- _ => rewrite HH end. intros ?. left. apply in_mid. by right.
  - match goal with HH : ttasks s = _ |- _ => rewrite HH end. intros ?. left. apply in_mid. by right.
Qed.
Lemma tlog_grows s s' : tmove s s' -> exists l, tlog s' = l ++ tlog s /\ (l = [] \/ exists o, l = [o]).
Proof.
  intros H. destruct H; tmx s'; try by (exists []; auto).
  - subst s'. destruct (timer_cancel_rest a s) as (_ & -> & _). by exists []; auto.
  - eexists [_]. split; [done|]. right. by eexists.
  - eexists [_]. split; [done|]. right. by eexists.
  - destruct (f_is_done fx s); [by exists []; auto|]. eexists [_]. split; [done|]. right. by eexists.
Qed.
Lemma tinv_move s s' : own s -> own s' -> tmove s s' -> tinv s -> tinv s'.
Proof.
  intros Ho Ho' H [I1 I2 I3 I4 I5].
  assert (forall x a, In x (ttasks s) -> of_timer a x = true -> (1 <= timer_gen a s)%nat) as Hgen.
  { intros x a Hx Ha. destruct (I1 a) as [C1 C2]. pose proof (cntb_in _ _ _ Hx Ha). lia. }
  constructor.
  - intros a. by eapply counted_move.
  - intros a t' f Et Ef Hd. destruct (entry_back a s s' t' H Et) as [(t & E1 & E2 & E3 & E4)|[(E1 & E2 & _)|(_ & E2 & _ & E3 & _)]]; [|congruence|].
    + assert (uses s f (KTCanc a)) as Hu by (eapply us_tcanc; [exact E1|congruence]).
      destruct (done_back s s' f a Ho H Hu Hd) as [Hd0|?]; [|done]. eapply flag_mono; [exact H|]. eapply (I2 a t f); try done. congruence.
    + rewrite E2 in Ef. injection Ef as <-. by rewrite /f_is_done /f_get E3 in Hd.
  - intros x a Hx Ha.
    assert ((exists y, In y (ttasks s) /\ of_timer a y = true) \/ timer_canceled a s = false /\ tlog s' = OTimer a :: tlog s) as HC.
    { destruct (task_cases s s' x H Hx) as [?|[(b & -> & Hf & ?)|(b & t & f & p & -> & Hin & _)]]; [left; by exists x| |].
      - right. simpl in Ha. apply bool_decide_eq_true in Ha. by subst b.
      - left. eexists. split; [exact Hin|]. done. }
    destruct HC as [(y & Hy & Hay)|[Hf El]].
    + destruct (I3 y a Hy Hay) as (t & fc & fx & Et & Ec & Ex & Hg). pose proof (Hgen y a Hy Hay) as Hg1.
      assert (exists t', timers s' !! a = Some t') as [t' Et'].
      { destruct H; tm; try by eexists.
        - subst s'. rewrite timer_cancel_timers. case_bool_decide; by eexists.
        - destruct (decide (a0 = a)) as [->|Hne]; [rewrite lookup_insert|rewrite lookup_insert_ne //]; by eexists.
        - destruct (decide (a0 = a)) as [->|Hne]; [rewrite lookup_insert|rewrite lookup_insert_ne //]; by eexists. }
      destruct (entry_back a s s' t' H Et') as [(t1 & E1 & E2 & E3 & E4)|[(E1 & _)|(E1 & E2 & E3 & E4 & E5)]].
      * rewrite Et in E1. injection E1 as <-. exists t', fc, fx. split_and!; [done|congruence|congruence|]. rewrite E4. intros Hle Hc.
        assert (uses s fx (KTCanc a)) as Hu by (by eapply us_tcanc).
        destruct (timer_canceled a s) eqn:Hca; [eapply (done_fwd s s'); [done|exact H|exact Hu|by apply Hg]|].
        (* cancelled just now *)
        clear -H Hca Hc Ho Et Ex. rewrite /timer_canceled in Hc Hca.
        destruct H; try (match goal with HH : timers s' = _ |- _ => rewrite HH in Hc end); try congruence.
        -- subst s'. rewrite timer_cancel_timers in Hc. case_bool_decide; [subst a0|by rewrite Hca in Hc]. by eapply timer_cancel_fut.
        -- destruct (decide (a0 = a)) as [->|Hne]; [by rewrite lookup_insert in Hc|]. rewrite lookup_insert_ne // in Hc. congruence.
        -- destruct (decide (a0 = a)) as [->|Hne]; [|rewrite lookup_insert_ne // in Hc; congruence].
           match goal with HH : timer_canceled a s = true |- _ => rewrite /timer_canceled in HH; congruence end.
      * congruence.
      * exists t', (next s), (S (next s)). split_and!; try done. rewrite E1. lia.
    + destruct H; try (exfalso; match goal with HH : tlog _ = _ |- _ => rewrite HH in El end; apply (f_equal length) in El; simpl in El; lia).
      * exfalso. subst s'. destruct (timer_cancel_rest a0 s) as (_ & E & _). rewrite E in El. apply (f_equal length) in El. simpl in El. lia.
      * match goal with HH : tlog s' = _ |- _ => rewrite HH in El end. injection El as ->.
        do 3 eexists. tm. rewrite lookup_insert. split_and!; [done..|]. rewrite /timer_canceled. tm. by rewrite lookup_insert.
      * exfalso. match goal with HH : tlog s' = _ |- _ => rewrite HH in El end. done.
      * exfalso. match goal with HH : tlog s' = _ |- _ => rewrite HH in El end. destruct (f_is_done fx s); [|done]. apply (f_equal length) in El. simpl in El. lia.
  - intros a f dl Hx. destruct (tlog_grows _ _ H) as (l & El & _).
    destruct (task_cases s s' _ H Hx) as [Hin|[(b & ? & _)|(b & t & g & p & [= <- <- ->] & Hin & Et & Ef & El')]]; [|done|].
    + destruct (I4 a f dl Hin) as ((p & t0 & Ha & Hdl) & Hd & Hg). split_and!.
      * exists p, t0. split; [|done]. rewrite El. apply in_or_app. by right.
      * intros Hdone. assert (uses s f (KTCanc a)) as Hu by (eapply us_twait; by apply in_ttasks).
        destruct (done_back s s' f a Ho H Hu Hdone) as [Hd0|?]; [|done]. eapply flag_mono; [exact H|]. by apply Hd.
      * intros t' Et' Hle. pose proof (Hgen _ a Hin ltac:(simpl; by rewrite bool_decide_true)) as Hg1.
        destruct (entry_back a s s' t' H Et') as [(t1 & E1 & E2 & E3 & E4)|[(E1 & _)|(E1 & _)]].
        -- rewrite E2. apply Hg; [done|]. congruence.
        -- rewrite /timer_gen E1 in Hg1. lia.
        -- lia.
    + split_and!.
      * exists p, (now s). split; [rewrite El'; by left|done].
      * intros Hdone. assert (uses s f (KTCanc a)) as Hu by (by eapply us_tcanc).
        destruct (done_back s s' f a Ho H Hu Hdone) as [Hd0|?]; [|done]. eapply flag_mono; [exact H|]. by eapply I2.
      * intros t' Et' Hle. pose proof (Hgen _ a Hin ltac:(simpl; by rewrite bool_decide_true)) as Hg1.
        destruct (entry_back a s s' t' H Et') as [(t1 & E1 & E2 & E3 & E4)|[(E1 & _)|(E1 & _)]]; [|congruence|lia].
        rewrite E2. congruence.
  - intros a l1 l2 t E.
    assert (forall l2', tlog s = l2' ++ OFire a t :: l1 -> (exists p t0, In (OArmed a p t0) l1 /\ elapsed p t0 t) \/ ((2 <= timer_gen a s')%nat /\ timer_canceled a s' = true)) as Hold.
    { intros l2' E'. destruct (I5 a l1 l2' t E') as [?|[G1 G2]]; [by left|right]. split; [|by eapply flag_mono]. pose proof (gen_mono a _ _ H). lia. }
    destruct (tlog_grows _ _ H) as (l & El & Hl).
    destruct Hl as [->|[o ->]]; [simpl in El; apply (Hold l2); congruence|].
    rewrite E in El. destruct l2 as [|o' l2]; [|injection El as _ El; by apply (Hold l2)].
    injection El as <- El. subst l1. clear Hold.
    (* the firing itself *)
    assert (exists f dl tt0 fx, In (TTimerWait a f dl) (ttasks s) /\ t = now s /\ timers s !! a = Some tt0 /\ t_canceled_fut tt0 = Some fx /\
      f_is_done fx s = false /\ (f_is_done f s = true \/ (exists q, dl = Some q /\ (q <= now s)%Q))) as (f & dl & tt0 & fx & Hin & -> & Et & Ex & Hfx & Hdone).
    { destruct H; try (exfalso; match goal with HH : tlog s' = _ |- _ => rewrite HH in E end; first [done|apply (f_equal length) in E; simpl in E; lia]).
      - exfalso. subst s'. destruct (timer_cancel_rest a0 s) as (_ & E' & _). rewrite E' in E. apply (f_equal length) in E. simpl in E. lia.
      - match goal with HH : tlog s' = _ |- _ => rewrite HH in E end. destruct (f_is_done fx s) eqn:Hfx.
        { exfalso. apply (f_equal length) in E. simpl in E. lia. }
        injection E as Ea Et0. subst a0 t. exists f, dl, t0, fx. split_and!; try done. match goal with HH : ttasks s = _ |- _ => rewrite HH end. apply in_mid. by left. }
    destruct (I4 a f dl Hin) as ((p & t0 & Ha & Hdl) & Hd & Hg).
    destruct Hdone as [Hdone|(q & Hq & Hle)].
    + right. split; [|eapply flag_mono; [exact H|by apply Hd]]. pose proof (gen_mono a _ _ H) as HG.
      destruct (decide (t_gen tt0 <= 1)%nat) as [Hle|Hgt]; [|assert (timer_gen a s = t_gen tt0) by (by rewrite /timer_gen Et); lia].
      specialize (Hg tt0 Et Hle). congruence.
    + left. exists p, t0. split; [done|]. rewrite Hdl in Hq. rewrite /elapsed. destruct p as [|[]|q']; simpl in Hq; try done; by injection Hq as <-.
Qed.
Lemma tinv_reachable s : reachable w s -> own s /\ tinv s.
Proof.
  intros (Ho & n & e & HT)%T_reachable. split; [done|]. eapply (T_inv tinv); [|exact HT|apply tinv_init]. apply tinv_move.
Qed.

Lemma fired_once a s : reachable w s -> (times_fired a s <= times_executed a s)%nat.
Proof. intros H. destruct (counted_reachable a s H) as [C1 C2]. rewrite fired_tlog. change (times_executed a s) with (timer_gen a s). lia. Qed.
Lemma fired_late a t l1 l2 s : reachable w s -> hist s = l1 ++ OFire a t :: l2 ->
  (exists p t0, In (OArmed a p t0) l1 /\ elapsed p t0 t) \/ ((2 <= times_executed a s)%nat /\ cancelled a s = true).
Proof.
  intros [_ [_ _ _ _ I5]]%tinv_reachable E. apply (f_equal (@rev obs)) in E.
  rewrite /hist rev_involutive rev_app_distr /= -app_assoc /= in E.
  assert (tlog s = List.filter tobs (rev l2) ++ OFire a t :: List.filter tobs (rev l1)) as E'.
  { by rewrite /tlog E List.filter_app. }
  destruct (I5 a _ _ t E') as [(p & t0 & Hin & He)|?]; [left|by right]. exists p, t0. split; [|done].
  apply filter_In in Hin as [Hin _]. by apply in_rev.
Qed.
Lemma fired_move a s s' : tmove s s' -> times_fired a s' <> times_fired a s ->
  times_fired a s' = S (times_fired a s) /\ exists x t fx, In x (ttasks s) /\ of_timer a x = true /\ timers s !! a = Some t /\ t_canceled_fut t = Some fx /\ f_is_done fx s = false.
Proof.
  rewrite !fired_tlog. intros H. destruct H; tmx s'; try done.
  - subst s'. destruct (timer_cancel_rest a0 s) as (_ & -> & _). done.
  - rewrite cntb_app. destruct (f_is_done fx s) eqn:Hfx; [done|]. rewrite cntb_cons /=. case_bool_decide; [subst a0|done]. intros _.
    rewrite {1}/cntb /=. split; [lia|]. exists (TTimerWait a f dl), t, fx. split_and!; [|simpl; by apply bool_decide_eq_true|done..].
    match goal with HH : ttasks s = _ |- _ => rewrite HH end. apply in_mid. by left.
Qed.
Lemma cancelled_once a s ls s' : reachable w s -> cancelled a s = true -> steps w s ls s' -> (times_executed a s' <= 1)%nat ->
  times_fired a s' = times_fired a s /\ cancelled a s' = true.
Proof.
  intros Hr Hc Hs Hle. apply tinv_reachable in Hr as [Ho HI]. apply (T_steps _ _ _ _ Ho) in Hs as [HT _].
  assert ((2 <= timer_gen a s')%nat \/ tinv s' /\ timer_canceled a s' = true /\ times_fired a s' = times_fired a s) as [H2|(_ & H1 & H2)].
  2: { change (times_executed a s') with (timer_gen a s') in Hle. lia. }
  2: { split; [exact H2|exact H1]. }
  eapply (T_inv (fun s1 => (2 <= timer_gen a s1)%nat \/ tinv s1 /\ timer_canceled a s1 = true /\ times_fired a s1 = times_fired a s)); [|exact HT|by right].
  clear. intros s1 s2 O1 O2 H [Hg|(HI & Hc & Hf)]; [left; pose proof (gen_mono a _ _ H); lia|].
  destruct (decide (2 <= timer_gen a s2)%nat) as [?|Hlt]; [by left|right]. split; [exact (tinv_move s1 s2 O1 O2 H HI)|]. split; [by eapply flag_mono|].
  destruct (decide (times_fired a s2 = times_fired a s1)) as [->|Hne]; [done|exfalso].
  destruct (fired_move a s1 s2 H Hne) as (_ & x & t & fx & Hin & Hx & Et & Ex & Hd).
  destruct (ti_task _ HI x a Hin Hx) as (t' & fc & fx' & Et' & _ & Ex' & Hd'). rewrite Et in Et'. injection Et' as <-.
  rewrite Ex in Ex'. injection Ex' as <-. rewrite Hd' in Hd; [|done..]. pose proof (gen_mono a _ _ H) as HG.
  assert (timer_gen a s1 = t_gen t) by (by rewrite /timer_gen Et). lia.
Qed.
(** Cancelled after the latest execution. *)
Definition off (a : aid) (s : st) : Prop :=
  timer_canceled a s = true /\ forall t f, timers s !! a = Some t -> t_canceled_fut t = Some f -> f_is_done f s = true.
Lemma off_move a s s' : own s -> tmove s s' -> timer_gen a s' = timer_gen a s -> off a s -> off a s'.
Proof.
  intros Ho H Hg [O1 O2]. split; [by eapply flag_mono|]. intros t' f Et Ef.
  destruct (entry_back a s s' t' H Et) as [(t & E1 & E2 & E3 & E4)|[(_ & E2 & _)|(E1 & _)]].
  - rewrite E2 in Ef. eapply (done_fwd s s'); [done|done|by eapply us_tcanc|by eapply O2].
  - congruence.
  - assert (timer_gen a s' = t_gen t') by (by rewrite /timer_gen Et). lia.
Qed.
Lemma off_now a s s' : own s -> tmove s s' -> timer_gen a s' = timer_gen a s -> timer_canceled a s = false -> timer_canceled a s' = true -> off a s'.
Proof.
  intros Ho H Hg Hc Hc'. destruct H; try (exfalso; revert Hc'; rewrite /timer_canceled; tmx s'; rewrite -/(timer_canceled a s); congruence).
  - subst s'. split; [done|]. intros t f. rewrite timer_cancel_timers. rewrite timer_cancel_flag in Hc'. apply orb_prop in Hc' as [Hb|Hb]; [|congruence].
    rewrite Hb. apply bool_decide_eq_true in Hb. subst a0. destruct (timers s !! a) as [t1|] eqn:Et; intros [= <-]; [|done]. intros Ef. exact (timer_cancel_fut a t1 f s Ho Et Ef).
  - exfalso. revert Hc'. rewrite /timer_canceled. tmx s'. destruct (decide (a0 = a)) as [->|Hne]; [by rewrite lookup_insert|]. rewrite lookup_insert_ne // -/(timer_canceled a s). congruence.
  - exfalso. revert Hc'. rewrite /timer_canceled. tmx s'. destruct (decide (a0 = a)) as [->|Hne]; [congruence|]. rewrite lookup_insert_ne // -/(timer_canceled a s). congruence.
Qed.
Lemma cancelled_stays a s0 ls0 s1 ls1 s2 : reachable w s0 -> cancelled a s0 = false -> steps w s0 ls0 s1 -> cancelled a s1 = true ->
  steps w s1 ls1 s2 -> times_executed a s2 = times_executed a s0 -> times_fired a s2 = times_fired a s1.
Proof.
  intros Hr Hc0 Hs0 Hc1 Hs1. change (times_executed a s2) with (timer_gen a s2). change (times_executed a s0) with (timer_gen a s0). intros Hg.
  apply tinv_reachable in Hr as [Ho _].
  apply (T_steps _ _ _ _ Ho) in Hs0 as [HT0 Ho1]. apply (T_steps _ _ _ _ Ho1) in Hs1 as [HT1 _].
  set (g := timer_gen a s0) in *.
  assert ((g < timer_gen a s1)%nat \/ (timer_gen a s1 = g /\ (timer_canceled a s1 = false \/ off a s1))) as H1.
  { eapply (T_inv (fun s => (g < timer_gen a s)%nat \/ (timer_gen a s = g /\ (timer_canceled a s = false \/ off a s)))); [|exact HT0|right; split; [done|by left]].
    clear. intros s s' O1 O2 H HJ. pose proof (gen_mono a _ _ H) as HG. destruct HJ as [?|[E HJ]]; [left; lia|].
    destruct (decide (timer_gen a s' = g)) as [E'|]; [|left; lia]. right. split; [done|].
    destruct HJ as [Hf|Hf]; [|right; apply (off_move a s s' O1 H); [congruence|done]].
    destruct (timer_canceled a s') eqn:Ec; [right|by left]. eapply (off_now a s s'); try done. congruence. }
  assert ((g < timer_gen a s2)%nat \/ (timer_gen a s2 = g /\ off a s2 /\ times_fired a s2 = times_fired a s1)) as [H2|(_ & _ & ->)]; [|lia|done].
  eapply (T_inv (fun s => (g < timer_gen a s)%nat \/ (timer_gen a s = g /\ off a s /\ times_fired a s = times_fired a s1))); [|exact HT1|].
  - clear. intros s s' O1 O2 H HJ. pose proof (gen_mono a _ _ H) as HG. destruct HJ as [?|(E & HO & HF)]; [left; lia|].
    destruct (decide (timer_gen a s' = g)) as [E'|]; [|left; lia]. right. split; [done|]. split; [apply (off_move a s s' O1 H); [congruence|done]|].
    destruct (decide (times_fired a s' = times_fired a s)) as [->|Hne]; [done|exfalso].
    destruct (fired_move a s s' H Hne) as (_ & x & t & fx & Hin & Hx & Et & Ex & Hd). destruct HO as [_ HO]. by rewrite (HO t fx) in Hd.
  - destruct H1 as [?|[E [H1|H1]]]; [by left| |right; by split_and!]. change (cancelled a s1) with (timer_canceled a s1) in Hc1. congruence.
Qed.
(** ** The end of the wait *)
Lemma timer_step_shape i a f dl s : tasks s !! i = Some (TTimerWait a f dl) -> in_loop s = true -> step w (LTask i) s = timer_wake i a f dl s.
Proof. intros E Hl. rewrite /= /loop_step Hl /task_step E. done. Qed.
Lemma in_ttasks_at i x s : tasks s !! i = Some x -> ttask x = true -> In x (ttasks s).
Proof. intros E H. apply filter_In. split; [|done]. apply elem_of_list_In. by eapply elem_of_list_lookup_2. Qed.
Lemma timer_waits i a f q s : reachable w s -> tasks s !! i = Some (TTimerWait a f q) -> cancelled a s = false ->
  (forall d, q = Some d -> (now s < d)%Q) -> step w (LTask i) s = None.
Proof.
  intros [Ho HI]%tinv_reachable Ei Hc Hq. destruct (in_loop s) eqn:Hl; [|by rewrite /= /loop_step Hl].
  rewrite (timer_step_shape _ _ _ _ _ Ei Hl) /timer_wake.
  destruct (f_is_done f s) eqn:Hd.
  { destruct (ti_wait _ HI a f q ltac:(by eapply in_ttasks_at)) as (_ & H1 & _). apply H1 in Hd. change (cancelled a s) with (timer_canceled a s) in Hc. congruence. }
  destruct q as [d|]; [|done]. destruct (Qle_bool d (now s)) eqn:E; [|done]. apply Qle_bool_iff in E. exfalso.
  eapply Qlt_not_le; [by apply Hq|done].
Qed.
Lemma timer_ends i a f q s : reachable w s -> in_loop s = true -> tasks s !! i = Some (TTimerWait a f q) -> (times_executed a s <= 1)%nat ->
  cancelled a s = true \/ (exists d, q = Some d /\ (d <= now s)%Q) ->
  exists s', step w (LTask i) s = Some s' /\ future_done a s' = true /\
    times_fired a s' = (if cancelled a s then times_fired a s else S (times_fired a s)) /\
    queue (cx s') = queue (cx s) ++ (if cancelled a s then [] else [EvTimer a]).
Proof.
  intros Hr Hl Ei Hg Hq. pose proof (counted_reachable a s Hr) as [C1 C2]. apply tinv_reachable in Hr as [Ho HI]. change (cancelled a s) with (timer_canceled a s) in *.
  assert (In (TTimerWait a f q) (ttasks s)) as Hin by (by eapply in_ttasks_at).
  assert (of_timer a (TTimerWait a f q) = true) as Hof by (simpl; by apply bool_decide_eq_true).
  destruct (ti_task _ HI _ a Hin Hof) as (t & fc & fx & Et & Ec & Ex & Hd). destruct (ti_wait _ HI a f q Hin) as (_ & Hw & Hcur).
  assert (t_gen t <= 1)%nat as Hg' by (by rewrite /times_executed Et in Hg). specialize (Hcur t Et Hg'). rewrite Ex in Hcur. injection Hcur as ->.
  rewrite (timer_step_shape _ _ _ _ _ Ei Hl) /timer_wake Et Ex Ec.
  assert (f_is_done f s || match q with Some q => Qle_bool q (now s) | None => false end = true) as ->.
  { destruct Hq as [Hc|(d & -> & Hle)]; [by rewrite Hd|]. apply Qle_bool_iff in Hle. rewrite Hle. apply orb_true_r. }
  assert (f_is_done f s = timer_canceled a s) as Hfd.
  { destruct (timer_canceled a s) eqn:E; [by apply Hd|]. destruct (f_is_done f s) eqn:E'; [|done]. by discriminate (Hw eq_refl). }
  eexists. split; [done|]. set (s1 := if f_is_done f s then s else _).
  assert (timers s1 = timers s /\ futs s1 = futs s /\ tasks s1 = tasks s) as (E1 & E2 & E3) by (rewrite /s1; by destruct (f_is_done f s)).
  destruct (task_res_tfields i (set_result fc s1)) as (F1 & F2 & F3 & F4).
  split_and!.
  - rewrite /future_done F1. rewrite (_ : timers (set_result fc s1).1 = timers s1); [by rewrite set_result_only|]. rewrite E1 Et Ec.
    rewrite /f_is_done /f_get F2. destruct (ow_some _ Ho fc (KTComp a) ltac:(by eapply us_tcomp)) as [x Hx].
    rewrite /set_result E2 Hx. destruct x; simpl; rewrite ?E2 ?Hx ?lookup_insert //.
  - rewrite /times_fired F4 set_result_only /s1 Hfd. destruct (timer_canceled a s); [done|]. simpl. by rewrite bool_decide_true.
  - rewrite (_ : cx (task_res i (set_result fc s1)) = cx s1); [by rewrite task_res_cx set_result_only|].
    rewrite /s1 Hfd. destruct (timer_canceled a s); [by rewrite app_nil_r|done].
Qed.
End timers.
