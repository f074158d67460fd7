(** Facts about the fixtures of launch_pytest (C92). *)
From Coq Require Import ssreflect.
From Verif Require Import SpecLaunchFixtures.

(** ** Scopes *)
Lemma base_eqb_eq a b : base_eqb a b = true <-> a = b.
Proof. destruct a, b; simpl; split; congruence. Qed.
Lemma rank_inj a b : rank a = rank b -> a = b.
Proof. destruct a, b; simpl; congruence. Qed.
Lemma set_same b o m : set_name b o m b = Some o.
Proof. rewrite /set_name. by destruct b. Qed.
Lemma set_other b c o m : c <> b -> set_name b o m c = m c.
Proof. rewrite /set_name => H. destruct (base_eqb c b) eqn:E; [|done]. by apply base_eqb_eq in E. Qed.
(** What one declaration does to one name. *)
Definition over1 (s : scope) (o : option fobj) : option fobj :=
  match s, o with
  | SFunction, _ => o
  | _, Some p => if fo_over p && scope_gt s (fo_scope p) then Some (getter s) else o
  | _, None => Some (getter s)
  end.
Lemma override_same s m b : s <> SFunction -> override s m b b = over1 s (m b).
Proof.
  rewrite /override /over1 => Hs. destruct (m b) as [o|] eqn:E.
  - destruct s; try done; (destruct (_ && _); [by rewrite set_same|by rewrite E]).
  - destruct s; try done; by rewrite set_same.
Qed.
Lemma override_other s m b c : c <> b -> override s m b c = m c.
Proof.
  rewrite /override => H. destruct (m b) as [o|]; [|by rewrite set_other].
  destruct (_ && _); [by rewrite set_other|done].
Qed.
Lemma decorate_name s m b : decorate s m b = over1 s (m b).
Proof.
  assert (s = SFunction \/ s <> SFunction) as [->|Hs] by (destruct s; auto); [done|].
  assert (decorate s m b = override s (override s (override s m Service) Loop) Ctx b) as -> by by destruct s.
  destruct b.
  - rewrite override_other; [done|]. rewrite override_other; [done|]. by rewrite override_same.
  - rewrite override_other; [done|]. rewrite override_same; [done|]. by rewrite override_other.
  - rewrite override_same; [done|]. rewrite override_other; [done|]. by rewrite override_other.

Qed.
Lemma exec_snoc l x : exec_module (l ++ [x]) = exec_stmt (exec_module l) x.
Proof. by rewrite /exec_module fold_left_app. Qed.
Lemma greatest_mono r l s : greatest r l -> at_most s r -> greatest r (l ++ [Declare s]).
Proof.
  move=> [H1 H2] Hs. split.
  - move=> x /in_app_iff [/H1 //|[[= <-]|[]]]. done.
  - destruct H2 as [->|H2]; [by left|right]. apply in_or_app. by left.
Qed.
Lemma greatest_new r l s : greatest r l -> ~ at_most s r -> greatest s (l ++ [Declare s]).
Proof.
  rewrite /greatest /at_most. move=> [H1 H2] Hs. split.
  - move=> x /in_app_iff [/H1|[[= <-]|[]]]; lia.
  - right. apply in_or_app. right. by left.
Qed.
Lemma greatest_define r l b o : greatest r l -> greatest r (l ++ [Define b o]).
Proof.
  move=> [H1 H2]. split.
  - by move=> x /in_app_iff [/H1 //|[//|[]]].
  - destruct H2 as [->|H2]; [by left|right]. apply in_or_app. by left.
Qed.
Lemma scope_gt_spec a b : scope_gt a b = true <-> ~ at_most a b.
Proof. rewrite /scope_gt /at_most Nat.ltb_lt. lia. Qed.
Lemma scope_gt_false a b : scope_gt a b = false <-> at_most a b.
Proof. rewrite /scope_gt /at_most Nat.ltb_ge. lia. Qed.
Lemma left_alone_snoc b l x : left_alone b (l ++ [x]) -> left_alone b l /\ forall o, x <> Define b o.
Proof.
  rewrite /left_alone => H. split.
  - move=> o Ho. apply (H o). apply in_or_app. by left.
  - move=> o Ho. apply (H o). apply in_or_app. right. by left.
Qed.
Lemma names_alone b l : left_alone b l ->
  match exec_module l b with
  | Some o => fo_over o = true /\ greatest (fo_scope o) l
  | None => greatest SFunction l
  end.
Proof.
  induction l as [|x l IH] using rev_ind.
  { move=> _. simpl. split; [by move=> s []|by left]. }
  move=> /left_alone_snoc [H Hx]. specialize (IH H). rewrite exec_snoc. destruct x as [s|c o].
  - simpl. rewrite decorate_name.
    destruct (exec_module l b) as [p|].
    + destruct IH as [Hp Hg]. rewrite /over1 Hp. simpl.
      destruct (scope_gt s (fo_scope p)) eqn:E.
      * apply scope_gt_spec in E. destruct s; (split; [done|]); simpl; try (by eapply greatest_new).
        exfalso. apply E. rewrite /at_most. simpl. lia.
      * apply scope_gt_false in E. destruct s; (split; [done|]); by apply greatest_mono.
    + rewrite /over1. destruct s; simpl; try (split; [done|]; eapply greatest_new; [exact IH|rewrite /at_most /=; lia]).
      apply greatest_mono; [done|]. by rewrite /at_most.
  - simpl. rewrite set_other; [intros ->; by eapply Hx|].
    destruct (exec_module l b) as [p|]; [destruct IH; split; [done|]|]; by apply greatest_define.
Qed.
Lemma found_alone b l : left_alone b l -> greatest (found (exec_module l) b) l.
Proof. move=> /names_alone H. rewrite /found. destruct (exec_module l b); [apply H|done]. Qed.
Lemma greatest_unique r r' l : greatest r l -> greatest r' l -> r = r'.
Proof.
  rewrite /greatest /at_most. move=> [H1 H2] [H3 H4]. apply rank_inj.
  destruct H2 as [->|H2], H4 as [->|H4]; try done.
  - apply H1 in H4. simpl in *. lia.
  - apply H3 in H2. simpl in *. lia.
  - apply H1 in H4. apply H3 in H2. lia.
Qed.
Lemma kept_fold (s : scope) l m b : m b = Some {| fo_scope := s; fo_over := false |} -> left_alone b l ->
  fold_left exec_stmt l m b = Some {| fo_scope := s; fo_over := false |}.
Proof.
  revert m. induction l as [|x l IH]; intros m Hm Hl; [done|]. simpl. apply IH.
  - destruct x as [r|c o]; simpl.
    + rewrite decorate_name Hm. by destruct r.
    + rewrite set_other; [|done]. intros ->. apply (Hl o). by left.
  - move=> o Ho. apply (Hl o). by right.
Qed.
Lemma user_kept l1 b s l2 : left_alone b l2 ->
  found (exec_module (l1 ++ Define b {| fo_scope := s; fo_over := false |} :: l2)) b = s.
Proof.
  move=> H. rewrite /found /exec_module fold_left_app. simpl. by rewrite (kept_fold s) ?set_same.
Qed.
(** Instances. *)
Lemma same_le s r t u : at_most s r -> same_instance s t u = true -> same_instance r t u = true.
Proof.
  rewrite /at_most /same_instance => H.
  destruct s, r; simpl in H; try lia; rewrite ?andb_true_iff; intuition.
  match goal with H : bool_decide _ = true |- _ => apply bool_decide_eq_true in H; rewrite H end.
  destruct (pl_class u); [apply Nat.eqb_refl|done].
Qed.

(** ** One launch service *)
Lemma run_app l1 l2 v : fixture_run (l1 ++ l2) v = match fixture_run l1 v with Some v' => fixture_run l2 v' | None => None end.
Proof. revert v. induction l1 as [|f l1 IH]; intros v; simpl; [done|]. destruct (fixture_step f v); [apply IH|done]. Qed.
Lemma setups_app l1 l2 : setups (l1 ++ l2) = setups l1 ++ setups l2.
Proof. induction l1 as [|f l1 IH]; [done|]. destruct f as [[]| |]; simpl; try done. by rewrite IH. Qed.
Lemma eqb_in d l : existsb (Nat.eqb d) l = true <-> In d l.
Proof.
  rewrite existsb_exists. split.
  - move=> [x [H1 H2]]. apply Nat.eqb_eq in H2. by subst.
  - move=> H. exists d. by rewrite Nat.eqb_refl.
Qed.
Record sane (s : list nat) (v : svc) : Prop := {
  sn_shutting : v_shutting v = true -> v_down v = true;
  sn_task : v_task v <> None -> v_run v = false -> v_down v = true;
  sn_run : v_run v = true -> v_task v <> None /\ v_new v = [];
  sn_new : v_new v = [] \/ exists k d, v_new v = [k] /\ v_main v = MReady d /\ ~ In d (v_ready v);
  sn_ready : forall d, In d (v_ready v) -> In d (v_visited v);
  sn_in : forall d, In d (v_queue v) \/ In d (v_visited v) -> In d s;
  sn_none : v_task v = None -> v_new v = [] -> s = [];
  sn_first : v_down v = false -> forall d, In d (v_queue v) \/ In d (v_visited v) -> hd_error s = Some d;
  sn_started : forall d, In d (v_started v) -> hd_error s = Some d }.
Lemma hd_app (s t : list nat) d : hd_error s = Some d -> hd_error (s ++ t) = Some d.
Proof. by destruct s. Qed.
Lemma sane_new : sane [] svc_new.
Proof. split; simpl; try done; auto; first [by intros d []|by intros d [[]|[]]|by intros _ d [[]|[]]]. Qed.
Lemma sane_turn s t v v' : sane s v -> loop_turn t v = Some v' -> (forall d, v_main v <> MInclude d) -> sane s v'.
Proof.
  intros I H Hm. destruct t; simpl in H.
  - destruct (v_new v) as [|k l] eqn:En; [done|]. destruct (v_run v) eqn:Er.
    { destruct (sn_run _ _ I Er) as [_ E]. by rewrite E in En. }
    injection H as <-. destruct (sn_new _ _ I) as [E|(k' & d & E & Hd & Hr)]; [by rewrite E in En|].
    rewrite En in E. injection E as <- ->. destruct I; split; simpl; auto; try done.
  - destruct (v_queue v) as [|d q] eqn:Eq; [done|]. destruct (v_run v) eqn:Er; [|done]. injection H as <-.
    destruct I; split; simpl; auto; try done.
    + intros x [Hx|[<-|Hx]].
      * apply sn_in0. left. rewrite Eq. by right.
      * apply sn_in0. left. rewrite Eq. by left.
      * apply sn_in0. by right.
    + intros Hd x [Hx|[<-|Hx]]; apply sn_first0; try done.
      * left. rewrite Eq. by right.
      * left. rewrite Eq. by left.
      * by right.
  - destruct (v_run v && existsb (Nat.eqb d) (v_visited v)) eqn:E; [|done]. injection H as <-.
    apply andb_true_iff in E as [Er Ev]. apply eqb_in in Ev.
    destruct (v_down v) eqn:Ed; [done|]. destruct I; split; simpl; auto; try done.
    intros x [<-|Hx]; [|auto]. apply sn_first0; auto.
  - destruct (v_run v && existsb (Nat.eqb d) (v_visited v)) eqn:E; [|done]. injection H as <-.
    apply andb_true_iff in E as [Er Ev]. apply eqb_in in Ev.
    destruct I; split; simpl; auto; try done.
    all: first [by left; destruct (sn_run0 Er)|by intros x [<-|Hx]; auto].
  - destruct (v_run v) eqn:Er; [|done]. injection H as <-. destruct I; split; simpl; auto; try done.
  - destruct (v_task v) as [k|] eqn:Et; [|done]. destruct (v_run v && v_shutting v) eqn:E; [|done]. injection H as <-.
    apply andb_true_iff in E as [Er Es]. destruct I; split; simpl; auto; try done.
  - destruct (v_main v) eqn:E; try done. by destruct (Hm d).
Qed.
Lemma sane_begin s x v : sane s v -> v_main v = MFree -> (forall d, x = WSetup d -> ~ In d s) ->
  sane (s ++ setups [FBegin x]) (begin x v).
Proof.
  intros I Hm Hd. assert (v_new v = []) as En.
  { destruct (sn_new _ _ I) as [E|(k & d & _ & E & _)]; [done|]. by rewrite E in Hm. }
  destruct x as [d| |a]; simpl.
  - destruct (v_run v) eqn:Er.
    + destruct I; split; simpl; auto; try done.
      * intros x Hx. apply in_or_app. auto.
      * intros Ht Hn. by destruct (sn_run0 Er) as [].
      * intros Hf x Hx. apply hd_app. auto.
      * intros x Hx. apply hd_app. auto.
    + destruct I; split; simpl; rewrite ?En; try done.
      * intros Hr. by rewrite Hr in Er.
      * right. exists (v_next v), d. split; [done|]. split; [done|]. intros Hx. apply (Hd d); auto.
      * intros x [Hx|Hx]; apply in_or_app; [|auto]. apply in_app_iff in Hx as [Hx|[<-|[]]]; [auto|]. right. by left.
      * intros Hf x Hx. destruct (v_task v) eqn:Et.
        { assert (v_down v = true) as E by auto. by rewrite E in Hf. }
        rewrite (sn_none0 eq_refl En) in sn_in0 |- *. simpl. destruct Hx as [Hx|Hx].
        -- apply in_app_iff in Hx as [Hx|[<-|[]]]; [|done]. by destruct (sn_in0 x (or_introl Hx)).
        -- by destruct (sn_in0 x (or_intror Hx)).
      * intros x Hx. apply hd_app. auto.
  - rewrite app_nil_r. destruct I; split; simpl; auto.
  - rewrite app_nil_r. destruct (v_run v) eqn:Er; [|done].
    destruct a; simpl; destruct (v_task v) eqn:Et; destruct I; split; simpl; auto; try done; try (by rewrite Et).
Qed.
Lemma nodup_l (a b : list nat) : List.NoDup (a ++ b) -> List.NoDup a.
Proof.
  induction a as [|x a IH]; simpl; intros H; [constructor|]. inversion H as [|? ? H1 H2]; subst. constructor; [|by apply IH].
  intros Hx. apply H1. apply in_or_app. by left.
Qed.
Lemma sane_happens l v : happens l v -> List.NoDup (setups l) -> sane (setups l) v.
Proof.
  rewrite /happens. revert v. induction l as [|f l IH] using rev_ind; intros v H Hn.
  { injection H as <-. apply sane_new. }
  rewrite run_app in H. destruct (fixture_run l svc_new) as [v0|] eqn:E; [|done].
  rewrite setups_app in Hn |- *.
  assert (sane (setups l) v0) as I. { apply IH; [done|]. by apply nodup_l in Hn. }
  simpl in H. destruct (fixture_step f v0) as [v1|] eqn:Ef; [|done]. injection H as <-.
  destruct f as [x| |t]; cbn [fixture_step] in Ef.
  - destruct (v_main v0) eqn:Em; try done. injection Ef as <-. apply sane_begin; [done|done|].
    intros d ->. simpl in Hn. intros Hin. apply List.NoDup_remove_2 in Hn. by rewrite app_nil_r in Hn.
  - rewrite app_nil_r. rewrite /proceed in Ef. destruct (v_main v0) eqn:Em; try done.
    + destruct (existsb _ _) eqn:Er; [|done]. apply eqb_in in Er. injection Ef as <-.
      assert (v_new v0 = []) as En.
      { destruct (sn_new _ _ I) as [?|(k & d' & _ & E2 & Hr)]; [done|]. rewrite Em in E2. injection E2 as <-. done. }
      destruct (v_run v0); destruct I; split; simpl; auto.
    + injection Ef as <-. assert (v_new v0 = []) as En.
      { destruct (sn_new _ _ I) as [?|(k & d' & _ & E2 & Hr)]; [done|]. by rewrite Em in E2. }
      destruct I; split; simpl; auto.
    + destruct (existsb _ _); [|done]. injection Ef as <-. assert (v_new v0 = []) as En.
      { destruct (sn_new _ _ I) as [?|(k' & d' & _ & E2 & Hr)]; [done|]. by rewrite Em in E2. }
      destruct I; split; simpl; auto.
  - rewrite app_nil_r. destruct (driving v0) eqn:Ed; [|done]. eapply sane_turn; [done|done|].
    intros d Hd. by rewrite /driving Hd in Ed.
Qed.
Lemma first_only l v d : happens l v -> List.NoDup (setups l) -> In d (v_started v) -> hd_error (setups l) = Some d.
Proof. move=> H Hn. by apply sn_started, sane_happens. Qed.
(** A set-up of a service that runs. *)
Lemma blocked_stays d v l v' : v_main v = MInclude d -> fixture_run l v = Some v' -> l = [] /\ v' = v.
Proof.
  intros Hm H. destruct l as [|f l]; [by injection H as <-|]. simpl in H.
  assert (fixture_step f v = None) as E; [|by rewrite E in H].
  destruct f as [x| |t]; cbn [fixture_step].
  - by rewrite Hm.
  - by rewrite /proceed Hm.
  - by rewrite /driving Hm.
Qed.
Lemma busy_blocks d v v1 l v2 : v_run v = true -> fixture_step (FBegin (WSetup d)) v = Some v1 -> fixture_run l v1 = Some v2 ->
  l = [] /\ v_main v2 = MInclude d.
Proof.
  intros Hr H H2. simpl in H. destruct (v_main v); try done. rewrite Hr in H. injection H as <-.
  eapply (blocked_stays d) in H2 as [-> ->]; by [].
Qed.
(** A launch that ended before it was ready. *)
Lemma never_ready d v l v' : v_main v = MReady d -> v_run v = false -> v_new v = [] -> ~ In d (v_ready v) ->
  fixture_run l v = Some v' -> l = [] /\ v' = v.
Proof.
  intros Hm Hr Hn Hd H. destruct l as [|f l]; [by injection H as <-|]. simpl in H.
  assert (fixture_step f v = None) as E; [|by rewrite E in H].
  destruct f as [x| |t]; cbn [fixture_step].
  - by rewrite Hm.
  - rewrite /proceed Hm. destruct (existsb _ _) eqn:E; [|done]. by apply eqb_in in E.
  - rewrite /driving Hm. destruct t; simpl; rewrite ?Hn ?Hr; try done.
    + by destruct (v_queue v).
    + by destruct (v_task v).
    + by rewrite Hm.
Qed.
