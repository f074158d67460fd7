(** Proofs about the names and environments of processes. *)
From Coq Require Import ssreflect Sorting.Sorted.
From Verif Require Import SubstFacts SpecNames ExWorld ActionFacts ExecFacts VisitFacts HandleFacts StepFacts MicroSteps OwnFacts ProcFacts LifeFacts.
From stdpp Require Import pretty.

(** ** Numbers in names *)
#[local] Arguments String.append : simpl nomatch.
Definition no_dash (s : string) : Prop := ~ In "-"%char (list_ascii_of_string s).
Lemma pretty_N_go_no_dash x s : no_dash s -> no_dash (pretty_N_go x s).
Proof.
  revert s. induction (N.lt_wf_0 x) as [x _ IH]; intros s Hs. destruct (decide (x = 0)%N) as [->|Hx]; [by rewrite pretty_N_go_0|].
  rewrite pretty_N_go_step; [lia|]. apply IH; [apply N.div_lt; lia|]. intros [H|H]; [|by apply Hs].
  revert H. rewrite /pretty_N_char. by repeat case_match.
Qed.
Lemma pretty_Z_no_dash z : (0 < z)%Z -> no_dash (pretty z).
Proof.
  destruct z as [|p|p]; try lia. intros _. rewrite /pretty /pretty_Z /pretty /pretty_positive /pretty /pretty_N.
  case_match; [done|]. apply pretty_N_go_no_dash. by intros [].
Qed.
Lemma ascii_app a b : list_ascii_of_string (a ++ b)%string = list_ascii_of_string a ++ list_ascii_of_string b.
Proof. induction a as [|c a IH]; [done|]. simpl. by rewrite IH. Qed.
Lemma dash_last a x b y : no_dash x -> no_dash y -> (a ++ String "-" x = b ++ String "-" y)%string -> x = y.
Proof.
  intros Hx Hy. revert b. induction a as [|c a IH]; intros [|c' b]; simpl.
  - by intros [= ->].
  - intros [= _ ->]. destruct Hx. rewrite ascii_app. apply in_or_app. right. by left.
  - intros [= _ <-]. destruct Hy. rewrite ascii_app. apply in_or_app. right. by left.
  - intros [= _ E]. by eapply IH.
Qed.
Lemma numbered_ne d d' n n' k k' : (0 < k)%Z -> (0 < k')%Z -> k <> k' -> numbered d n k -> numbered d' n' k' -> d_name d <> d_name d'.
Proof.
  intros Hk Hk' Hne -> -> E. apply Hne. apply dash_last in E; [|by apply pretty_Z_no_dash..]. by apply (inj pretty).
Qed.

(** ** One prepare *)
Section names.
Context (w : world).
Definition same_count (s s' : st) : Prop := pcount s' = pcount s.
#[local] Instance same_count_pre : PreOrder same_count.
Proof. split; [done|]. intros s1 s2 s3 H1 H2. rewrite /same_count in H1, H2 |- *. congruence. Qed.
Lemma C_on_ctx {A} (m : ctx -> ctx * res A) : pres same_count (on_ctx m).
Proof. intros s s' r. rewrite /on_ctx. destruct (m (cx s)). by intros [= <- <-]. Qed.
Ltac cpr := repeat first [ apply (pres_ret _) | apply (pres_raise _) | apply C_on_ctx | apply (pres_bind _); [|intros ?] ].
Lemma C_eval_env l acc : pres same_count (eval_env w l acc).
Proof. revert acc. induction l as [|[k v] l IH]; intros acc; simpl; cpr. apply IH. Qed.
Lemma prepare_number c s s' d : prepare_executable w c s = (s', Ok d) ->
  (exists n, numbered d n (pcount s + 1)) /\ pcount s' = (pcount s + 1)%Z.
Proof.
  rewrite /prepare_executable.
  intros [(s1 & cmd & E1 & H)|[(e & _ & ?)|[_ ?]]]%bindS_inv; [|done..].
  revert H; intros [(s2 & b & E2 & H)|[(e & _ & ?)|[_ ?]]]%bindS_inv; [|done..].
  revert H; intros [(s3 & cmd' & E3 & H)|[(e & _ & ?)|[_ ?]]]%bindS_inv; [|done..].
  revert H; intros [(s4 & n & E4 & H)|[(e & _ & ?)|[_ ?]]]%bindS_inv; [|done..].
  assert (pcount s4 = pcount s) as Ep.
  { transitivity (pcount s3); [|transitivity (pcount s2); [|transitivity (pcount s1)]].
    - revert E4. match goal with |- ?m s3 = _ -> _ => assert (pres same_count m) as HP; [|apply HP] end. repeat case_match; cpr.
    - revert E3. match goal with |- ?m s2 = _ -> _ => assert (pres same_count m) as HP; [|apply HP] end. repeat case_match; cpr.
    - revert E2. match goal with |- ?m s1 = _ -> _ => assert (pres same_count m) as HP; [|apply HP] end. repeat case_match; cpr.
    - revert E1. apply C_on_ctx. }
  revert H. rewrite {1}/bindS /=. 
  intros [(s5 & cwd & E5 & H)|[(e & _ & ?)|[_ ?]]]%bindS_inv; [|done..].
  revert H; intros [(s6 & e1 & E6 & H)|[(e & _ & ?)|[_ ?]]]%bindS_inv; [|done..].
  revert H; intros [(s7 & e2 & E7 & H)|[(e & _ & ?)|[_ ?]]]%bindS_inv; [|done..].
  revert H; intros [= <- <-].
  assert (pcount s7 = pcount s + 1)%Z as E.
  { transitivity (pcount s6); [|transitivity (pcount s5)].
    - revert E7. destruct (p_addenv c); [apply C_eval_env|by intros [= <- _]].
    - revert E6. destruct (p_env c); [apply C_eval_env|by intros [= <- _]].
    - transitivity (Z.succ (pcount s4)); [|lia]. revert E5. destruct (p_cwd c); [|by intros [= <- _]].
      match goal with |- ?m ?s0 = _ -> _ => change (Z.succ (pcount s4)) with (pcount s0); assert (pres same_count m) as HP by cpr; apply HP end. }
  split; [|done]. exists n. rewrite /numbered /= Ep. by rewrite Z.add_1_r.
Qed.
Lemma prepares_mono s ds s' : prepares w s ds s' -> (pcount s <= pcount s')%Z.
Proof. induction 1 as [| |c s s1 d ds s2 E _ IH]; [lia|lia|]. destruct (prepare_number _ _ _ _ E) as [_ E']. lia. Qed.
Lemma prepares_numbers s ds s' : prepares w s ds s' ->
  exists ks, Forall2 (fun d k => exists n, numbered d n k) ds ks /\ StronglySorted Z.lt ks /\ Forall (fun k => pcount s < k)%Z ks.
Proof.
  induction 1 as [s|s s1 ds s2 H _ (ks & H1 & H2 & H3)|c s s1 d ds s2 E _ (ks & H1 & H2 & H3)].
  - exists []. repeat constructor.
  - exists ks. split_and!; [done|done|]. eapply Forall_impl; [done|]. simpl. lia.
  - destruct (prepare_number _ _ _ _ E) as [En E']. exists ((pcount s + 1)%Z :: ks). rewrite E' in H3. split; [by constructor|]. split; [by constructor|].
    constructor; [lia|]. eapply Forall_impl; [done|]. simpl. lia.
Qed.
Lemma prepares_names s ds s' : prepares w s ds s' -> (0 <= pcount s)%Z -> NoDup (map d_name ds).
Proof.
  intros (ks & H1 & H2 & H3)%prepares_numbers Hs. assert (Forall (fun k => 0 < k)%Z ks) as H4 by (eapply Forall_impl; [done|]; simpl; lia).
  clear H3 Hs. revert H2 H4. induction H1 as [|d k ds ks [n Hn] H IH]; intros H2 H4; [constructor|].
  inversion H2; subst. inversion H4; subst. simpl. constructor; [|by apply IH]. intros (d' & E & Hd)%elem_of_list_fmap.
  apply elem_of_list_lookup in Hd as [i Hi]. destruct (Forall2_lookup_l _ _ _ _ _ H Hi) as (k' & Hk & [n' Hn']).
  apply elem_of_list_lookup_2 in Hk. rewrite Forall_forall in H5. specialize (H5 _ Hk). rewrite Forall_forall in H7. specialize (H7 _ Hk).
  eapply (numbered_ne d d' n n' k k'); try done. lia.
Qed.

(** ** The environment *)
Lemma eval_env_cases l acc s s' r : eval_env w l acc s = (s', Ok r) ->
  exists c ts, evals w (texts_of_rev l) (cx s) c ts /\ r = list_to_map (rev (swapped_pairs_of ts)) ∪ acc /\ s' = s <| cx := c |>.
Proof.
  revert acc s. induction l as [|[k v] l IH]; intros acc s; cbn [eval_env].
  { intros [= <- <-]. exists (cx s), []. split_and!; [constructor|by rewrite left_id_L|by destruct s]. }
  intros [(s1 & v' & (c1 & E1 & ->)%perform_st_inv & E)|[(e & _ & ?)|[? ?]]]%bindS_inv; [|done..].
  revert E; intros [(s2 & k' & (c2 & E2 & ->)%perform_st_inv & E)|[(e & _ & ?)|[? ?]]]%bindS_inv; [|done..].
  destruct (IH _ _ E) as (c & ts & Ht & -> & ->). exists c, (v' :: k' :: ts). split_and!; [| |by destruct s].
  - econstructor; [done|]. econstructor; [done|]. exact Ht.
  - simpl. rewrite list_to_map_app. cbn [list_to_map foldr]. rewrite insert_empty -assoc_L. by rewrite insert_union_singleton_l.
Qed.
Lemma prepare_env c s s' d : prepare_executable w c s = (s', Ok d) ->
  exists c1 c2 base add, same_variables (cx s) c1 /\ env_option w (p_env c) (env (cx s)) c1 c2 base /\
    env_option w (p_addenv c) ∅ c2 (cx s') add /\ d_env d = add ∪ base /\ same_variables (cx s) (cx s').
Proof.
  rewrite /prepare_executable.
  intros [(s1 & cmd & E1 & H)|[(e & _ & ?)|[_ ?]]]%bindS_inv; [|done..].
  revert H; intros [(s2 & b & E2 & H)|[(e & _ & ?)|[_ ?]]]%bindS_inv; [|done..].
  revert H; intros [(s3 & cmd' & E3 & H)|[(e & _ & ?)|[_ ?]]]%bindS_inv; [|done..].
  revert H; intros [(s4 & n & E4 & H)|[(e & _ & ?)|[_ ?]]]%bindS_inv; [|done..].
  revert H. rewrite {1}/bindS /=. set (s4' := set pcount _ s4).
  intros [(s5 & cwd & E5 & H)|[(e & _ & ?)|[_ ?]]]%bindS_inv; [|done..].
  revert H; intros [(s6 & e1 & E6 & H)|[(e & _ & ?)|[_ ?]]]%bindS_inv; [|done..].
  revert H; intros [(s7 & e2 & E7 & H)|[(e & _ & ?)|[_ ?]]]%bindS_inv; [|done..].
  revert H; intros [= <- <-].
  assert (forall A (m : ctx -> ctx * res A) s s' r, frames m -> on_ctx m s = (s', r) -> sframe (cx s) (cx s')) as HF.
  { intros A m t t' r Hm. rewrite /on_ctx. destruct (m (cx t)) as [c' x] eqn:E. intros [= <- <-]. by eapply Hm. }
  assert (forall l t t' r, perform_st w l t = (t', r) -> sframe (cx t) (cx t')) as HP.
  { intros l t t' r. apply HF, perform_substitutions_frames. }
  assert (sframe (cx s) (cx s5)) as F5.
  { eapply sframe_trans; [eapply HF; [apply perform_list_frame|exact E1]|].
    eapply sframe_trans. { revert E2. destruct (p_prefix c); [intros [= <- _]; apply sframe_refl|].
      intros [(t & f & E & H)|[(e & E & ?)|[? ?]]]%bindS_inv; [|done..]. apply HP in E. destruct cmd; [done|]. by revert H; intros [= <- _]. }
    eapply sframe_trans. { revert E3. destruct b; [|intros [= <- _]; apply sframe_refl].
      intros [(t & f & E & H)|[(e & E & ?)|[? ?]]]%bindS_inv; [|done..]. apply HP in E. by revert H; intros [= <- _]. }
    eapply sframe_trans. { revert E4. destruct (p_name c); [by apply HP|]. destruct cmd'; [done|]. intros [= <- _]. apply sframe_refl. }
    change (cx s4) with (cx s4'). revert E5. destruct (p_cwd c); [|intros [= <- _]; apply sframe_refl].
    intros [(t & f & E & H)|[(e & E & ?)|[? ?]]]%bindS_inv; [|done..]. apply HP in E. by revert H; intros [= <- _]. }
  assert (env_option w (p_env c) (env (cx s)) (cx s5) (cx s6) e1 /\ sframe (cx s5) (cx s6)) as [O6 F6].
  { revert E6. rewrite /env_option. destruct (p_env c) as [l|].
    - intros (c' & ts & Ht & -> & ->)%eval_env_cases. split; [|by eapply evals_frame]. exists ts. split; [done|]. by rewrite right_id_L.
    - intros [= <- <-]. split; [|apply sframe_refl]. split; [|done]. by destruct (sframe_same _ _ F5). }
  assert (exists add, env_option w (p_addenv c) ∅ (cx s6) (cx s7) add /\ e2 = add ∪ e1 /\ sframe (cx s6) (cx s7)) as (add & O7 & Ea & F7).
  { revert E7. rewrite /env_option. destruct (p_addenv c) as [l|].
    - intros (c' & ts & Ht & -> & ->)%eval_env_cases. eexists. split; [by eexists|]. split; [done|by eapply evals_frame].
    - intros [= <- <-]. exists ∅. split; [done|]. split; [by rewrite left_id_L|apply sframe_refl]. }
  exists (cx s5), (cx s6), e1, add. split_and!; [by apply sframe_same|done|done|done|].
  apply sframe_same. eapply sframe_trans; [exact F5|]. by eapply sframe_trans.
Qed.

(** ** All details that occur *)
Definition tdet (t : task) : option (aid * pdet) :=
  match t with TProcSpawn a d | TProcConn a _ d _ | TProcRun a _ d _ => Some (a, d) | _ => None end.
Definition life_of (a : aid) (d : pdet) (o : obs) : Prop := o = OLife (EvStarted a d) \/ exists rc, o = OLife (EvExited a d rc).
Inductive mention (s : st) (a : aid) (d : pdet) : Prop :=
| men_proc p : procs s !! a = Some p -> x_det p = Some d -> mention s a d
| men_task t : In t (tasks s) -> tdet t = Some (a, d) -> mention s a d
| men_life o : In o (log s) -> life_of a d o -> mention s a d.
Lemma samed_refl d : same_but_pid d d. Proof. done. Qed.
Lemma samed_trans d1 d2 d3 : same_but_pid d1 d2 -> same_but_pid d2 d3 -> same_but_pid d1 d3.
Proof. intros (?&?&?&?) (?&?&?&?). repeat split; congruence. Qed.
Definition menS (s : st) (a : aid) (d : pdet) : Prop := exists d0, mention s a d0 /\ same_but_pid d0 d.
Lemma men_menS s a d : mention s a d -> menS s a d.
Proof. intros H. by exists d. Qed.
Record good (own : Z -> option aid) (s : st) (a : aid) (d : pdet) : Prop := {
  gd_num : exists n k, numbered d n k /\ (0 < k <= pcount s)%Z /\ own k = Some a;
  gd_prep : exists c s1 s2 d0, config a s = Some c /\ prepare_executable w c s1 = (s2, Ok d0) /\ same_but_pid d0 d }.
Context (K : Z).
Definition named (s : st) : Prop := (0 <= K <= pcount s)%Z /\ exists own, forall a d, mention s a d -> good own s a d.
Definition keeps (s s' : st) : Prop :=
  forall a p, procs s !! a = Some p -> exists p', procs s' !! a = Some p' /\ x_cfg p' = x_cfg p.
Lemma good_keep own s s' a d d' : (pcount s <= pcount s')%Z -> keeps s s' -> same_but_pid d d' -> good own s a d -> good own s' a d'.
Proof.
  intros Hp HK HS [(n & k & H1 & H2 & H3) (c & s1 & s2 & d0 & E1 & E2 & E3)]. split.
  - exists n, k. split_and!; [|lia|lia|done]. rewrite /numbered -(proj1 HS). exact H1.
  - exists c, s1, s2, d0. split_and!; [|done|by eapply samed_trans]. revert E1. rewrite /config.
    destruct (procs s !! a) as [p|] eqn:Ep; [|done]. destruct (HK a p Ep) as (p' & -> & E). by rewrite /= E.
Qed.
Lemma named_frame s s' : named s -> (pcount s <= pcount s')%Z -> keeps s s' -> (forall a d, mention s' a d -> menS s a d) -> named s'.
Proof.
  intros [H0 (own & H)] Hp HK HM. split; [lia|]. exists own. intros a d (d0 & Hd & HS)%HM. eapply good_keep; try done. by apply H.
Qed.
Definition nolife (l : list obs) : Prop := Forall (fun o => forall a d, ~ life_of a d o) l.
Lemma mention_frame s s' l : 
  (forall a p', procs s' !! a = Some p' -> (exists p, procs s !! a = Some p /\ x_det p' = x_det p) \/ forall d, x_det p' = Some d -> menS s a d) ->
  (forall t, In t (tasks s') -> In t (tasks s) \/ forall a d, tdet t = Some (a, d) -> menS s a d) ->
  log s' = l ++ log s -> Forall (fun o => forall a d, life_of a d o -> menS s a d) l ->
  forall a d, mention s' a d -> menS s a d.
Proof.
  intros HP HT HL Hl a d [p E1 E2|t E1 E2|o E1 E2].
  - destruct (HP _ _ E1) as [(p0 & E3 & E4)|E3]; [|by apply E3]. apply men_menS. eapply men_proc; [done|]. congruence.
  - destruct (HT _ E1) as [E3|E3]; [|by apply E3]. apply men_menS. by eapply men_task.
  - rewrite HL in E1. apply in_app_or in E1 as [E1|E1]; [|by apply men_menS; eapply men_life].
    rewrite List.Forall_forall in Hl. by eapply Hl.
Qed.
Lemma aside_nolife l : Forall (fun o => aside o = true) l -> nolife l.
Proof. intros H. eapply Forall_impl; [done|]. intros o Ho a d [->|[rc ->]]; done. Qed.
Lemma nolife_ok s l : nolife l -> Forall (fun o => forall a d, life_of a d o -> menS s a d) l.
Proof. intros H. eapply Forall_impl; [done|]. intros o Ho a d Hl. by destruct (Ho a d). Qed.
(** Processes, tasks and announcements stay as they are. *)
Lemma named_same s s' l : named s -> procs s' = procs s -> tasks s' = tasks s -> log s' = l ++ log s -> nolife l ->
  (pcount s <= pcount s')%Z -> named s'.
Proof.
  intros HN E1 E2 E3 Hl Hp. apply (named_frame s s'); [done|done| |].
  - intros a p Ep. exists p. by rewrite E1.
  - apply (mention_frame s s' l); [| |done|by apply nolife_ok].
    + intros a p Ep. left. exists p. by rewrite -E1.
    + intros t Ht. left. by rewrite -E2.
Qed.
(** A process object changes, tasks come from elsewhere. *)
Lemma named_upd s s' l b g : named s -> procs s' = alter g b (procs s) ->
  (forall p, procs s !! b = Some p -> x_cfg (g p) = x_cfg p /\ (x_det (g p) = x_det p \/ forall d, x_det (g p) = Some d -> menS s b d)) ->
  (forall t, In t (tasks s') -> In t (tasks s) \/ forall a d, tdet t = Some (a, d) -> menS s a d) ->
  log s' = l ++ log s -> Forall (fun o => forall a d, life_of a d o -> menS s a d) l ->
  (pcount s <= pcount s')%Z -> named s'.
Proof.
  intros HN E1 Hg HT E3 Hl Hp. apply (named_frame s s'); [done|done| |].
  - intros a p Ep. rewrite E1. destruct (decide (b = a)) as [->|Hne].
    + rewrite lookup_alter Ep. eexists. split; [done|]. by apply Hg.
    + rewrite lookup_alter_ne //. by exists p.
  - apply (mention_frame s s' l); [|done|done|done].
    intros a p. rewrite E1. destruct (decide (b = a)) as [->|Hne].
    + rewrite lookup_alter. destruct (procs s !! a) as [q|] eqn:Eq; [|done]. intros [= <-]. destruct (Hg _ eq_refl) as [_ [E|E]]; [left; by exists q|by right].
    + rewrite lookup_alter_ne //. intros Ep. left. by exists p.
Qed.
Lemma alter_id_procs (s : st) a : alter (fun p : pobj => p) a (procs s) = procs s.
Proof. apply map_eq. intros b. destruct (decide (a = b)) as [->|Hne]; [rewrite lookup_alter; by destruct (procs s !! b)|by rewrite lookup_alter_ne]. Qed.
(** Only tasks. *)
Lemma named_tasks s s' l : named s -> procs s' = procs s ->
  (forall t, In t (tasks s') -> In t (tasks s) \/ forall a d, tdet t = Some (a, d) -> menS s a d) ->
  log s' = l ++ log s -> Forall (fun o => forall a d, life_of a d o -> menS s a d) l ->
  (pcount s <= pcount s')%Z -> named s'.
Proof.
  intros HN E1 HT E3 Hl Hp. apply (named_upd s s' l (User 0) (fun p => p)); try done; [by rewrite alter_id_procs|]. auto.
Qed.
Lemma set_nth_in {A} i (x y : A) l : In y (set_nth i x l) -> y = x \/ In y l.
Proof. revert i. induction l as [|z l IH]; intros [|i]; simpl; [done|done|intros [->|]; auto|]. intros [->|H]; [by auto|]. destruct (IH _ H); auto. Qed.
Lemma del_nth_in {A} i (y : A) l : In y (del_nth i l) -> In y l.
Proof. revert i. induction l as [|z l IH]; intros [|i]; simpl; [done|done|auto|]. intros [->|H]; [by auto|]. right. by eapply IH. Qed.
Definition fine_tasks (s s' : st) : Prop := forall t, In t (tasks s') -> In t (tasks s) \/ forall a d, tdet t = Some (a, d) -> menS s a d.
Lemma task_to_fine i t s s' : tasks s' = tasks s -> (forall a d, tdet t = Some (a, d) -> menS s a d) -> fine_tasks s (task_to i t s').
Proof. intros E H t'. rewrite /task_to /= E. intros [->|?]%set_nth_in; [by right|by left]. Qed.
Lemma task_end_fine i s s' : tasks s' = tasks s -> fine_tasks s (task_end i s').
Proof. intros E t'. rewrite /task_end /= E. intros ?%del_nth_in. by left. Qed.
Lemma task_dies_fine i e s s' : tasks s' = tasks s -> fine_tasks s (task_dies i e s').
Proof. intros E. dies. by apply task_to_fine. Qed.
Lemma task_res_fine i r s : tasks r.1 = tasks s -> fine_tasks s (task_res i r).
Proof. destruct r as [s1 [x|e|]]; simpl; intros E; [by apply task_end_fine|by apply task_dies_fine|by apply task_end_fine]. Qed.
Lemma task_res_fields i r : procs (task_res i r) = procs r.1 /\ log (task_res i r) = log r.1 /\ pcount (task_res i r) = pcount r.1.
Proof. by destruct r as [s1 [x|e|]]. Qed.
Lemma cleanup_count a s : pcount (cleanup a s).1 = pcount s.
Proof.
  rewrite /cleanup. destruct (procs s !! a) as [p|]; [|done].
  assert (forall t s, pcount (timer_cancel t s) = pcount s) as HC.
  { intros t s1. rewrite /timer_cancel. repeat case_match; simplify_eq/=; try done; by rewrite set_result_only. }
  destruct (x_completed p).
  - rewrite set_result_only. destruct (x_sigterm p), (x_sigkill p), (x_transport p); simpl; by rewrite ?HC.
  - destruct (x_sigterm p), (x_sigkill p), (x_transport p); simpl; by rewrite ?HC.
Qed.
Lemma named_cleanup i a s : own s -> named s -> named (task_res i (cleanup a s)).
Proof.
  intros Ho HN. destruct (cleanup_spec a s Ho) as ((P1 & P3 & P2 & _) & _). destruct (task_res_fields i (cleanup a s)) as (E1 & E2 & E3).
  apply (named_tasks s _ []); [done|by rewrite E1| |by rewrite E2 P2|constructor|rewrite E3 cleanup_count; lia].
  by apply task_res_fine.
Qed.
Lemma on_ctx_fields {A} (m : ctx -> ctx * res A) s s' r : on_ctx m s = (s', r) ->
  log s' = log s /\ procs s' = procs s /\ tasks s' = tasks s /\ pcount s' = pcount s.
Proof. rewrite /on_ctx. destruct (m (cx s)). by intros [= <- <-]. Qed.
Ltac nol := repeat constructor; by intros ?? [?|[??]].
Lemma named_task i s s' : own s -> task_step w i s = Some s' -> named s -> named s'.
Proof.
  intros Ho H HN. revert H. rewrite /task_step. destruct (tasks s !! i) as [t0|] eqn:Et0; [|done].
  assert (In t0 (tasks s)) as Hin. { apply elem_of_list_In. by eapply elem_of_list_lookup_2. } destruct t0; try done.
  - rewrite /timer_init. destruct (timers s !! a); [|done].
    destruct (on_ctx _ s) as [s1 r] eqn:E. apply on_ctx_fields in E as (E1 & E2 & E3 & E4).
    destruct (t_canceled_fut t), r; try done; intros [= <-].
    + eapply (named_tasks s _ [_]); [done|done|by apply task_to_fine|by rewrite /= E1|apply nolife_ok; nol|simpl; lia].
    + eapply (named_tasks s _ []); [done|done|by apply task_dies_fine|by rewrite /= E1|constructor|simpl; lia].
    + eapply (named_tasks s _ []); [done|done|by apply task_dies_fine|by rewrite /= E1|constructor|simpl; lia].
  - rewrite /timer_wake. destruct (_ || _); [|done]. destruct (timers s !! a); [|done].
    destruct (t_canceled_fut t) as [fx|], (t_completed t) as [fc|]; try done. intros [= <-].
    match goal with |- named (task_res i ?r) => destruct (task_res_fields i r) as (E1 & E2 & E3); assert (tasks r.1 = tasks s) as E4 end.
    { rewrite set_result_only. by destruct (f_is_done fx s). }
    destruct (f_is_done fx s).
    + apply (named_tasks s _ []); [done| |by apply task_res_fine| |constructor|]; rewrite ?E1 ?E2 ?E3 set_result_only //=.
    + apply (named_tasks s _ [OEmit (EvTimer a); OFire a (now s)]); [done| |by apply task_res_fine| |apply nolife_ok; nol|]; rewrite ?E1 ?E2 ?E3 set_result_only //=.
  - rewrite /proc_init. destruct (procs s !! a) as [p|] eqn:Ep; [|done].
    destruct (x_det p) as [d|] eqn:Ed; [|intros [= <-]; by apply (named_tasks s _ []); [| |apply task_dies_fine| |constructor|]].
    set (x := match lc (cx s) !! _ with Some _ => _ | None => _ end).
    assert (log x.1 = log s /\ procs x.1 = procs s /\ tasks x.1 = tasks s /\ pcount x.1 = pcount s) as (E1 & E2 & E3 & E4).
    { rewrite /x. destruct (lc (cx s) !! _); [|done]. destruct (on_ctx _ _) eqn:E. by apply on_ctx_fields in E. }
    destruct x as [s1 []]; simpl in E1, E2, E3, E4; intros [= <-]; (apply (named_tasks s _ []); [done|done| |done|constructor|simpl; lia]); [apply task_to_fine; [done|]|by apply task_dies_fine].
    intros b d' [= <- <-]. apply men_menS. by eapply men_proc.
  - intros [= <-]. assert (menS s a d) as HM. { apply men_menS. by eapply men_task. }
    eapply (named_upd s _ [_; _] a); [done|done| | |done| |done].
    + intros p _. split; [done|by left].
    + apply task_to_fine; [done|]. by intros b d' [= <- <-].
    + repeat constructor; [by intros ?? [?|[??]]|]. intros b d' [[= <- <-]|[? [=]]]. done.
  - destruct rc as [rc|]; [|done]. rewrite /proc_exited. destruct (procs s !! a) as [p|]; [|done].
    set (s0 := emit _ _). assert (own s0) as Ho0 by (by apply own_emit, own_obs).
    assert (named s0) as HN0.
    { apply (named_tasks s _ [OEmit (EvExited a d rc); OLife (EvExited a d rc)]); [done|done|by left|done| |done]. repeat constructor; [by intros ?? [?|[??]]|].
      intros b d' [[=]|[? [= <- <- _]]]. apply men_menS. by eapply men_task. }
    assert (forall s1, named s1 -> named (proc_again i a s1)) as HA.
    { intros s1 H1. rewrite /proc_again. destruct (loop_set _).
      - apply (named_tasks s1 _ []); [done|done| |done|constructor|done]. intros t. simpl. intros [?%del_nth_in|[<-|[]]]%in_app_or; [by left|by right].
      - by apply (named_tasks s1 _ []); [| |apply task_dies_fine| |constructor|]. }
    match goal with |- (if ?b then _ else _) = _ -> _ => destruct b end.
    + set (s1 := upd_proc _ _ s0). assert (named s1) as HN1.
      { eapply (named_upd s0 _ [] a); [done|done| |by left|done|constructor|done]. intros q _. split; [done|by left]. }
      destruct (p_delay _); [destruct (Qle_bool _ _)|]; intros [= <-]; try by apply HA.
      by apply (named_tasks s1 _ []); [| |apply task_to_fine| |constructor|].
    + intros [= <-]. by apply named_cleanup.
  - rewrite /proc_delay. destruct (procs s !! a); [|done]. destruct (match x_shutdown p with Some _ => _ | None => _ end).
    + intros [= <-]. by apply named_cleanup.
    + destruct (Qle_bool _ _); [|done]. intros [= <-]. rewrite /proc_again. destruct (loop_set _).
      * apply (named_tasks s _ []); [done|done| |done|constructor|done]. intros t. simpl. intros [?%del_nth_in|[<-|[]]]%in_app_or; [by left|by right].
      * by apply (named_tasks s _ []); [| |apply task_dies_fine| |constructor|].
Qed.

Lemma named_buffers a s s' : buffers a s s' -> named s -> named s'.
Proof.
  intros [g l Hg Hl ->| ->] HN; [|done]. eapply (named_upd s _ l a g); try done.
  - intros p _. destruct (Hg p) as (o & e & ->). split; [done|by left].
  - by left.
  - apply nolife_ok. eapply Forall_impl; [done|]. intros o Ho b d [->|[rc ->]]; done.
Qed.
Lemma get_proc_cfg a c oe s p : procs s !! a = Some p -> get_proc a c oe s = p.
Proof. rewrite /get_proc. by intros ->. Qed.
Lemma named_det a p d s s1 : procs s !! a = Some p -> prepare_executable w (x_cfg p) s = (s1, Ok d) -> named s ->
  named (upd_proc a (fun p => p <| x_det := Some d |>) s1).
Proof.
  intros Ep E [H0 (own & HO)]. destruct (prepare_number _ _ _ _ E) as [(n & Hn) Hk].
  pose proof (O_prepare_executable w _ _ _ _ E) as (c & m & pc & _ & _ & _ & _ & Es).
  set (s' := upd_proc _ _ s1). assert (procs s' = alter (fun p => p <| x_det := Some d |>) a (procs s)) as EP by (by rewrite /s' Es).
  assert (tasks s' = tasks s) as ET by (by rewrite /s' Es). assert (log s' = log s) as EL by (by rewrite /s' Es).
  assert (pcount s' = (pcount s + 1)%Z) as EC by done. clearbody s'. clear Es Hk.
  assert (keeps s s') as HK.
  { intros b q Eq. rewrite EP. destruct (decide (a = b)) as [->|Hne]; [rewrite lookup_alter Eq; by eexists|rewrite lookup_alter_ne //; by exists q]. }
  split; [lia|]. exists (fun k => if bool_decide (k = pcount s + 1)%Z then Some a else own k).
  assert (forall b d', good own s b d' -> good (fun k => if bool_decide (k = pcount s + 1)%Z then Some a else own k) s' b d') as HG.
  { intros b d' Hg. destruct (good_keep own s s' b d' d' ltac:(lia) HK ltac:(done) Hg) as [_ G2].
    destruct Hg as [(n' & k & G1 & G3 & G4) _]. split; [|done]. exists n', k. split_and!; [done|lia|lia|]. rewrite bool_decide_false; [lia|done]. }
  intros b d' [q E1 E2|t E1 E2|o E1 E2].
  - rewrite EP in E1. destruct (decide (a = b)) as [->|Hne].
    + rewrite lookup_alter Ep in E1. simplify_eq/=. split.
      * exists n, (pcount s + 1)%Z. split_and!; [done|lia|lia|]. by rewrite bool_decide_true.
      * exists (x_cfg p), s, s1, d'. split_and!; [|done|done]. by rewrite /config EP lookup_alter Ep.
    + rewrite lookup_alter_ne // in E1. apply HG, HO. by eapply men_proc.
  - rewrite ET in E1. apply HG, HO. by eapply men_task.
  - rewrite EL in E1. apply HG, HO. by eapply men_life.
Qed.
Lemma shutdown_process_count a sg s : pcount (shutdown_process a sg s).1 = pcount s.
Proof.
  rewrite /shutdown_process. set (s0 := obs1 _ s). change (pcount s) with (pcount s0). clearbody s0.
  assert (forall f, pres same_count (set_result f)) as H1.
  { intros f s1 s2 r E. rewrite /same_count. replace s2 with (set_result f s1).1 by (by rewrite E). by rewrite set_result_only. }
  assert (pres same_count Exec.fresh) as H2 by (by intros s1 s2 r E; rewrite /Exec.fresh in E; simplify_eq).
  assert (forall A (m : st -> st * res A), pres same_count m -> pcount (m s0).1 = pcount s0) as H3.
  { intros A m Hm. destruct (m s0) as [s1 r] eqn:E. by apply Hm in E. }
  destruct (procs s0 !! a) as [p|]; [|done]. destruct (x_shutdown p); [|done]. destruct (f_is_done _ _); [done|].
  destruct (x_completed p); [destruct (f_is_done _ _); [|destruct (x_det p), (x_transport p)]|].
  all: apply H3; repeat first [apply (pres_bind _); [|intros ?] | apply H1 | apply H2 | apply (pres_ret _) | apply pres_mod; intros ?; done].
Qed.
Lemma named_micro s s' : own s -> micro w s s' -> named s -> named s'.
Proof.
  intros Ho H HN. destruct H; forget_handlers.
  - destruct (ut_log _ _ H) as (l & E & Hl). apply (named_same s s' l); [done|by apply H|by apply H|done|by apply aside_nolife|by apply H].
  - destruct (timer_cancel_sameP a s) as (P1 & P3 & P2 & _). apply (named_same s _ []); try done; [constructor|].
    rewrite /timer_cancel. repeat case_match; simplify_eq/=; try done. by rewrite set_result_only.
  - apply (named_tasks s _ [OTimer a]); [done|done| |done|apply nolife_ok; nol|done]. intros t. simpl. intros [?|[<-|[]]]%in_app_or; [by left|by right].
  - apply (named_same s _ []); try done; constructor.
  - apply (named_frame s); [done|done| |].
    + intros b p Ep. simpl. destruct (decide (a = b)) as [->|Hne]; [rewrite lookup_insert (get_proc_cfg _ _ _ _ _ Ep)|rewrite lookup_insert_ne //]; by exists p.
    + apply (mention_frame s _ []); [|by left|done|constructor]. intros b p'. simpl. destruct (decide (a = b)) as [->|Hne].
      * rewrite lookup_insert. intros [= <-]. rewrite /get_proc. destruct (procs s !! b) as [p|]; [left; by exists p|by right].
      * rewrite lookup_insert_ne //. intros E. left. by exists p'.
  - by eapply named_det.
  - eapply (named_upd s _ [] a); [done|done| |by left|done|constructor|done]. intros p _. split; [done|by left].
  - eapply (named_upd s _ [] a); [done|done| |by left|done|constructor|done]. intros q _. split; [done|by left].
  - eapply (named_upd s _ [] a (fun _ => proc_started p fc fs ts)); [done| | | |done|constructor|done].
    + simpl. apply map_eq. intros b. destruct (decide (a = b)) as [->|Hne]; [by rewrite lookup_insert lookup_alter H|by rewrite lookup_insert_ne // lookup_alter_ne].
    + intros q Eq. rewrite Eq in H. injection H as ->. split; [done|by left].
    + intros t. simpl. intros [?|Ht]%in_app_or; [by left|right]. destruct H7 as [->| ->]; [done|]. by destruct Ht as [<-|[]].
  - pose proof (shutdown_process_count a sg s) as HC. destruct (shutdown_process_case a sg s Ho) as [? Es|p sf ???? Es| |].
    + apply (named_same s _ [OAsked a]); rewrite ?Es; try done. nol.
    + apply (named_same s _ [OAsked a]); rewrite ?Es; try done. nol.
    + eapply (named_upd s _ [_; _] a (fun _ => p <| x_sigterm := Some (Gen t1) |> <| x_sigkill := Some (Gen t2) |>)); [done| | | |match goal with HH : log (shutdown_process _ _ _).1 = _ |- _ => exact HH end|apply nolife_ok; nol|lia].
      * match goal with HH : procs (shutdown_process _ _ _).1 = _ |- _ => rewrite HH end. apply map_eq. intros b.
        destruct (decide (a = b)) as [->|Hne]; [|by rewrite lookup_insert_ne // lookup_alter_ne].
        rewrite lookup_insert lookup_alter. match goal with HH : procs s !! b = _ |- _ => by rewrite HH end.
      * intros q Eq. rewrite Eq in H. injection H as ->. split; [done|by left].
      * left. match goal with HH : tasks (shutdown_process _ _ _).1 = _ |- _ => by rewrite -HH end.
    + match goal with H : untouched _ _ |- _ => pose proof (ut_procs _ _ H) as EP; pose proof (ut_tasks _ _ H) as ET; destruct (ut_log _ _ H) as (l & El & Hl) end.
      apply (named_same s _ (l ++ [OAsked a])); [done|done|done|by rewrite El -app_assoc| |lia]. apply Forall_app_2; [by apply aside_nolife|nol].
  - apply (named_same s _ [OSignal a sg]); try done. nol.
  - eapply named_buffers; [apply proc_io_buffers|done].
  - eapply named_buffers; [apply proc_flush_buffers|done].
  - by eapply named_task.
  - revert H. rewrite /spawn_ok. destruct (tasks s !! i) as [t0|] eqn:Et0; [|done].
    assert (In t0 (tasks s)) as Hin. { apply elem_of_list_In. by eapply elem_of_list_lookup_2. } destruct t0; try done. intros [= <-].
    assert (forall d', d' = mkPdet (d_name d) (d_cmd d) (d_cwd d) (d_env d) (Some pid) -> menS s a d') as HM.
    { intros d' ->. exists d. split; [|done]. by eapply men_task. }
    eapply (named_upd s _ [OSpawn a pid] a); [done|reflexivity| | |done|apply nolife_ok; nol|done].
    + intros p _. simpl. destruct (x_det p) as [d0|] eqn:Ed; [|by split; [|left]]. destruct (String.eqb _ _); [|by split; [|left]].
      split; [done|]. right. intros d' [= <-]. by apply HM.
    + apply task_to_fine; [done|]. intros b d' [= <- <-]. by apply HM.
  - revert H. rewrite /spawn_fail. destruct (tasks s !! i) as [[]|]; try done. intros [= <-]. by apply named_cleanup.
  - revert H. rewrite /proc_exit. destruct (tasks s !! i) as [t0|] eqn:Et0; [|done].
    assert (In t0 (tasks s)) as Hin. { apply elem_of_list_In. by eapply elem_of_list_lookup_2. }
    destruct t0 as [| | | |b f d [|]|b f d [|]| |]; try done; intros [= <-].
    all: apply (named_tasks s _ [OReap b rc]); [done|by rewrite /= set_result_only| |by rewrite /= set_result_only|apply nolife_ok; nol|by rewrite /= set_result_only].
    all: apply (task_to_fine _ _ s); [by rewrite set_result_only|]; intros b' d' [= <- <-]; apply men_menS; by eapply men_task.
Qed.
End names.
Section reach.
Context (w : world).
Lemma named_reachable s : reachable w s -> named w 0 s.
Proof.
  intros H. apply (micro_reachable w (fun s => own s /\ named w 0 s)) in H; [by destruct H| |].
  - intros n e. split; [apply own_init|]. split; [done|]. exists (fun _ => None). intros a d [p E|t []|o []]. by rewrite /= lookup_empty in E.
  - intros s1 s2 Hm [Ho Hf]. split; [by eapply own_micro|by eapply named_micro].
Qed.
Lemma announced_mention a d s : announced_as a d s -> mention s a d.
Proof.
  rewrite /announced_as /hist. intros [H|[rc H]]; rewrite -in_rev in H; (eapply men_life; [exact H|]); [by left|right; by eexists].
Qed.
Lemma names_differ a b d d' s : reachable w s -> announced_as a d s -> announced_as b d' s -> a <> b -> d_name d <> d_name d'.
Proof.
  intros [_ (own & HO)]%named_reachable H1%announced_mention%HO H2%announced_mention%HO Hne.
  destruct H1 as [(n & k & E1 & K1 & O1) _], H2 as [(n' & k' & E2 & K2 & O2) _].
  eapply (numbered_ne d d' n n' k k'); try done; try lia. intros ->. congruence.
Qed.
Lemma announced_prepared a d s : reachable w s -> announced_as a d s ->
  exists c s1 s2 d0, config a s = Some c /\ prepare_executable w c s1 = (s2, Ok d0) /\ same_but_pid d0 d.
Proof. intros [_ (own & HO)]%named_reachable H1%announced_mention%HO. apply H1. Qed.
Lemma count_steps s ls s' : reachable w s -> steps w s ls s' -> (0 <= pcount s <= pcount s')%Z.
Proof.
  intros HR HS. destruct (named_reachable s HR) as [H0 H1]. split; [lia|].
  apply (micro_steps w (fun s1 => own s1 /\ named w (pcount s) s1)) in HS; [by destruct HS as [_ [? _]]; lia| |].
  - intros s1 s2 Hm [Ho Hc]. split; [by eapply own_micro|by eapply named_micro].
  - split; [by apply pinv_reachable in HR as [? _]|]. split; [lia|done].
Qed.
End reach.
