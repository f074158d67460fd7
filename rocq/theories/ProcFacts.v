(** The life of one process action, as an automaton that every execution follows. *)
From Coq Require Import ssreflect.
From Verif Require Import SubstFacts SpecEvents ExecFacts VisitFacts HandleFacts StepFacts MicroSteps OwnFacts.

(** Observations about process action [a]. *)
Definition about (a : aid) (o : obs) : bool :=
  match o with
  | OSpawn b _ | OReap b _ | OSignal b _ | OAsked b | OEscalate b _ _ _
  | OLife (EvStarted b _) | OLife (EvExited b _ _) => bool_decide (b = a)
  | _ => false
  end.
Definition abouts (a : aid) (l : list obs) : list obs := List.filter (about a) l.

(** ** The part of the state that concerns [a] *)
Record pkey := mkK { k_cfg : pcfg; k_resp : bval; k_on : bool; k_tries : Z;
  k_tr : option nat; k_comp : option nat; k_sd : option nat; k_det : bool }.
#[export] Instance eta_pkey : Settable _ := settable! mkK <k_cfg; k_resp; k_on; k_tries; k_tr; k_comp; k_sd; k_det>.
Definition pk (p : pobj) : pkey :=
  mkK (x_cfg p) (x_respawn p) (x_executed p) (x_retries p) (x_transport p) (x_completed p) (x_shutdown p)
      (match x_det p with Some _ => true | None => false end).
Definition key (a : aid) (s : st) : option pkey := pk <$> procs s !! a.
Definition ptask (a : aid) (t : task) : bool :=
  match t with
  | TProcInit b | TProcSpawn b _ | TProcConn b _ _ _ | TProcRun b _ _ _ | TProcDelay b _ => bool_decide (b = a)
  | _ => false
  end.
Definition ptasks (a : aid) (s : st) : list task := List.filter (ptask a) (tasks s).

Inductive phase := PhInit | PhSpawn (d : pdet) | PhConn (d : pdet) (rc : option Z) | PhRun (d : pdet) (rc : option Z)
  | PhDelay (dl : Q).
Definition phases (pt : list task) : list phase :=
  map (fun t => match t with
       | TProcSpawn _ d => PhSpawn d | TProcConn _ _ d rc => PhConn d rc | TProcRun _ _ d rc => PhRun d rc
       | TProcDelay _ dl => PhDelay dl | _ => PhInit end) pt.
Record aview := mkV { v_cfg : option pcfg; v_resp : bval; v_on : bool; v_tries : Z;
  v_tr : option bool; v_comp : option bool; v_sd : option bool; v_ph : list phase; v_flag : bool }.
#[export] Instance eta_aview : Settable _ := settable! mkV <v_cfg; v_resp; v_on; v_tries; v_tr; v_comp; v_sd; v_ph; v_flag>.
Definition stat (F : gmap nat fstate) (o : option nat) : option bool :=
  (fun f => f_done (default FPending (F !! f))) <$> o.
Definition v_none (flag : bool) : aview := mkV None (BV false) false 0 None None None [] flag.
Definition viewf (ok : option pkey) (pt : list task) (F : gmap nat fstate) (flag : bool) : aview :=
  match ok with
  | None => (v_none flag) <| v_ph := phases pt |>
  | Some k => mkV (Some (k_cfg k)) (k_resp k) (k_on k) (k_tries k) (stat F (k_tr k)) (stat F (k_comp k)) (stat F (k_sd k))
                  (phases pt) flag
  end.
Definition view (a : aid) (s : st) : aview := viewf (key a s) (ptasks a s) (futs s) (is_shutdown (cx s)).

(** ** The automaton *)
Definition max_left (c : pcfg) (tries : Z) : bool := ((p_max c <? 0) || (tries <? p_max c))%Z.
(** The action starts another process after this one. *)
Definition respawns (v : aview) : bool :=
  negb (v_flag v) && negb (default true (v_sd v)) && respawn_true (v_resp v)
  && match v_cfg v with Some c => max_left c (v_tries v) | None => false end.
(** Observations are listed newest first, as in [log]. *)
Inductive astep (a : aid) (v : aview) : list obs -> aview -> Prop :=
| as_id : astep a v [] v
| as_flag : astep a v [] (v <| v_flag := true |>)
| as_new c : v_cfg v = None -> astep a v [] ((v_none (v_flag v)) <| v_cfg := Some c |> <| v_resp := p_respawn c |>)
| as_resp b c : v_cfg v = Some c -> (forall b', v_resp v = BV b' -> b = b') ->
    astep a v [] (v <| v_resp := BV b |>)
| as_exec : v_on v = false -> v_cfg v <> None -> astep a v [] (v <| v_on := true |>)
| as_start ph c : v_cfg v = Some c -> v_on v = false -> v_flag v = false -> ph = [] \/ ph = [PhInit] -> (exists b, v_resp v = BV b) ->
    astep a v [] (v <| v_on := true |> <| v_comp := Some false |> <| v_sd := Some false |> <| v_ph := ph |>)
| as_ignore : v_sd v <> Some false -> astep a v [OAsked a] v
| as_note : v_sd v = Some false -> v_comp v = Some true -> astep a v [OAsked a] (v <| v_sd := Some true |>)
| as_defer : v_sd v = Some false -> v_comp v = Some false -> v_tr v = None -> astep a v [OAsked a] v
| as_escalate t1 t2 t : v_sd v = Some false -> v_comp v = Some false -> v_tr v <> None ->
    astep a v [OEscalate a t1 t2 t; OAsked a] (v <| v_sd := Some true |>)
| as_signal sg : v_tr v = Some false -> astep a v [OSignal a sg] v
| as_init d : v_ph v = [PhInit] -> astep a v [] (v <| v_ph := [PhSpawn d] |>)
| as_die : v_ph v = [PhInit] -> astep a v [] (v <| v_ph := [] |>)
| as_spawn d d' pid : v_ph v = [PhSpawn d] -> d' = mkPdet (d_name d) (d_cmd d) (d_cwd d) (d_env d) (Some pid) ->
    astep a v [OSpawn a pid] (v <| v_ph := [PhConn d' None] |>)
| as_nospawn d : v_ph v = [PhSpawn d] -> astep a v [] (v <| v_ph := [] |> <| v_comp := Some true |>)
| as_reap_conn d rc : v_ph v = [PhConn d None] -> astep a v [OReap a rc] (v <| v_ph := [PhConn d (Some rc)] |>)
| as_reap_run d rc : v_ph v = [PhRun d None] ->
    astep a v [OReap a rc] (v <| v_ph := [PhRun d (Some rc)] |> <| v_tr := Some true |>)
| as_conn d rc : v_ph v = [PhConn d rc] ->
    astep a v [OLife (EvStarted a d)]
      (v <| v_ph := [PhRun d rc] |> <| v_tr := Some (match rc with Some _ => true | None => false end) |>)
| as_last d rc : v_ph v = [PhRun d (Some rc)] -> respawns v = false ->
    astep a v [OLife (EvExited a d rc)] (v <| v_ph := [] |> <| v_comp := Some true |>)
| as_again d rc ph : v_ph v = [PhRun d (Some rc)] -> respawns v = true ->
    (ph = [] \/ ph = [PhInit] \/ exists dl, ph = [PhDelay dl]) ->
    astep a v [OLife (EvExited a d rc)] (v <| v_ph := ph |> <| v_tries ::= Z.succ |>)
| as_delayed dl ph : v_ph v = [PhDelay dl] -> v_sd v = Some false -> (ph = [] \/ ph = [PhInit]) ->
    astep a v [] (v <| v_ph := ph |>)
| as_undelay dl : v_ph v = [PhDelay dl] -> v_sd v = Some true ->
    astep a v [] (v <| v_ph := [] |> <| v_comp := Some true |>).
Lemma astep_eq a v l l' v1 v' : astep a v l v1 -> l = l' -> v1 = v' -> astep a v l' v'.
Proof. by intros ? <- <-. Qed.
Inductive arun (a : aid) : aview -> list obs -> aview -> Prop :=
| ar_nil v : arun a v [] v
| ar_cons v l v' l1 v'' : arun a v l v' -> astep a v' l1 v'' -> arun a v (l1 ++ l) v''.
Lemma arun_trans a v1 l1 v2 l2 v3 : arun a v1 l1 v2 -> arun a v2 l2 v3 -> arun a v1 (l2 ++ l1) v3.
Proof. intros H1. induction 1 as [|v l v' l' v'' _ IH H]; [done|]. rewrite -app_assoc. eapply ar_cons; [by apply IH|done]. Qed.

(** Once the respawn option has a value it keeps it, and it has one when a process is started. *)
Definition resp_known (v : aview) : Prop := v_sd v <> None -> exists b, v_resp v = BV b.
Lemma arun_known a v l v' : arun a v l v' -> resp_known v -> resp_known v'.
Proof. induction 1 as [|v l v' l' v'' _ IH H]; [done|]. intros Hv. specialize (IH Hv). destruct H; rewrite /resp_known in IH |- *; simpl in *; try done; try (intros; apply IH; congruence). by eexists. Qed.
Lemma arun_kept a v l v' b : arun a v l v' -> v_cfg v <> None -> v_resp v = BV b -> v_cfg v' <> None /\ v_resp v' = BV b.
Proof.
  induction 1 as [|v l v' l' v'' _ IH H]; [done|]. intros Hv Hb. destruct (IH Hv Hb) as [I1 I2]. destruct H; simpl in *; try done. split; [done|]. f_equal. by apply H0.
Qed.

(** ** How the parts fit together *)
Definition rcst (rc : option Z) : fstate := match rc with Some _ => FOk | None => FPending end.
Definition tlink (k : pkey) (t : task) (F : gmap nat fstate) : Prop :=
  match t with
  | TProcInit _ | TProcSpawn _ _ | TProcDelay _ _ => forall f, k_tr k = Some f -> F !! f = Some FOk
  | TProcConn _ f _ rc => F !! f = Some (rcst rc) /\ forall g, k_tr k = Some g -> g <> f /\ F !! g = Some FOk
  | TProcRun _ f _ rc => F !! f = Some (rcst rc) /\ k_tr k = Some f
  | _ => False
  end.
Record klink (k : pkey) (pt : list task) (F : gmap nat fstate) : Prop := {
  kl_off : k_on k = false -> pt = [] /\ k_tr k = None /\ k_comp k = None /\ k_sd k = None /\ k_tries k = 0%Z;
  kl_both : is_Some (k_comp k) <-> is_Some (k_sd k);
  kl_det : is_Some (k_sd k) -> k_det k = true;
  kl_tasks : match pt with
     | [] => forall f, k_tr k = Some f -> F !! f = Some FOk
     | [t] => (exists fc, k_comp k = Some fc /\ F !! fc = Some FPending) /\ tlink k t F
     | _ => False
     end }.
Definition link (ok : option pkey) (pt : list task) (F : gmap nat fstate) : Prop :=
  match ok with Some k => klink k pt F | None => pt = [] end.
Definition linked (a : aid) (s : st) : Prop := link (key a s) (ptasks a s) (futs s).

(** Futures of [a]. *)
Definition pkind (a : aid) (k : fkind) : Prop := k = KPComp a \/ k = KPShut a \/ k = KProto a.
Lemma key_some a s k : key a s = Some k -> exists p, procs s !! a = Some p /\ k = pk p.
Proof. rewrite /key. destruct (procs s !! a) as [p|]; [|done]. intros [= <-]. by exists p. Qed.
Lemma ptasks_in a s t : In t (ptasks a s) -> In t (tasks s).
Proof. by intros [? _]%filter_In. Qed.
Lemma link_frame a s F' : (forall f k, uses s f k -> k = KPComp a \/ k = KProto a -> F' !! f = futs s !! f) ->
  linked a s -> link (key a s) (ptasks a s) F'.
Proof.
  rewrite /linked /link. destruct (key a s) as [k|] eqn:Ek; [|done]. intros HF [L1 L2 L3 L4]. constructor; try done.
  apply key_some in Ek as (p & Ep & ->).
  assert (forall f, x_transport p = Some f -> F' !! f = futs s !! f) as HT.
  { intros f Hf. eapply HF; [by eapply us_trans|]. by right. }
  destruct (ptasks a s) as [|t [|]] eqn:Et; try done.
  - intros f Hf. rewrite HT //. by apply L4.
  - assert (In t (tasks s)) as Ht by (apply (ptasks_in a); rewrite Et; by left).
    assert (ptask a t = true) as Hpt. { eapply (proj2 (proj1 (filter_In _ t (tasks s)) _)). Unshelve. fold (ptasks a s). rewrite Et. by left. }
    destruct L4 as ((fc & Hc & Hp) & HL). split.
    + exists fc. split; [done|]. rewrite (HF fc (KPComp a)) //; [by eapply us_pcomp|by left].
    + destruct t; simpl in Hpt, HL |- *; try done; apply bool_decide_eq_true in Hpt as ->.
      * intros f Hf. rewrite HT //. by apply HL.
      * intros f Hf. rewrite HT //. by apply HL.
      * destruct HL as [H1 H2]. split.
        -- rewrite (HF complete (KProto a)) //; [by eapply us_conn|by right].
        -- intros g Hg. rewrite HT //. by apply H2.
      * destruct HL as [H1 H2]. split; [|done]. rewrite HT //.
      * intros f Hf. rewrite HT //. by apply HL.
Qed.
Lemma view_frame a s F' : (forall f k, uses s f k -> pkind a k -> F' !! f = futs s !! f) ->
  forall pt flag, viewf (key a s) pt F' flag = viewf (key a s) pt (futs s) flag.
Proof.
  intros HF pt flag. rewrite /viewf. destruct (key a s) as [k|] eqn:Ek; [|done].
  apply key_some in Ek as (p & Ep & ->). f_equal; rewrite /stat /=.
  - destruct (x_transport p) eqn:E; simpl; [|done]. rewrite (HF _ (KProto a)) //; [by eapply us_trans|right; by right].
  - destruct (x_completed p) eqn:E; simpl; [|done]. rewrite (HF _ (KPComp a)) //; [by eapply us_pcomp|by left].
  - destruct (x_shutdown p) eqn:E; simpl; [|done]. rewrite (HF _ (KPShut a)) //; [by eapply us_pshut|right; by left].
Qed.

(** One elementary change, seen from [a]. *)
Definition sim1 (a : aid) (s s' : st) : Prop :=
  linked a s' /\ exists l, log s' = l ++ log s /\ arun a (view a s) (abouts a l) (view a s').

Lemma sim_trans a s s1 s' : sim1 a s s1 -> (linked a s1 -> sim1 a s1 s') -> sim1 a s s'.
Proof.
  intros [HL (l & E & A)] H. destruct (H HL) as [HL' (l' & E' & A')]. split; [done|]. exists (l' ++ l).
  rewrite E' E app_assoc. split; [done|]. rewrite /abouts List.filter_app. by eapply arun_trans.
Qed.
(** ... when [a] is not concerned, except perhaps by the shutdown flag. *)
Lemma sim_frame a s s' l : linked a s -> key a s' = key a s -> ptasks a s' = ptasks a s ->
  (forall f k, uses s f k -> pkind a k -> futs s' !! f = futs s !! f) ->
  (is_shutdown (cx s) = true -> is_shutdown (cx s') = true) ->
  log s' = l ++ log s -> abouts a l = [] -> sim1 a s s'.
Proof.
  intros HL Hk Ht HF Hc Hl Ha. split.
  - rewrite /linked Hk Ht. apply link_frame; [|done]. intros f k Hu Hk'. eapply HF; [done|]. rewrite /pkind. tauto.
  - exists l. split; [done|]. rewrite Ha /view Hk Ht view_frame //.
    destruct (is_shutdown (cx s)) eqn:E1; [rewrite Hc //; constructor|].
    destruct (is_shutdown (cx s')) eqn:E2; [|constructor].
    apply (ar_cons a _ [] (viewf (key a s) (ptasks a s) (futs s) false) []); [constructor|].
    replace (viewf _ _ _ true) with (viewf (key a s) (ptasks a s) (futs s) false <| v_flag := true |>); [constructor|].
    rewrite /viewf. by destruct (key a s).
Qed.
Lemma sim_step a s s' l : link (key a s') (ptasks a s') (futs s') -> log s' = l ++ log s ->
  astep a (view a s) (abouts a l) (view a s') -> sim1 a s s'.
Proof. intros H1 H2 H3. split; [done|]. exists l. split; [done|]. rewrite -(app_nil_r (abouts a l)). by eapply ar_cons; [constructor|]. Qed.

(** ** Futures *)
Lemma set_result_fields f s : (set_result f s).1 = s <| futs := futs (set_result f s).1 |>.
Proof. apply set_result_only. Qed.
Lemma set_result_other f g s : f <> g -> futs (set_result f s).1 !! g = futs s !! g.
Proof. intros H. destruct (set_result_lookup f g s) as [|(-> & _)]; [done|]. by destruct H. Qed.
(** The part of the state that [timer_cancel] leaves alone. *)
Definition sameP (s s' : st) : Prop :=
  procs s' = procs s /\ tasks s' = tasks s /\ log s' = log s /\ cx s' = cx s /\ now s' = now s /\ ufuts s' = ufuts s.
Lemma sameP_refl s : sameP s s.
Proof. done. Qed.
Lemma sameP_trans s s1 s2 : sameP s s1 -> sameP s1 s2 -> sameP s s2.
Proof. intros (?&?&?&?&?&?) (?&?&?&?&?&?). repeat split; congruence. Qed.
Lemma set_result_sameP f s : sameP s (set_result f s).1.
Proof. rewrite set_result_only. done. Qed.
Lemma timer_cancel_sameP b s : sameP s (timer_cancel b s).
Proof.
  rewrite /timer_cancel. destruct (timers s !! b); [|done]. set (s1 := upd_timer _ _ _). assert (sameP s s1) by done.
  destruct (t_canceled_fut t); [|done]. destruct (f_is_done _ _); [done|]. eapply sameP_trans; [done|apply set_result_sameP].
Qed.
Lemma timer_cancel_futs b s f : futs (timer_cancel b s) !! f = futs s !! f \/ uses s f (KTCanc b).
Proof.
  rewrite /timer_cancel. destruct (timers s !! b) as [t|] eqn:Et; [|by left]. set (s1 := upd_timer _ _ _).
  destruct (t_canceled_fut t) as [g|] eqn:Eg; [|by left]. destruct (f_is_done _ _); [by left|].
  destruct (decide (g = f)) as [->|Hne]; [right; by eapply us_tcanc|left]. by rewrite set_result_other.
Qed.
(** Futures of processes are used in the same way. *)
Lemma sameP_uses s s' f k a : sameP s s' -> pkind a k -> (forall d, In (f, a, d) (pipes s) -> exists d', In (f, a, d') (pipes s')) ->
  uses s f k -> uses s' f k.
Proof.
  intros (E1&E2&_) Hk Hp Hu. destruct Hu; try by destruct Hk as [|[|]].
  all: rewrite -?E1 -?E2 in H; try by econstructor; eauto.
  assert (a0 = a) as -> by (by destruct Hk as [|[|]]; simplify_eq). apply Hp in H as [d' ?]. by eapply us_pipe.
Qed.
Lemma pkind_ne a k b : pkind a k -> k <> KTCanc b /\ k <> KUser /\ k <> KTComp b.
Proof. by intros [->|[->| ->]]. Qed.
Lemma timer_cancel_keep b s a f k : own s -> uses s f k -> pkind a k -> futs (timer_cancel b s) !! f = futs s !! f.
Proof.
  intros Ho Hu Hk. destruct (timer_cancel_futs b s f) as [|H]; [done|].
  destruct (proj1 (pkind_ne a k b Hk)). by eapply ow_one.
Qed.
Lemma timer_cancel_pipes b s : pipes (timer_cancel b s) = pipes s.
Proof.
  rewrite /timer_cancel. destruct (timers s !! b); [|done]. destruct (t_canceled_fut t); [|done]. destruct (f_is_done _ _); [done|].
  by rewrite set_result_only.
Qed.
Lemma timer_cancel_uses b s a f k : pkind a k -> uses s f k -> uses (timer_cancel b s) f k.
Proof. intros Hk. eapply sameP_uses; [apply timer_cancel_sameP|done|]. rewrite timer_cancel_pipes. eauto. Qed.

(** [cleanup] resolves the completion future and cancels timers. *)
Lemma cleanup_spec b s : own s ->
  sameP s (cleanup b s).1 /\
  (forall a f k, uses s f k -> pkind a k -> k <> KPComp b -> futs (cleanup b s).1 !! f = futs s !! f) /\
  (forall p fc, procs s !! b = Some p -> x_completed p = Some fc -> futs s !! fc = Some FPending ->
     (cleanup b s).2 = Ok tt /\ futs (cleanup b s).1 !! fc = Some FOk).
Proof.
  intros Ho. rewrite /cleanup. destruct (procs s !! b) as [p|] eqn:Ep; [|split; [done|split; [done|done]]].
  set (s1 := match x_sigterm p with Some t => _ | None => _ end).
  assert (sameP s s1 /\ own s1 /\ forall a f k, uses s f k -> pkind a k -> uses s1 f k /\ futs s1 !! f = futs s !! f) as (A1 & O1 & F1).
  { rewrite /s1. destruct (x_sigterm p) as [t|]; [|done]. split; [apply timer_cancel_sameP|]. split; [by apply own_timer_cancel|].
    intros a f k Hu Hk. split; [by eapply timer_cancel_uses|by eapply timer_cancel_keep]. }
  clearbody s1.
  set (s2 := match x_sigkill p with Some t => _ | None => _ end).
  assert (sameP s s2 /\ own s2 /\ forall a f k, uses s f k -> pkind a k -> futs s2 !! f = futs s !! f) as (A2 & O2 & F2).
  { rewrite /s2. destruct (x_sigkill p) as [t|]; [|split; [done|split; [done|]]; intros a f k Hu Hk; by eapply F1].
    split; [eapply sameP_trans; [done|apply timer_cancel_sameP]|]. split; [by apply own_timer_cancel|].
    intros a f k Hu Hk. destruct (F1 a f k Hu Hk) as [Hu1 <-]. by eapply timer_cancel_keep. }
  clearbody s2.
  set (s3 := match x_transport p with Some t => _ | None => _ end).
  assert (sameP s s3 /\ futs s3 = futs s2) as (A3 & F3) by (rewrite /s3; by destruct (x_transport p)).
  clearbody s3. destruct (x_completed p) as [fc|] eqn:Ec.
  - split; [eapply sameP_trans; [done|apply set_result_sameP]|]. split.
    + intros a f k Hu Hk Hne. rewrite set_result_other ?F3; [|by eapply F2].
      eapply (own_ne s _ _ (KPComp b) k); [done|by eapply us_pcomp|done|done].
    + intros p0 fc0 [= <-] Hc Hp. rewrite Ec in Hc. injection Hc as <-.
      assert (futs s3 !! fc = Some FPending) as Hp3 by (rewrite F3 (F2 b fc (KPComp b)) //; [by eapply us_pcomp|by left]).
      rewrite /set_result Hp3 /=. by rewrite lookup_insert.
  - split; [done|]. split; [|by intros p0 fc [= <-]; rewrite Ec].
    intros a f k Hu Hk _. rewrite F3. by eapply F2.
Qed.

(** ** Tasks of one action *)
Lemma ptasks_at a s i t : linked a s -> tasks s !! i = Some t -> ptask a t = true ->
  ptasks a s = [t] /\ (forall t', List.filter (ptask a) (set_nth i t' (tasks s)) = if ptask a t' then [t'] else []) /\
  List.filter (ptask a) (del_nth i (tasks s)) = [].
Proof.
  intros HL Hi Ht. destruct (at_split i t (tasks s) Hi) as (l1 & l2 & E & Es & Ed).
  rewrite Ed. assert (ptasks a s = List.filter (ptask a) l1 ++ t :: List.filter (ptask a) l2) as Ept.
  { by rewrite /ptasks E List.filter_app /= Ht. }
  assert (exists x, ptasks a s = [x]) as [x Ex].
  { revert HL. rewrite /linked /link. destruct (key a s) as [k|].
    - intros [_ _ _ H]. destruct (ptasks a s) as [|x [|y l]]; [|by eauto|done].
      by destruct (List.filter (ptask a) l1).
    - intros E0. rewrite E0 in Ept. by destruct (List.filter (ptask a) l1). }
  rewrite Ex in Ept. destruct (List.filter (ptask a) l1) as [|y l] eqn:E1; [|by destruct l].
  simpl in Ept. injection Ept as -> E2. rewrite -Ex.
  split; [done|]. split.
  - intros t'. rewrite Es List.filter_app E1 /= -E2. by destruct (ptask a t').
  - by rewrite List.filter_app E1 -E2.
Qed.
Lemma ptasks_other a s i t : tasks s !! i = Some t -> ptask a t = false ->
  (forall t', List.filter (ptask a) (set_nth i t' (tasks s)) = ptasks a s \/ ptask a t' = true) /\
  List.filter (ptask a) (del_nth i (tasks s)) = ptasks a s.
Proof.
  intros Hi Ht. destruct (at_split i t (tasks s) Hi) as (l1 & l2 & E & Es & Ed). rewrite /ptasks. split.
  - intros t'. destruct (ptask a t') eqn:E'; [by right|left]. by rewrite Es E !List.filter_app /= Ht E'.
  - by rewrite Ed E !List.filter_app /= Ht.
Qed.
Lemma ptask_aid a b t : ptask a t = true -> ptask b t = bool_decide (a = b).
Proof. destruct t; simpl; try done; by intros ->%bool_decide_eq_true. Qed.

Section sim.
Context (w : world).

Lemma abouts_aside a l : Forall (fun o => aside o = true) l -> abouts a l = [].
Proof.
  induction 1 as [|o l Ho _ IH]; [done|]. simpl. rewrite IH. destruct o; try done; simpl in *; by destruct e.
Qed.
Lemma untouched_futs s s' a f k : untouched s s' -> own s -> uses s f k -> pkind a k -> futs s' !! f = futs s !! f.
Proof.
  intros HU Ho Hu Hk. destruct (ut_futs _ _ HU f) as [|[[? _]|(Hin & _)]]; [done| |].
  - pose proof (own_lt _ _ _ Ho Hu). lia.
  - apply us_user in Hin. by destruct (pkind_ne a k a Hk) as (_ & [] & _); eapply ow_one.
Qed.
Lemma sim_misc a s s' : own s -> linked a s -> untouched s s' -> sim1 a s s'.
Proof.
  intros Ho HL HU. destruct (ut_log _ _ HU) as (l & El & Hl). eapply (sim_frame a s s' l); try done.
  - by rewrite /key (ut_procs _ _ HU).
  - by rewrite /ptasks (ut_tasks _ _ HU).
  - intros f k. by apply untouched_futs.
  - apply (ut_shut _ _ HU).
  - by apply abouts_aside.
Qed.
(** Futures created. *)
Lemma fresh_ne s f k : own s -> uses s f k -> forall g, (next s <= g)%nat -> g <> f.
Proof. intros Ho Hu g Hg ->. pose proof (own_lt _ _ _ Ho Hu). lia. Qed.

Lemma key_other a b g s : a <> b -> key a (upd_proc b g s) = key a s.
Proof. intros Hne. by rewrite /key /upd_proc /= lookup_alter_ne. Qed.
Lemma key_upd a g s : key a (upd_proc a g s) = (fun p => pk (g p)) <$> procs s !! a.
Proof. rewrite /key /upd_proc /= lookup_alter. by destruct (procs s !! a). Qed.

Lemma sim_get a b c oe s : linked a s -> sim1 a s (s <| procs := <[b := get_proc b c oe s]> (procs s) |>).
Proof.
  intros HL. set (s' := set procs _ s).
  destruct (decide (b = a)) as [->|Hne].
  - destruct (procs s !! a) as [p|] eqn:Ep.
    + apply (sim_frame a s s' []); try done. by rewrite /s' /key /= lookup_insert /get_proc Ep.
    + assert (key a s = None) as Ek by (by rewrite /key Ep).
      assert (key a s' = Some (pk (get_proc a c oe s))) as Ek' by (by rewrite /key /s' /= lookup_insert).
      pose proof HL as HL'. rewrite /linked Ek /= in HL'.
      apply (sim_step a s s' []); [|done|].
      * rewrite Ek' /= /get_proc Ep. change (ptasks a s') with (ptasks a s). rewrite HL'. constructor; simpl; try done. by intros [? ?].
      * rewrite /view Ek Ek'. change (ptasks a s') with (ptasks a s). rewrite HL' /get_proc Ep. by apply (as_new a (v_none _) c).
  - apply (sim_frame a s s' []); try done. by rewrite /s' /key /= lookup_insert_ne.
Qed.
Lemma sim_det a b d s : linked a s -> sim1 a s (upd_proc b (fun p => p <| x_det := Some d |>) s).
Proof.
  intros HL. set (s' := upd_proc _ _ s).
  destruct (decide (b = a)) as [->|Hne]; [|apply (sim_frame a s s' []); try done; apply key_other; congruence].
  destruct (procs s !! a) as [p|] eqn:Ep.
  - assert (key a s = Some (pk p)) as Ek by (by rewrite /key Ep).
    assert (key a s' = Some (pk p <| k_det := true |>)) as Ek' by (by rewrite /s' key_upd Ep).
    pose proof HL as HL'. rewrite /linked Ek /= in HL'. apply (sim_step a s s' []); [|done|].
    + rewrite Ek'. change (ptasks a s') with (ptasks a s). by destruct HL' as [L1 L2 L3 L4].
    + rewrite /view Ek Ek'. change (ptasks a s') with (ptasks a s). constructor.
  - apply (sim_frame a s s' []); try done. by rewrite /s' key_upd /key Ep.
Qed.
Lemma sim_respawn a b r s :
  (forall p, procs s !! b = Some p -> forall b', x_respawn p = BV b' -> r = b') ->
  linked a s -> sim1 a s (upd_proc b (fun p => p <| x_respawn := BV r |>) s).
Proof.
  intros Hr HL. set (s' := upd_proc _ _ s).
  destruct (decide (b = a)) as [->|Hne]; [|apply (sim_frame a s s' []); try done; apply key_other; congruence].
  destruct (procs s !! a) as [p|] eqn:Ep.
  - assert (key a s = Some (pk p)) as Ek by (by rewrite /key Ep).
    assert (key a s' = Some (pk p <| k_resp := BV r |>)) as Ek' by (by rewrite /s' key_upd Ep).
    pose proof HL as HL'. rewrite /linked Ek /= in HL'. apply (sim_step a s s' []); [|done|].
    + rewrite Ek'. change (ptasks a s') with (ptasks a s). by destruct HL' as [L1 L2 L3 L4].
    + rewrite /view Ek Ek'. change (ptasks a s') with (ptasks a s). apply (as_resp a (viewf (Some (pk p)) (ptasks a s) (futs s) (is_shutdown (cx s))) r (x_cfg p)); [done|]. by apply Hr.
  - apply (sim_frame a s s' []); try done. by rewrite /s' key_upd /key Ep.
Qed.
Lemma sim_exec a b p s : procs s !! b = Some p -> x_executed p = false -> linked a s ->
  sim1 a s (upd_proc b (fun p => p <| x_executed := true |>) s).
Proof.
  intros Ep Hx HL. set (s' := upd_proc _ _ s).
  destruct (decide (b = a)) as [->|Hne]; [|apply (sim_frame a s s' []); try done; apply key_other; congruence].
  assert (key a s = Some (pk p)) as Ek by (by rewrite /key Ep).
  assert (key a s' = Some (pk p <| k_on := true |>)) as Ek' by (by rewrite /s' key_upd Ep).
  pose proof HL as HL'. rewrite /linked Ek /= in HL'. apply (sim_step a s s' []); [|done|].
  - rewrite Ek'. change (ptasks a s') with (ptasks a s). by destruct HL' as [L1 L2 L3 L4].
  - rewrite /view Ek Ek'. change (ptasks a s') with (ptasks a s). by apply (as_exec a (viewf (Some (pk p)) (ptasks a s) (futs s) (is_shutdown (cx s)))).
Qed.
Lemma sim_start a b p fc fs n ts c s : own s -> procs s !! b = Some p -> x_executed p = false -> prepared p ->
  is_shutdown (cx s) = false -> is_shutdown c = false ->
  (next s <= fc)%nat -> (fc < fs)%nat -> (fs < n)%nat -> ts = [] \/ ts = [TProcInit b] -> linked a s ->
  sim1 a s (s <| procs := <[b := proc_started p fc fs ts]> (procs s) |>
              <| futs := <[fs := FPending]> (<[fc := FPending]> (futs s)) |>
              <| tasks := tasks s ++ ts |> <| next := n |> <| cx := c |>).
Proof.
  intros Ho Ep Hx Hd Hs Hc H1 H2 H3 Hts HL. set (s' := set cx _ _).
  destruct (decide (b = a)) as [->|Hne].
  - assert (key a s = Some (pk p)) as Ek by (by rewrite /key Ep).
    assert (key a s' = Some (pk (proc_started p fc fs ts))) as Ek' by (by rewrite /key /s' /= lookup_insert).
    pose proof HL as HL'. rewrite /linked Ek /= in HL'. destruct HL' as [L1 L2 L3 L4].
    destruct (L1 Hx) as (Et & Et1 & Et2 & Et3 & Et4). rewrite Et in L4.
    assert (ptasks a s' = ts) as Ets.
    { rewrite /ptasks /s' /= List.filter_app. fold (ptasks a s). rewrite Et. destruct Hts as [->| ->]; [done|]. simpl. by rewrite bool_decide_true. }
    assert (k_det (pk p) = true) as Hdet by (by destruct Hd as [[d Hd] _]; rewrite /= Hd).
    apply (sim_step a s s' []); [|done|].
    + rewrite Ek' Ets. constructor; simpl; try done. simpl in Et1. rewrite Et1.
      destruct Hts as [->| ->]; [done|]. split; [|simpl; by rewrite Et1]. exists fc. split; [done|]. rewrite lookup_insert_ne; [lia|]. by rewrite lookup_insert.
    + rewrite /view Ek Ek' Ets Et Hs. rewrite /s' /= Hc /stat /= lookup_insert lookup_insert_ne; [lia|]. rewrite lookup_insert /=.
      simpl in Et1, Et2, Et3. rewrite Et1 Et2 Et3 /=.
      eapply astep_eq; [apply (as_start a _ (phases ts) (x_cfg p)); simpl; try done|done|done]; [destruct Hts as [->| ->]; [by left|by right]|by destruct Hd as [_ Hd]].
  - apply (sim_frame a s s' []); try done.
    + by rewrite /key /s' /= lookup_insert_ne.
    + rewrite /ptasks /s' /= List.filter_app. destruct Hts as [->| ->]; simpl; [by rewrite app_nil_r|].
      rewrite bool_decide_false //. by rewrite app_nil_r.
    + intros f k Hu _. simpl. rewrite !lookup_insert_ne //; eapply fresh_ne; try done; lia.
    + rewrite Hs. done.
Qed.
Lemma not_done_pending s f k : own s -> uses s f k -> f_is_done f s = false -> futs s !! f = Some FPending.
Proof.
  intros Ho Hu. destruct (ow_some _ Ho f k Hu) as [x Hx]. rewrite /f_is_done /f_get Hx /=. by destruct x.
Qed.
Lemma uses_obs o s f k : uses s f k -> uses (obs1 o s) f k.
Proof. intros []; by econstructor; eauto. Qed.
(** What happens when a process action is asked to shut down. *)
Inductive shut_case (a : aid) (s s' : st) : Prop :=
| sc_ignore : (forall p sf, procs s !! a = Some p -> x_shutdown p = Some sf -> f_is_done sf s = true) ->
    s' = obs1 (OAsked a) s -> shut_case a s s'
| sc_note p sf : procs s !! a = Some p -> x_shutdown p = Some sf -> futs s !! sf = Some FPending ->
    (forall cf, x_completed p = Some cf -> f_is_done cf s = true) ->
    s' = obs1 (OAsked a) s <| futs := <[sf := FOk]> (futs s) |> -> shut_case a s s'
| sc_go p sf cf t1 t2 d f : procs s !! a = Some p -> x_shutdown p = Some sf -> futs s !! sf = Some FPending ->
    x_completed p = Some cf -> f_is_done cf s = false -> x_det p = Some d -> x_transport p = Some f ->
    procs s' = <[a := p <| x_sigterm := Some (Gen t1) |> <| x_sigkill := Some (Gen t2) |>]> (procs s) ->
    tasks s' = tasks s -> futs s' = <[sf := FOk]> (futs s) -> timers s' = timers s -> pipes s' = pipes s -> now s' = now s ->
    log s' = OEscalate a (Gen t1) (Gen t2) (now s) :: OAsked a :: log s -> is_shutdown (cx s') = is_shutdown (cx s) ->
    (next s <= t1)%nat -> t2 = S t1 -> (t2 < next s')%nat -> ufuts s' = ufuts s ->
    handlers (cx s') = handlers (cx s) -> shut_case a s s'
| sc_defer p sf cf : procs s !! a = Some p -> x_shutdown p = Some sf -> futs s !! sf = Some FPending ->
    x_completed p = Some cf -> f_is_done cf s = false -> (x_det p = None \/ x_transport p = None) ->
    untouched (obs1 (OAsked a) s) s' -> shut_case a s s'.
Lemma shutdown_process_case a sg s : own s -> shut_case a s (shutdown_process a sg s).1.
Proof.
  intros Ho. rewrite /shutdown_process. set (s0 := obs1 _ s).
  assert (forall f, f_is_done f s0 = f_is_done f s) as HD by done.
  change (procs s0) with (procs s). destruct (procs s !! a) as [p|] eqn:Ep; [|by apply sc_ignore; [intros ??; rewrite Ep|]].
  destruct (x_shutdown p) as [sf|] eqn:Es; [|by apply sc_ignore; [intros q f'; rewrite Ep; intros [= <-]; rewrite Es|]].
  rewrite HD. destruct (f_is_done sf s) eqn:Hsf.
  { apply sc_ignore; [|done]. intros q f'. rewrite Ep. intros [= <-]. rewrite Es. by intros [= <-]. }
  assert (futs s !! sf = Some FPending) as Hp by (eapply not_done_pending; [done|by eapply us_pshut|done]).
  assert (set_result sf s0 = (s0 <| futs := <[sf := FOk]> (futs s) |>, Ok tt)) as Esr.
  { rewrite /set_result. change (futs s0) with (futs s). by rewrite Hp. }
  destruct (x_completed p) as [cf|] eqn:Ec.
  - rewrite HD. destruct (f_is_done cf s) eqn:Hcf.
    + rewrite /bindS Esr /=. eapply (sc_note a s _ p sf); try done. rewrite Ec. by intros cf' [= <-].
    + destruct (x_det p) as [d|] eqn:Ed, (x_transport p) as [f|] eqn:Et.
      * rewrite /bindS Esr /=. eapply (sc_go a s _ p sf cf (next s) (S (next s)) d f); simpl; try done; try lia.
        apply map_eq. intros b. destruct (decide (b = a)) as [->|Hne].
        -- by rewrite lookup_alter lookup_insert Ep.
        -- by rewrite lookup_alter_ne // lookup_insert_ne.
      * eapply (sc_defer a s _ p sf cf); try done; [by right|]. simpl. by eapply untouched_reg.
      * eapply (sc_defer a s _ p sf cf); try done; [by left|]. simpl. by eapply untouched_reg.
      * eapply (sc_defer a s _ p sf cf); try done; [by left|]. simpl. by eapply untouched_reg.
  - rewrite /bindS Esr /=. eapply (sc_note a s _ p sf); try done. by rewrite Ec.
Qed.
Lemma stat_ins F (f : nat) x : stat (<[f := x]> F) (Some f) = Some (f_done x).
Proof. by rewrite /stat /= lookup_insert. Qed.
Lemma stat_ne F (f : nat) x o : o <> Some f -> stat (<[f := x]> F) o = stat F o.
Proof. intros Hne. rewrite /stat. destruct o as [g|]; simpl; [|done]. rewrite lookup_insert_ne //. congruence. Qed.
Lemma stat_done s o f : o = Some f -> stat (futs s) o = Some (f_is_done f s).
Proof. by intros ->. Qed.
Lemma sim_shut a b sg s : own s -> linked a s -> sim1 a s (shutdown_process b sg s).1.
Proof.
  intros Ho HL. pose proof (own_shutdown_process b sg s Ho) as Ho'. pose proof (shutdown_process_case b sg s Ho) as HC. revert HC Ho'.
  generalize (shutdown_process b sg s).1. intros s' HC Ho'.
  destruct (decide (b = a)) as [->|Hne].
  - destruct HC as [Hi ->|p sf Ep Es Hp Hc ->|p sf cf t1 t2 d f Ep Es Hp Ec Hcf Ed Et Hpr Hta Hfu _ _ _ Hlo Hsh _ _ _ _|p sf cf Ep Es Hp Ec Hcf Hd HU].
    + apply (sim_step a s _ [OAsked a]); [done|done|]. simpl. rewrite bool_decide_true //.
      eapply astep_eq; [apply as_ignore|done|done]. rewrite /view /viewf. destruct (key a s) as [k|] eqn:Ek; [|done].
      apply key_some in Ek as (p & Ep & ->). simpl. destruct (x_shutdown p) as [sf|] eqn:Es; [|done].
      rewrite (stat_done s _ sf) // (Hi p sf) //.
    + assert (key a s = Some (pk p)) as Ek by (by rewrite /key Ep).
      set (s' := set futs _ _). assert (key a s' = Some (pk p)) as Ek' by done.
      assert (forall g k, uses s g k -> k = KPComp a \/ k = KProto a -> g <> sf) as Hg.
      { intros g k Hu Hk. eapply (own_ne s); [done|done|by eapply (us_pshut _ _ a)|]. by destruct Hk as [->| ->]. }
      apply (sim_step a s _ [OAsked a]); [|done|].
      * rewrite Ek' -Ek. apply (link_frame a s); [|done]. intros g k Hu Hk. simpl. rewrite lookup_insert_ne //. by eapply not_eq_sym, Hg.
      * simpl. rewrite bool_decide_true // /view Ek Ek' /=. rewrite /linked Ek in HL. destruct HL as [L1 L2 L3 L4]. simpl in *.
        destruct (proj2 L2 (ex_intro _ sf Es)) as [cf Ec]. pose proof (Hc _ Ec) as Hcf.
        eapply astep_eq; [apply as_note; simpl|done|].
        -- rewrite (stat_done s _ sf) // /f_is_done /f_get Hp //.
        -- rewrite (stat_done s _ cf) // Hcf //.
        -- rewrite Es Ec stat_ins stat_ne ?stat_ne //.
           ++ intros Ht. eapply (Hg sf (KProto a)); [by eapply us_trans|by right|done].
           ++ intros [= E0]. eapply (Hg cf (KPComp a)); [by eapply us_pcomp|by left|done].
    + assert (key a s = Some (pk p)) as Ek by (by rewrite /key Ep).
      assert (key a s' = Some (pk p)) as Ek' by (by rewrite /key Hpr lookup_insert).
      assert (forall g k, uses s g k -> k = KPComp a \/ k = KProto a -> g <> sf) as Hg.
      { intros g k Hu Hk. eapply (own_ne s); [done|done|by eapply (us_pshut _ _ a)|]. by destruct Hk as [->| ->]. }
      apply (sim_step a s _ [OEscalate a (Gen t1) (Gen t2) (now s); OAsked a]); [|done|].
      * rewrite Ek' -Ek /ptasks Hta. apply (link_frame a s); [|done]. intros g k Hu Hk. rewrite Hfu lookup_insert_ne //. by eapply not_eq_sym, Hg.
      * simpl. rewrite bool_decide_true // /view Ek Ek' /ptasks Hta Hfu Hsh /=.
        eapply astep_eq; [apply as_escalate; simpl|done|].
        -- rewrite (stat_done s _ sf) // /f_is_done /f_get Hp //.
        -- rewrite (stat_done s _ cf) // Hcf //.
        -- by rewrite Et.
        -- rewrite Es Ec Et stat_ins !stat_ne //.
           ++ intros [= E0]. eapply (Hg f (KProto a)); [by eapply us_trans|by right|done].
           ++ intros [= E0]. eapply (Hg cf (KPComp a)); [by eapply us_pcomp|by left|done].
    + assert (key a s = Some (pk p)) as Ek by (by rewrite /key Ep).
      assert (sim1 a s (obs1 (OAsked a) s)) as [HL1 (l1 & El1 & R1)].
      { apply (sim_step a s _ [OAsked a]); [done|done|]. simpl. rewrite bool_decide_true //.
        eapply astep_eq; [apply as_defer|done|done]; rewrite /view Ek /=.
        - rewrite (stat_done s _ sf) // /f_is_done /f_get Hp //.
        - rewrite (stat_done s _ cf) // Hcf //.
        - rewrite /linked Ek in HL. destruct HL as [_ _ L3 _]. simpl in L3. destruct Hd as [Hd| ->]; [|done].
          rewrite Es Hd in L3. by specialize (L3 ltac:(by eexists)). }
      destruct (sim_misc a _ s' (own_obs (OAsked a) s Ho) HL1 HU) as [HL2 (l2 & El2 & R2)].
      split; [done|]. exists (l2 ++ l1). split; [by rewrite El2 El1 app_assoc|]. rewrite /abouts List.filter_app. by eapply arun_trans.
  - destruct HC as [Hi ->|p sf Ep Es Hp Hc ->|p sf cf t1 t2 d f Ep Es Hp Ec Hcf Ed Et Hpr Hta Hfu _ _ _ Hlo Hsh _ _ _ _|p sf cf Ep Es Hp Ec Hcf Hd HU].
    + apply (sim_frame a s _ [OAsked b]); try done. simpl. by rewrite bool_decide_false.
    + apply (sim_frame a s _ [OAsked b]); try done; [|simpl; by rewrite bool_decide_false].
      intros g k Hu Hk. simpl. rewrite lookup_insert_ne //. eapply (own_ne s); [done|by eapply (us_pshut _ _ b)|done|].
      intros <-. destruct Hk as [|[|]]; by simplify_eq.
    + apply (sim_frame a s _ [OEscalate b (Gen t1) (Gen t2) (now s); OAsked b]); try done.
      * by rewrite /key Hpr lookup_insert_ne.
      * by rewrite /ptasks Hta.
      * intros g k Hu Hk. rewrite Hfu lookup_insert_ne //. eapply (own_ne s); [done|by eapply (us_pshut _ _ b)|done|].
        intros <-. destruct Hk as [|[|]]; by simplify_eq.
      * by rewrite Hsh.
      * simpl. by rewrite bool_decide_false.
    + destruct (ut_log _ _ HU) as (l & El & Hl). eapply (sim_frame a s _ (l ++ [OAsked b])); try done.
      * by rewrite /key (ut_procs _ _ HU).
      * by rewrite /ptasks (ut_tasks _ _ HU).
      * intros g k Hu. by apply (untouched_futs _ _ _ _ _ HU (own_obs (OAsked b) s Ho)), uses_obs.
      * apply (ut_shut _ _ HU).
      * by rewrite El -app_assoc.
      * rewrite /abouts List.filter_app. fold (abouts a l). rewrite abouts_aside //. simpl. by rewrite bool_decide_false.
Qed.
Lemma sim_signal a b sg p f s : procs s !! b = Some p -> x_transport p = Some f -> f_is_done f s = false -> linked a s ->
  sim1 a s (obs1 (OSignal b sg) s).
Proof.
  intros Ep Et Hf HL. destruct (decide (b = a)) as [->|Hne].
  - apply (sim_step a s _ [OSignal a sg]); [done|done|]. simpl. rewrite bool_decide_true //.
    eapply astep_eq; [apply as_signal|done|done]. rewrite /view /key Ep /= (stat_done s _ f) // Hf //.
  - apply (sim_frame a s _ [OSignal b sg]); try done. simpl. by rewrite bool_decide_false.
Qed.
(** Output only touches buffers. *)
Lemma sim_quiet a b g s s' l : (forall p, pk (g p) = pk p) -> linked a s -> procs s' = procs (upd_proc b g s) -> tasks s' = tasks s ->
  futs s' = futs s -> cx s' = cx s -> log s' = l ++ log s -> abouts a l = [] -> sim1 a s s'.
Proof.
  intros Hg HL E1 E2 E3 E4 E5 E6. apply (sim_frame a s s' l); try done.
  - rewrite {1}/key E1. fold (key a (upd_proc b g s)). destruct (decide (a = b)) as [->|Hne]; [|by apply key_other].
    rewrite key_upd /key. destruct (procs s !! b); simpl; [by rewrite Hg|done].
  - by rewrite /ptasks E2.
  - intros. by rewrite E3.
  - by rewrite E4.
Qed.
Definition lines (l : list obs) : Prop := Forall (fun o => match o with OLine _ _ _ | OChunk _ _ _ | OFlush _ _ => True | _ => False end) l.
Lemma lines_abouts a l : lines l -> abouts a l = [].
Proof. induction 1 as [|o l Ho _ IH]; [done|]. simpl. rewrite IH. by destruct o. Qed.
Lemma log_lines_eq a fd ls s : log_lines a fd ls s = s <| log := rev (map (OLine a fd) ls) ++ log s |>.
Proof.
  rewrite /log_lines. revert s. induction ls as [|l ls IH]; intros s; simpl; [by destruct s|]. rewrite IH /=.
  rewrite -app_assoc. by destruct s.
Qed.
Lemma lines_map a fd ls : lines (rev (map (OLine a fd) ls)).
Proof. apply Forall_rev. induction ls; by constructor. Qed.
Lemma lines_app l1 l2 : lines l1 -> lines l2 -> lines (l1 ++ l2).
Proof. intros. by apply Forall_app_2. Qed.
(** Only buffers, and lines logged. *)
Inductive buffers (a : aid) (s s' : st) : Prop :=
| bufs g l : (forall p, exists o e, g p = p <| x_out := o |> <| x_err := e |>) -> lines l ->
    s' = (upd_proc a g s) <| log := l ++ log s |> -> buffers a s s'
| bufs_no : s' = s -> buffers a s s'.
Lemma proc_io_buffers a e s : buffers a s (proc_io a e s).1.
Proof.
  rewrite /proc_io. destruct e; try by apply bufs_no. destruct (procs s !! a) as [p|] eqn:Ep; [|by apply bufs_no].
  set (b := match fd with Stdout => _ | Stderr => _ end). clearbody b.
  destruct ((if p_cached (x_cfg p) then on_output_cached else on_output) a fd text b _) as [b' s'] eqn:E.
  assert (exists l, lines l /\ s' = s <| log := l ++ log s |>) as (l & Hl & ->).
  { move: E. destruct (p_cached _).
    - rewrite /on_output_cached. destruct (split_lines _ _) as [ls r]. intros [= _ <-]. rewrite log_lines_eq.
      exists (rev (map (OLine a fd) ls) ++ [OChunk a fd text]). split; [apply lines_app; [apply lines_map|by repeat constructor]|].
      rewrite -app_assoc. by destruct s.
    - rewrite /on_output. destruct (b_closed b).
      + intros [= _ <-]. exists [OLine a fd text; OChunk a fd text]. split; [by repeat constructor|]. by destruct s.
      + destruct (split_lines _ _) as [ls r]. intros [= _ <-]. rewrite log_lines_eq.
        exists (rev (map (OLine a fd) ls) ++ [OChunk a fd text]). split; [apply lines_app; [apply lines_map|by repeat constructor]|].
        rewrite -app_assoc. by destruct s. }
  eapply (bufs a s _ _ l); [|done|reflexivity]. intros q. destruct q, fd; simpl; [by exists b', x_err|by exists x_out, b'].
Qed.
Lemma proc_flush_buffers a s : buffers a s (proc_flush a s).1.
Proof.
  rewrite /proc_flush. destruct (procs s !! a) as [p|]; [|by apply bufs_no]. destruct (p_cached _).
  - rewrite /flush_cached_one. destruct (split_lines _ _) as [l1 r1]. destruct (split_lines _ _) as [l2 r2]. cbn [fst]. rewrite !log_lines_eq.
    eapply (bufs a s _ _ (_ ++ _ ++ [OFlush a false])); [| |rewrite /upd_proc /=; f_equal; rewrite -!app_assoc; reflexivity].
    + intros q. by eexists _, _.
    + apply lines_app; [apply lines_map|]. apply lines_app; [apply lines_map|by repeat constructor].
  - destruct (b_closed _); [by apply bufs_no|]. rewrite /flush_one.
    set (dn := match x_shutdown p with None => true | Some f => _ end). clearbody dn. cbn [fst].
    destruct (_ =? "")%string; destruct (_ =? "")%string.
    1: eapply (bufs a s _ _ [OFlush a dn]); [| |reflexivity].
    3: eapply (bufs a s _ _ [_; OFlush a dn]); [| |reflexivity].
    5: eapply (bufs a s _ _ [_; OFlush a dn]); [| |reflexivity].
    7: eapply (bufs a s _ _ [_; _; OFlush a dn]); [| |reflexivity].
    all: try by repeat constructor. all: intros q; by eexists _, _.
Qed.
Lemma sim_buffers a b s s' : buffers b s s' -> linked a s -> sim1 a s s'.
Proof.
  intros [g l Hg Hl ->| ->] HL; [|by apply (sim_frame a s s [])].
  eapply (sim_quiet a b g s _ l); try done; [|by apply lines_abouts]. intros p. by destruct (Hg p) as (o & e & ->).
Qed.

(** ** Tasks *)
Lemma frames_shut {A} (m : ctx -> ctx * res A) s s' r : frames m -> on_ctx m s = (s', r) ->
  exists c, s' = s <| cx := c |> /\ is_shutdown c = is_shutdown (cx s) /\ loop_set c = loop_set (cx s).
Proof.
  intros Hm. rewrite /on_ctx. destruct (m (cx s)) as [c x] eqn:E. intros [= <- _]. exists c. split; [by destruct s|].
  apply Hm in E as [-> _ _ _ _]. done.
Qed.
(** A step of a task of another action. *)
Lemma sim_other a s s' i t l : linked a s -> tasks s !! i = Some t -> ptask a t = false ->
  (exists t', tasks s' = set_nth i t' (tasks s) /\ ptask a t' = false) \/ tasks s' = del_nth i (tasks s) \/
    (exists t', tasks s' = del_nth i (tasks s) ++ [t'] /\ ptask a t' = false) ->
  key a s' = key a s -> (forall f k, uses s f k -> pkind a k -> futs s' !! f = futs s !! f) ->
  is_shutdown (cx s') = is_shutdown (cx s) -> log s' = l ++ log s -> abouts a l = [] -> sim1 a s s'.
Proof.
  intros HL Hi Ht Hs Hk HF Hc Hl Ha. apply (sim_frame a s s' l); try done; [|by rewrite Hc].
  destruct (ptasks_other a s i t Hi Ht) as [H1 H2]. rewrite {1}/ptasks.
  destruct Hs as [(t' & -> & Ht')|[->|(t' & -> & Ht')]].
  - destruct (H1 t') as [|]; [done|congruence].
  - done.
  - rewrite List.filter_app H2 /= Ht'. by rewrite app_nil_r.
Qed.
Lemma task_res_tasks i s r : (exists o e, tasks (task_res i (s, r)) = set_nth i (TDead o e) (tasks s)) \/ tasks (task_res i (s, r)) = del_nth i (tasks s).
Proof. destruct r as [|e|]; [by right|left|by right]. destruct (task_dies_to i e s) as [o E]. exists o, e. by rewrite /task_res E. Qed.
Lemma task_res_eq i s r : task_res i (s, r) = s <| tasks := tasks (task_res i (s, r)) |>.
Proof. by destruct r, s. Qed.
Lemma task_res_sim a s i t l s1 r : linked a s -> tasks s !! i = Some t -> ptask a t = false ->
  tasks s1 = tasks s -> key a s1 = key a s -> (forall f k, uses s f k -> pkind a k -> futs s1 !! f = futs s !! f) ->
  is_shutdown (cx s1) = is_shutdown (cx s) -> log s1 = l ++ log s -> abouts a l = [] -> sim1 a s (task_res i (s1, r)).
Proof.
  intros HL Hi Ht Hs Hk HF Hc Hl Ha. apply (sim_other a s _ i t l); try done.
  - rewrite -Hs. destruct (task_res_tasks i s1 r) as [(o & e & ->)| ->]; [left; by exists (TDead o e)|right; by left].
  - by rewrite task_res_eq.
  - intros f k. rewrite task_res_eq /=. by apply HF.
  - by rewrite task_res_eq.
  - by rewrite task_res_eq.
Qed.

Lemma sim_timer_init a i b s s' : linked a s -> tasks s !! i = Some (TTimerInit b) -> timer_init w i b s = Some s' -> sim1 a s s'.
Proof.
  intros HL Hi. rewrite /timer_init. destruct (timers s !! b) as [t|]; [|done].
  destruct (on_ctx _ s) as [s1 r] eqn:Ec. apply frames_shut in Ec as (c & -> & Hc & _); [|apply perform_fval_frame].
  destruct r as [p|e|]; [destruct (t_canceled_fut t) as [f|]; [|done]| |by destruct (t_canceled_fut t)].
  - intros [= <-]. eapply (sim_other a s _ i _ [OArmed b p (now s)]); try done. left. by eexists.
  - intros H. destruct (task_dies_to i e (s <| cx := c |>)) as [o Eo]. assert (s' = task_to i (TDead o e) (s <| cx := c |>)) as -> by (rewrite -Eo; destruct (t_canceled_fut t); congruence).
    eapply (sim_other a s _ i _ []); try done. left. by eexists.
Qed.
Lemma sim_timer_wake a i b f dl s s' : own s -> linked a s -> tasks s !! i = Some (TTimerWait b f dl) ->
  timer_wake i b f dl s = Some s' -> sim1 a s s'.
Proof.
  intros Ho HL Hi. rewrite /timer_wake. destruct (_ || _); [|done]. destruct (timers s !! b) as [t|] eqn:Et; [|done].
  destruct (t_canceled_fut t) as [fx|] eqn:Ex; [|done]. destruct (t_completed t) as [fc|] eqn:Ec; [|done]. intros [= <-].
  set (s1 := if f_is_done fx s then _ else _).
  assert (exists l, tasks s1 = tasks s /\ procs s1 = procs s /\ futs s1 = futs s /\ is_shutdown (cx s1) = is_shutdown (cx s) /\ log s1 = l ++ log s /\ abouts a l = [])
    as (l & E1 & E2 & E3 & E4 & E5 & E6).
  { rewrite /s1. destruct (f_is_done fx s); [by exists []|]. by exists [OEmit (EvTimer b); OFire b (now s)]. }
  clearbody s1. destruct (set_result fc s1) as [s2 r] eqn:E. assert (s2 = (set_result fc s1).1) as Es2 by (by rewrite E).
  destruct (set_result_sameP fc s1) as (P1 & P2 & P3 & P4 & _). rewrite -Es2 in P1 P2 P3 P4.
  eapply (task_res_sim a s i _ l); try done; try congruence.
  - by rewrite /key P1 E2.
  - intros g k Hu Hk. rewrite Es2 set_result_other ?E3 //. eapply (own_ne s); [done|by eapply (us_tcomp _ _ b)|done|].
    intros <-. by destruct Hk as [|[|]].
Qed.
Lemma link_task a s i t k : linked a s -> tasks s !! i = Some t -> ptask a t = true -> key a s = Some k ->
  klink k [t] (futs s).
Proof. intros HL Hi Ht Hk. destruct (ptasks_at a s i t HL Hi Ht) as (E & _ & _). move: HL. by rewrite /linked Hk E. Qed.
Lemma link_key a s i t : linked a s -> tasks s !! i = Some t -> ptask a t = true -> exists p, procs s !! a = Some p /\ key a s = Some (pk p).
Proof.
  intros HL Hi Ht. destruct (ptasks_at a s i t HL Hi Ht) as (E & _ & _). move: HL. rewrite /linked /link E /key.
  destruct (procs s !! a) as [p|]; [|done]. by exists p.
Qed.

Lemma sim_proc_init a i b s s' : linked a s -> tasks s !! i = Some (TProcInit b) -> proc_init w i b s = Some s' -> sim1 a s s'.
Proof.
  intros HL Hi. rewrite /proc_init. destruct (procs s !! b) as [p|] eqn:Ep; [|done]. intros H.
  assert ((exists d c, s' = task_to i (TProcSpawn b d) (s <| cx := c |>) /\ is_shutdown c = is_shutdown (cx s)) \/
          (exists o e c, s' = task_to i (TDead o e) (s <| cx := c |>) /\ is_shutdown c = is_shutdown (cx s))) as HC.
  { destruct (x_det p) as [d|]; [|injection H as <-; right; destruct (task_dies_to i XRuntime s) as [o Eo]; exists o, XRuntime, (cx s); split; [rewrite Eo; by destruct s|done]].
    destruct (lc (cx s) !! "emulate_tty") as [v|].
    - destruct (on_ctx _ s) as [s1 r] eqn:Ec. apply frames_shut in Ec as (c & -> & Hc & _); [|apply evaluate_expression_frame].
      destruct r as [?|e|]; simplify_eq; [left; by eexists _, c|right]. destruct (task_dies_to i e (s <| cx := c |>)) as [o Eo]. by exists o, e, c.
    - injection H as <-. left. exists d, (cx s). split; [by destruct s|done]. }
  destruct (decide (b = a)) as [->|Hne].
  - assert (ptask a (TProcInit a) = true) as Hp by (by apply bool_decide_true).
    destruct (ptasks_at a s i _ HL Hi Hp) as (Et & Hset & _). assert (key a s = Some (pk p)) as Ek by (by rewrite /key Ep).
    pose proof (link_task a s i _ _ HL Hi Hp Ek) as [L1 L2 L3 L4].
    destruct HC as [(d & c & -> & Hc)|(o & e & c & -> & Hc)].
    + set (s' := task_to _ _ _). assert (key a s' = Some (pk p)) as Ek' by done.
      assert (ptasks a s' = [TProcSpawn a d]) as Et' by (rewrite /ptasks /s' /= Hset /= bool_decide_true //).
      apply (sim_step a s s' []); [|done|].
      * rewrite Ek' Et'. by constructor; [intros Hx; destruct (L1 Hx) as [? _]| | |].
      * rewrite /view Ek Ek' Et Et' /s' /= Hc. eapply astep_eq; [by apply (as_init a _ d)|done|done].
    + set (s' := task_to _ _ _). assert (key a s' = Some (pk p)) as Ek' by done.
      assert (ptasks a s' = []) as Et' by (rewrite /ptasks /s' /= Hset //).
      apply (sim_step a s s' []); [|done|].
      * rewrite Ek' Et'. constructor; try done; [intros Hx; by destruct (L1 Hx) as [? _]|apply L4].
      * rewrite /view Ek Ek' Et Et' /s' /= Hc. eapply astep_eq; [by apply as_die|done|done].
  - destruct HC as [(d & c & -> & Hc)|(o & e & c & -> & Hc)].
    + eapply (sim_other a s _ i _ []); try done; [simpl; by rewrite bool_decide_false|]. left. eexists. split; [done|]. simpl. by rewrite bool_decide_false.
    + eapply (sim_other a s _ i _ []); try done; [simpl; by rewrite bool_decide_false|]. left. by eexists.
Qed.
Lemma sim_proc_conn a i b f d rc s : own s -> linked a s -> tasks s !! i = Some (TProcConn b f d rc) -> sim1 a s (proc_conn i b f d rc s).
Proof.
  intros Ho HL Hi. rewrite /proc_conn. set (s' := emit _ _).
  destruct (decide (b = a)) as [->|Hne].
  - assert (ptask a (TProcConn a f d rc) = true) as Hp by (by apply bool_decide_true).
    destruct (ptasks_at a s i _ HL Hi Hp) as (Et & Hset & _). destruct (link_key a s i _ HL Hi Hp) as (p & Ep & Ek).
    pose proof (link_task a s i _ _ HL Hi Hp Ek) as [L1 L2 L3 L4].
    assert (key a s' = Some (pk p <| k_tr := Some f |>)) as Ek' by (by rewrite /s' /key /= lookup_alter Ep).
    assert (ptasks a s' = [TProcRun a f d rc]) as Et' by (rewrite /ptasks /s' /= Hset /= bool_decide_true //).
    destruct L4 as (Hc & Hf & Hg).
    apply (sim_step a s s' [OEmit (EvStarted a d); OLife (EvStarted a d)]); [|done|].
    + rewrite Ek' Et'. constructor; [intros Hx; by destruct (L1 Hx) as [? _]|done|done|done].
    + simpl. rewrite bool_decide_true //. rewrite /view Ek Ek' Et Et' /=. eapply astep_eq; [by apply (as_conn a _ d rc)|done|].
      simpl. rewrite Hf. by destruct rc.
  - eapply (sim_other a s s' i _ [OEmit (EvStarted b d); OLife (EvStarted b d)]); try done.
    + simpl. by rewrite bool_decide_false.
    + left. eexists. split; [done|]. simpl. by rewrite bool_decide_false.
    + rewrite /s' /key /= lookup_alter_ne //.
    + simpl. by rewrite bool_decide_false.
Qed.
(** The state after [cleanup] of [a]. *)
Lemma sim_cleanup a s p t i s0 l v2 : own s0 -> linked a s -> tasks s !! i = Some t -> ptask a t = true -> procs s !! a = Some p ->
  procs s0 = procs s -> tasks s0 = tasks s -> futs s0 = futs s -> is_shutdown (cx s0) = is_shutdown (cx s) ->
  log s0 = l ++ log s -> (forall g k, uses s g k -> uses s0 g k) ->
  (forall g, x_transport p = Some g -> futs s !! g = Some FOk) ->
  astep a (view a s) (abouts a l) v2 -> v2 = view a s <| v_ph := [] |> <| v_comp := Some true |> ->
  sim1 a s (task_res i (cleanup a s0)).
Proof.
  intros Ho HL Hi Hp Ep E1 E2 E3 E4 E5 HU Htr HA Hv2. destruct (ptasks_at a s i _ HL Hi Hp) as (Et & _ & Hdel).
  assert (key a s = Some (pk p)) as Ek by (by rewrite /key Ep).
  pose proof (link_task a s i _ _ HL Hi Hp Ek) as [L1 L2 L3 [(fc & Hfc & Hpend) L5]].
  destruct (cleanup_spec a s0 Ho) as ((P1 & P2 & P3 & P4 & _) & HF & HR).
  destruct (HR p fc) as (Er & Hok); [by rewrite E1|done|by rewrite E3|]. destruct (cleanup a s0) as [s2 r] eqn:E. simpl in *. subst r.
  set (s' := task_end i s2). assert (key a s' = Some (pk p)) as Ek' by (by rewrite /s' /key /= P1 E1 Ep).
  assert (ptasks a s' = []) as Et' by (by rewrite /s' /ptasks /= P2 E2).
  assert (forall g k, uses s g k -> k = KPShut a \/ k = KProto a -> futs s2 !! g = futs s !! g) as HG.
  { intros g k Hu Hk. rewrite (HF a g k) ?E3 //; [by apply HU|right; tauto|]. by destruct Hk as [->| ->]. }
  apply (sim_step a s s' l); [|by rewrite /s' /= P3 E5|].
  - rewrite Ek' Et'. constructor; try done; [intros Hx; by destruct (L1 Hx) as [? _]|]. simpl. intros g Hg.
    rewrite (HG g (KProto a)); [by eapply us_trans|by right|]. by apply Htr.
  - replace (view a s') with v2; [done|]. rewrite Hv2 /view Ek Ek' Et Et' /s' /= P4 E4 /set /=. f_equal.
    + rewrite /stat. destruct (x_transport p) as [g|] eqn:Eg; [|done]. simpl. rewrite (HG g (KProto a)) //; [by eapply us_trans|by right].
    + by rewrite Hfc /stat /= Hok.
    + rewrite /stat. destruct (x_shutdown p) as [g|] eqn:Eg; [|done]. simpl. rewrite (HG g (KPShut a)) //; [by eapply us_pshut|by left].
Qed.
Lemma sim_cleanup_other a b s t i s0 l : a <> b -> own s0 -> linked a s -> tasks s !! i = Some t -> ptask a t = false ->
  procs s0 = procs s -> tasks s0 = tasks s -> futs s0 = futs s -> is_shutdown (cx s0) = is_shutdown (cx s) ->
  log s0 = l ++ log s -> (forall g k, uses s g k -> uses s0 g k) -> abouts a l = [] ->
  sim1 a s (task_res i (cleanup b s0)).
Proof.
  intros Hne Ho HL Hi Hp E1 E2 E3 E4 E5 HU Ha. destruct (cleanup_spec b s0 Ho) as ((P1 & P2 & P3 & P4 & _) & HF & _).
  destruct (cleanup b s0) as [s2 r] eqn:E. simpl in *.
  eapply (task_res_sim a s i _ l); try done; try congruence.
  - by rewrite /key P1 E1.
  - intros g k Hu Hk. rewrite (HF a g k) ?E3 //; [by apply HU|]. intros ->. destruct Hk as [|[|]]; by simplify_eq.
Qed.
Lemma uses_log o s f k c : uses s f k -> uses (obs1 o s <| cx := c |>) f k.
Proof. intros []; by econstructor; eauto. Qed.
Lemma uses_emit e o s f k : uses s f k -> uses (emit e (obs1 o s)) f k.
Proof. intros []; by econstructor; eauto. Qed.
Lemma sim_exited a b i d rc f s s' : own s -> linked a s -> tasks s !! i = Some (TProcRun b f d (Some rc)) ->
  proc_exited i b d rc s = Some s' -> sim1 a s s'.
Proof.
  intros Ho HL Hi. rewrite /proc_exited. destruct (procs s !! b) as [p|] eqn:Ep; [|done].
  set (s0 := emit _ _). assert (own s0) as Ho0 by (by apply own_emit, own_obs).
  assert (forall g, f_is_done g s0 = f_is_done g s) as HD by done.
  set (sd := match x_shutdown p with Some _ => _ | None => _ end).
  set (cnd := negb (is_shutdown (cx s0)) && negb sd && respawn_true (x_respawn p) && _).
  assert (ptask b (TProcRun b f d (Some rc)) = true) as Hpb by (by apply bool_decide_true).
  destruct (decide (b = a)) as [->|Hne].
  - destruct (ptasks_at a s i _ HL Hi Hpb) as (Et & Hset & Hdel). assert (key a s = Some (pk p)) as Ek by (by rewrite /key Ep).
    pose proof (link_task a s i _ _ HL Hi Hpb Ek) as [L1 L2 L3 [(fc & Hfc & Hpend) [L5 L6]]]. simpl in L5, L6.
    assert (respawns (view a s) = cnd) as Hcnd.
    { rewrite /respawns /view Ek Et /cnd /max_left /=. rewrite /sd. rewrite /stat. by destruct (x_shutdown p). }
    destruct cnd eqn:Hc.
    + intros HS. assert (exists dl, s' = proc_again i a (upd_proc a (fun p => p <| x_retries ::= Z.succ |>) s0) \/
        s' = task_to i (TProcDelay a dl) (upd_proc a (fun p => p <| x_retries ::= Z.succ |>) s0)) as (dl & HS').
      { destruct (p_delay (x_cfg p)) as [q|]; [destruct (Qle_bool q 0)|]; injection HS as <-; eexists; [by left|by right|by left]. Unshelve. all: exact 0%Q. }
      clear HS.
      assert (exists pt, key a s' = Some (pk p <| k_tries ::= Z.succ |>) /\ ptasks a s' = pt /\
        (pt = [] \/ pt = [TProcInit a] \/ pt = [TProcDelay a dl]) /\ futs s' = futs s /\ is_shutdown (cx s') = is_shutdown (cx s) /\
        log s' = OEmit (EvExited a d rc) :: OLife (EvExited a d rc) :: log s) as (pt & K1 & K2 & K3 & K4 & K5 & K6).
      { destruct HS' as [->| ->].
        - rewrite /proc_again. destruct (loop_set _).
          + exists [TProcInit a]. repeat split; try done; [by rewrite /key /= lookup_alter Ep| |right; by left].
            rewrite /ptasks /= List.filter_app Hdel /=. by rewrite bool_decide_true.
          + dies. exists []. repeat split; try done; [by rewrite /key /= lookup_alter Ep| |by left]. by rewrite /ptasks /= Hset.
        - exists [TProcDelay a dl]. repeat split; try done; [by rewrite /key /= lookup_alter Ep| |right; by right].
          rewrite /ptasks /= Hset /=. by rewrite bool_decide_true. }
      assert (forall g, x_transport p = Some g -> futs s !! g = Some FOk) as Htr by (intros g Hg; by simplify_eq).
      apply (sim_step a s s' [OEmit (EvExited a d rc); OLife (EvExited a d rc)]); [|done|].
      * rewrite K1 K2 K4. constructor; try done.
        -- simpl. intros Hx. by destruct (L1 Hx) as [? _].
        -- destruct K3 as [->|[->| ->]]; simpl; try done; split; try done; by exists fc.
      * simpl. rewrite bool_decide_true //. rewrite {2}/view K1 K2 K4 K5.
        eapply astep_eq; [apply (as_again a (view a s) d rc (phases pt))|done|].
        -- rewrite /view Ek Et //.
        -- done.
        -- destruct K3 as [->|[->| ->]]; [by left|right; by left|right; right; by eexists].
        -- by rewrite /view Ek Et.
    + intros [= <-]. eapply (sim_cleanup a s p _ i s0 [OEmit (EvExited a d rc); OLife (EvExited a d rc)]); try done.
      * intros g k. apply uses_emit.
      * intros g Hg. rewrite L6 in Hg. by injection Hg as <-.
      * simpl. rewrite bool_decide_true //. apply (as_last a (view a s) d rc); [by rewrite /view Ek Et|done].
  - assert (ptask a (TProcRun b f d (Some rc)) = false) as Hpa by (simpl; by rewrite bool_decide_false).
    assert (abouts a [OEmit (EvExited b d rc); OLife (EvExited b d rc)] = []) as Hab by (simpl; by rewrite bool_decide_false).
    destruct cnd.
    + set (s1 := upd_proc _ _ s0). assert (key a s1 = key a s) as Ek1 by (rewrite /s1 key_other; [congruence|done]).
      assert (forall t', ptask a t' = false -> sim1 a s (task_to i t' s1)) as Hto.
      { intros t' Ht'. eapply (sim_other a s _ i _ [OEmit (EvExited b d rc); OLife (EvExited b d rc)]); try done. left. by eexists. }
      assert (sim1 a s (proc_again i b s1)) as Hag.
      { rewrite /proc_again. destruct (loop_set _); [|dies; by apply Hto].
        eapply (sim_other a s _ i _ [OEmit (EvExited b d rc); OLife (EvExited b d rc)]); try done. right. right. eexists. split; [done|].
        simpl. by rewrite bool_decide_false. }
      destruct (p_delay _) as [q|]; [destruct (Qle_bool q 0)|]; intros [= <-]; try done. apply Hto. simpl. by rewrite bool_decide_false.
    + intros [= <-]. eapply (sim_cleanup_other a b s _ i s0 [OEmit (EvExited b d rc); OLife (EvExited b d rc)]); try done. intros g k. apply uses_emit.
Qed.
Lemma sim_delay a b i dl s s' : own s -> linked a s -> tasks s !! i = Some (TProcDelay b dl) ->
  proc_delay i b dl s = Some s' -> sim1 a s s'.
Proof.
  intros Ho HL Hi. rewrite /proc_delay. destruct (procs s !! b) as [p|] eqn:Ep; [|done].
  set (sd := match x_shutdown p with Some _ => _ | None => _ end).
  assert (ptask b (TProcDelay b dl) = true) as Hpb by (by apply bool_decide_true).
  destruct (decide (b = a)) as [->|Hne].
  - destruct (ptasks_at a s i _ HL Hi Hpb) as (Et & Hset & Hdel). assert (key a s = Some (pk p)) as Ek by (by rewrite /key Ep).
    pose proof (link_task a s i _ _ HL Hi Hpb Ek) as [L1 L2 L3 [(fc & Hfc & Hpend) L5]]. simpl in L5.
    assert (v_sd (view a s) = Some sd) as Hsd.
    { rewrite /view Ek /= /sd. destruct (proj1 L2 (ex_intro _ fc Hfc)) as [fs Hfs]. simpl in Hfs. by rewrite Hfs. }
    assert (v_ph (view a s) = [PhDelay dl]) as Hph by (by rewrite /view Ek Et).
    destruct sd eqn:Esd.
    + intros [= <-]. eapply (sim_cleanup a s p _ i s []); try done. simpl. by apply (as_undelay a (view a s) dl).
    + destruct (Qle_bool dl (now s)); [|done]. intros [= <-]. rewrite /proc_again.
      assert (forall s' pt, key a s' = key a s -> ptasks a s' = pt -> futs s' = futs s -> is_shutdown (cx s') = is_shutdown (cx s) ->
        log s' = log s -> pt = [] \/ pt = [TProcInit a] -> sim1 a s s') as Hgo.
      { intros s' pt K1 K2 K4 K5 K6 K3. apply (sim_step a s s' []); [|done|].
        - rewrite K1 K2 K4 Ek. constructor; try done; [simpl; intros Hx; by destruct (L1 Hx) as [? _]|].
          destruct K3 as [->| ->]; simpl; try done; split; try done; by exists fc.
        - simpl. rewrite {2}/view K1 K2 K4 K5. eapply astep_eq; [apply (as_delayed a (view a s) dl (phases pt))|done|]; try done.
          + destruct K3 as [->| ->]; [by left|by right].
          + by rewrite /view Ek Et. }
      destruct (loop_set (cx s)).
      * eapply (Hgo _ [TProcInit a]); try done; [|by right]. rewrite /ptasks /= List.filter_app Hdel /=. by rewrite bool_decide_true.
      * dies. eapply (Hgo _ []); try done; [|by left]. by rewrite /ptasks /= Hset.
  - assert (ptask a (TProcDelay b dl) = false) as Hpa by (simpl; by rewrite bool_decide_false).
    destruct sd.
    + intros [= <-]. eapply (sim_cleanup_other a b s _ i s []); try done.
    + destruct (Qle_bool dl (now s)); [|done]. intros [= <-]. rewrite /proc_again. destruct (loop_set _).
      * eapply (sim_other a s _ i _ []); try done. right. right. eexists. split; [done|]. simpl. by rewrite bool_decide_false.
      * dies. eapply (sim_other a s _ i _ []); try done. left. by eexists.
Qed.
Lemma sim_spawn_ok a i pid s s' : own s -> linked a s -> spawn_ok i pid s = Some s' -> sim1 a s s'.
Proof.
  intros Ho HL. rewrite /spawn_ok. destruct (tasks s !! i) as [[| | |b d| | | |]|] eqn:Hi; try done. simpl. intros [= <-].
  set (g := fun p : pobj => _). set (d' := mkPdet _ _ _ _ _). set (s' := obs1 _ _).
  assert (forall p, pk (g p) = pk p) as Hg.
  { intros p. rewrite /g /pk. destruct (x_det p) as [d0|] eqn:E; [|by rewrite E]. destruct (_ =? _)%string; [done|by rewrite E]. }
  assert (ptask b (TProcSpawn b d) = true) as Hpb by (by apply bool_decide_true).
  destruct (decide (b = a)) as [->|Hne].
  - destruct (ptasks_at a s i _ HL Hi Hpb) as (Et & Hset & Hdel). destruct (link_key a s i _ HL Hi Hpb) as (p & Ep & Ek).
    pose proof (link_task a s i _ _ HL Hi Hpb Ek) as [L1 L2 L3 [(fc & Hfc & Hpend) L5]]. simpl in L5.
    assert (key a s' = Some (pk p)) as Ek'. { rewrite /key /s' /= lookup_alter Ep /=. by rewrite Hg. }
    assert (ptasks a s' = [TProcConn a (next s) d' None]) as Et' by (rewrite /ptasks /s' /= Hset /= bool_decide_true //).
    assert (forall f k, uses s f k -> futs s' !! f = futs s !! f) as HF.
    { intros f k Hu. simpl. rewrite lookup_insert_ne //. eapply fresh_ne; [done|done|lia]. }
    apply (sim_step a s s' [OSpawn a pid]); [|done|].
    + rewrite Ek' Et'. constructor; try done; [simpl; intros Hx; by destruct (L1 Hx) as [? _]|]. split.
      * exists fc. split; [done|]. rewrite (HF fc (KPComp a)) //. by eapply us_pcomp.
      * simpl. split; [by rewrite lookup_insert|]. intros g' Hg'. assert (uses s g' (KProto a)) as Hu by (by eapply us_trans).
        split; [eapply not_eq_sym, fresh_ne; [done|done|lia]|]. change (futs s' !! g' = Some FOk). rewrite (HF _ _ Hu). by apply L5.
    + simpl. rewrite bool_decide_true //. replace (view a s') with (view a s <| v_ph := [PhConn d' None] |>).
      * apply (as_spawn a (view a s) d); [by rewrite /view Ek Et|done].
      * rewrite /view Ek' Et' /viewf Ek /= /set /=. f_equal; rewrite /stat.
        -- destruct (x_transport p) eqn:E; [|done]. simpl. rewrite lookup_insert_ne //. eapply fresh_ne; [done|by eapply us_trans|lia].
        -- destruct (x_completed p) eqn:E; [|done]. simpl. rewrite lookup_insert_ne //. eapply fresh_ne; [done|by eapply us_pcomp|lia].
        -- destruct (x_shutdown p) eqn:E; [|done]. simpl. rewrite lookup_insert_ne //. eapply fresh_ne; [done|by eapply us_pshut|lia].
  - eapply (sim_other a s s' i _ [OSpawn b pid]); try done.
    + simpl. by rewrite bool_decide_false.
    + left. eexists. split; [done|]. simpl. by rewrite bool_decide_false.
    + rewrite /s' /key /= lookup_alter_ne //.
    + intros f k Hu _. simpl. rewrite lookup_insert_ne //. eapply fresh_ne; [done|done|lia].
    + simpl. by rewrite bool_decide_false.
Qed.
Lemma sim_spawn_fail a i s s' : own s -> linked a s -> spawn_fail i s = Some s' -> sim1 a s s'.
Proof.
  intros Ho HL. rewrite /spawn_fail. destruct (tasks s !! i) as [[| | |b d| | | |]|] eqn:Hi; try done. intros [= <-].
  assert (ptask b (TProcSpawn b d) = true) as Hpb by (by apply bool_decide_true).
  destruct (decide (b = a)) as [->|Hne].
  - destruct (ptasks_at a s i _ HL Hi Hpb) as (Et & Hset & Hdel). destruct (link_key a s i _ HL Hi Hpb) as (p & Ep & Ek).
    pose proof (link_task a s i _ _ HL Hi Hpb Ek) as [L1 L2 L3 [(fc & Hfc & Hpend) L5]]. simpl in L5.
    eapply (sim_cleanup a s p _ i s []); try done. simpl. apply (as_nospawn a (view a s) d). by rewrite /view Ek Et.
  - eapply (sim_cleanup_other a b s _ i s []); try done. simpl. by rewrite bool_decide_false.
Qed.
Lemma sim_exit a i rc s s' : own s -> linked a s -> proc_exit i rc s = Some s' -> sim1 a s s'.
Proof.
  intros Ho HL. rewrite /proc_exit. destruct (tasks s !! i) as [t|] eqn:Hi; [|done].
  assert (In t (tasks s)) as Hin by (eapply elem_of_list_In, elem_of_list_lookup_2; done). intros H.
  assert (exists b f d t', ptask b t = true /\ (t = TProcConn b f d None /\ t' = TProcConn b f d (Some rc) \/
     t = TProcRun b f d None /\ t' = TProcRun b f d (Some rc)) /\ s' = obs1 (OReap b rc) (task_to i t' (set_result f s).1))
    as (b & f & d & t' & Hpb & Ht & ->).
  { destruct t; try done; destruct rc0; try done; injection H as <-; eexists _, _, _, _; (split; [by apply bool_decide_true|]); (split; [|done]); [by left|by right]. }
  clear H. assert (uses s f (KProto b)) as Huf by (destruct Ht as [[-> _]|[-> _]]; [by eapply us_conn|by eapply us_run]).
  set (s' := obs1 _ _). destruct (set_result_sameP f s) as (P1 & P2 & P3 & P4 & _).
  assert (ptask b t' = true) as Hpb' by (destruct Ht as [[_ ->]|[_ ->]]; by apply bool_decide_true).
  destruct (decide (b = a)) as [->|Hne].
  - destruct (ptasks_at a s i _ HL Hi Hpb) as (Et & Hset & Hdel). destruct (link_key a s i _ HL Hi Hpb) as (p & Ep & Ek).
    pose proof (link_task a s i _ _ HL Hi Hpb Ek) as [L1 L2 L3 [(fc & Hfc & Hpend) L5]].
    assert (futs s !! f = Some FPending) as Hfp by (by destruct Ht as [[-> _]|[-> _]]; destruct L5 as [? _]).
    assert (futs s' = <[f := FOk]> (futs s)) as Hfs by (by rewrite /s' /= /set_result Hfp).
    assert (key a s' = Some (pk p)) as Ek' by (by rewrite /key /s' /= P1 Ep).
    assert (ptasks a s' = [t']) as Et'. { rewrite /ptasks /s' /= P2 Hset. by rewrite Hpb'. }
    assert (is_shutdown (cx s') = is_shutdown (cx s)) as Hsh by (by rewrite /s' /= P4).
    assert (fc <> f) as Hcf. { eapply (own_ne s); [done|by eapply (us_pcomp _ _ a)|done|done]. }
    assert (k_sd (pk p) <> Some f) as Hsf.
    { intros E. destruct (own_ne s f f (KPShut a) (KProto a) Ho); [by eapply us_pshut|done|done|done]. }
    apply (sim_step a s s' [OReap a rc]); [|by rewrite /s' /= P3|].
    + rewrite Ek' Et' Hfs. constructor; try done; [intros Hx; by destruct (L1 Hx) as [? _]|]. split.
      * exists fc. split; [done|]. by rewrite lookup_insert_ne.
      * destruct Ht as [[-> ->]|[-> ->]]; simpl in *; rewrite lookup_insert; (split; [done|]).
        -- intros g' Hg'. destruct L5 as [_ L5]. destruct (L5 g' Hg'). split; [done|]. by rewrite lookup_insert_ne.
        -- by destruct L5.
    + simpl. rewrite bool_decide_true //. destruct Ht as [[-> ->]|[-> ->]]; simpl in L5; destruct L5 as [L5 L6].
      * replace (view a s') with (view a s <| v_ph := [PhConn d (Some rc)] |>).
        -- apply (as_reap_conn a (view a s) d rc). by rewrite /view Ek Et.
        -- rewrite /view Ek' Et' /viewf Ek Hfs Hsh. simpl in *. rewrite /set /=. f_equal; rewrite stat_ne //.
           ++ intros E. by destruct (L6 _ E).
           ++ congruence.
      * replace (view a s') with (view a s <| v_ph := [PhRun d (Some rc)] |> <| v_tr := Some true |>).
        -- apply (as_reap_run a (view a s) d rc). by rewrite /view Ek Et.
        -- rewrite /view Ek' Et' /viewf Ek Hfs Hsh. simpl in *. rewrite /set /=. f_equal.
           ++ by rewrite L6 stat_ins.
           ++ rewrite stat_ne //. congruence.
           ++ by rewrite stat_ne.
  - eapply (sim_other a s s' i _ [OReap b rc]); try done.
    + rewrite (ptask_aid b a t Hpb). by rewrite bool_decide_false.
    + left. exists t'. split; [by rewrite /s' /= P2|]. rewrite (ptask_aid b a t' Hpb'). by rewrite bool_decide_false.
    + by rewrite /s' /key /= P1.
    + intros g k Hu Hk. simpl. rewrite set_result_other //. eapply (own_ne s); [done|exact Huf|done|].
      intros <-. destruct Hk as [|[|]]; by simplify_eq.
    + by rewrite /s' /= P4.
    + by rewrite /s' /= P3.
    + simpl. by rewrite bool_decide_false.
Qed.
Lemma sim_task a i s s' : own s -> linked a s -> task_step w i s = Some s' -> sim1 a s s'.
Proof.
  intros Ho HL. rewrite /task_step. destruct (tasks s !! i) as [t|] eqn:Hi; [|done]. destruct t; try done.
  - by apply sim_timer_init.
  - by apply sim_timer_wake.
  - by apply sim_proc_init.
  - intros [= <-]. by apply sim_proc_conn.
  - destruct rc; [|done]. by eapply sim_exited.
  - by apply sim_delay.
Qed.
Lemma sim_micro a s s' : own s -> linked a s -> micro w s s' -> sim1 a s s'.
Proof.
  intros Ho HL H. destruct H; forget_handlers.
  - by apply sim_misc.
  - destruct (timer_cancel_sameP a0 s) as (P1 & P2 & P3 & P4 & _). apply (sim_frame a s _ []); try done.
    + by rewrite /key P1.
    + by rewrite /ptasks P2.
    + intros f k Hu Hk. by eapply timer_cancel_keep.
    + by rewrite P4.
  - apply (sim_frame a s _ [OTimer a0]); try done.
    + rewrite /ptasks /= List.filter_app /=. by rewrite app_nil_r.
    + intros f k Hu _. simpl. rewrite !lookup_insert_ne //; eapply fresh_ne; try done; lia.
    + simpl. by rewrite H0.
  - apply (sim_frame a s _ []); try done.
    intros f k Hu _. simpl. rewrite !lookup_insert_ne //; eapply fresh_ne; try done; lia.
  - by apply sim_get.
  - apply (sim_trans a s s1); [apply sim_misc; try done; by eapply prepare_untouched|]. intros HL1. by apply sim_det.
  - by apply sim_respawn.
  - by eapply sim_exec.
  - by eapply (sim_start a a0 p).
  - by apply sim_shut.
  - by eapply sim_signal.
  - eapply sim_buffers; [apply proc_io_buffers|done].
  - eapply sim_buffers; [apply proc_flush_buffers|done].
  - by eapply sim_task.
  - by eapply sim_spawn_ok.
  - by eapply sim_spawn_fail.
  - by eapply sim_exit.
Qed.

Lemma linked_init a n e : linked a (init n e).
Proof. by rewrite /linked /key /= lookup_empty. Qed.
Definition pinv (s : st) : Prop := own s /\ forall a, linked a s.
Lemma pinv_micro s s' : micro w s s' -> pinv s -> pinv s'.
Proof. intros H [Ho HL]. split; [by eapply own_micro|]. intros a. by apply (sim_micro a s s'). Qed.
Lemma pinv_reachable s : reachable w s -> pinv s.
Proof. apply micro_reachable; [|apply pinv_micro]. intros n e. split; [apply own_init|intros a; apply linked_init]. Qed.
(** Every execution is a run of the automaton. *)
Lemma sim_steps a s ls s' : pinv s -> steps w s ls s' ->
  exists l, log s' = l ++ log s /\ arun a (view a s) (abouts a l) (view a s').
Proof.
  intros HI H. apply R_steps in H. revert HI. induction H as [|s s1 s2 H1 _ IH]; intros HI.
  - exists []. split; [done|constructor].
  - destruct (sim_micro a s s1) as [_ (l1 & E1 & A1)]; [apply HI|apply HI|done|].
    destruct IH as (l2 & E2 & A2); [by eapply pinv_micro|]. exists (l2 ++ l1). split; [by rewrite E2 E1 app_assoc|].
    rewrite /abouts List.filter_app. by eapply arun_trans.
Qed.
Lemma sim_reachable a s : reachable w s -> arun a (v_none false) (abouts a (log s)) (view a s).
Proof.
  intros (n & e & ls & H). destruct (sim_steps a (init n e) ls s) as (l & El & A); [|done|].
  - split; [apply own_init|intros b; apply linked_init].
  - simpl in El. rewrite app_nil_r in El. rewrite El. move: A. by rewrite /view {1}/key /= lookup_empty.
Qed.
Lemma resp_value a s p fs : reachable w s -> procs s !! a = Some p -> x_shutdown p = Some fs -> exists b, x_respawn p = BV b.
Proof.
  intros H Ep Es. apply (sim_reachable a) in H. apply arun_known in H; [|by intros []]. move: H. rewrite /resp_known /view /key Ep /= Es /=. by apply.
Qed.
Lemma resp_kept a s ls s' p b : reachable w s -> steps w s ls s' -> procs s !! a = Some p -> x_respawn p = BV b ->
  exists p', procs s' !! a = Some p' /\ x_respawn p' = BV b.
Proof.
  intros Hr H Ep Eb. destruct (sim_steps a s ls s') as (l & _ & A); [by apply pinv_reachable|done|].
  apply (arun_kept _ _ _ _ b) in A as [H1 H2]; [|by rewrite /view /key Ep|by rewrite /view /key Ep].
  move: H1 H2. rewrite /view /key. destruct (procs s' !! a) as [p'|]; [|done]. intros _ H2. by exists p'.
Qed.
End sim.
