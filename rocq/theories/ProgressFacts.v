(** Proofs about the end of a run (C80). *)
From Coq Require Import ssreflect.
From Verif Require Import SubstFacts SpecProgress ExWorld ExecFacts VisitFacts HandleFacts EventFacts StepFacts MicroSteps LifeFacts ServiceFacts.

Section inv.
Context (w : world).

(** ** What the run waits for *)
Record wok (s : st) : Prop := {
  wo_evt : forall ws, rpc s = Waiting ws -> evt s <> ETNone;
  wo_ws : forall ws f, rpc s = Waiting ws -> In f ws -> awaited f s \/ f_is_done f s = true;
  wo_idle : rpc s = Waiting [] -> evt s = ETPending -> queue (cx s) = [] -> when_idle s = false }.
Lemma wok_init n e : wok (init n e).
Proof. by constructor. Qed.
Lemma app_nil_snoc {A} (l q : list A) x : (l ++ [x]) ++ q <> [].
Proof. by destruct l. Qed.
Lemma kept_nil l s s' : reachable w s -> step w l s = Some s' -> (forall fuel, l <> LEvent fuel) -> queue (cx s') = [] -> queue (cx s) = [].
Proof. intros Hr H Hn E. destruct (queue_kept w l s s' Hr H Hn) as [q Eq]. rewrite E in Eq. by destruct (queue (cx s)). Qed.
Lemma wok_step l s s' : reachable w s -> wok s -> step w l s = Some s' -> wok s'.
Proof.
  intros Hr [A B C] H. pose proof (reachable_wfu w s Hr) as Hw.
  assert (forall ws f, rpc s = Waiting ws -> In f ws -> awaited f s' \/ f_is_done f s' = true) as B'.
  { intros ws f Ew Hf. destruct (B ws f Ew Hf) as [Ha|Hd]; [by eapply awaited_step|right]. eapply done_le; [|exact Hd]. by eapply step_futs. }
  destruct (match l with LMain | LEvent _ | LRun _ => false | _ => true end) eqn:El.
  - assert (forall fuel, l <> LEvent fuel) as Hne by (by intros fuel ->).
    pose proof (kept_nil l s s' Hr H Hne) as HQ.
    assert ((forall ws, rpc s' = Waiting ws -> rpc s = Waiting ws /\ evt s' = evt s /\ when_idle s' = when_idle s)) as HE.
    { clear A B C B' HQ Hne. destruct (foreign l) eqn:Hf. { destruct (misc_step w l s s' Hw Hf H) as [HM _]. svfi HM. intros ws Ew. split_and!; congruence. }
      intros ws. destruct l; try done; cbn [step] in H.
      - destruct (rpc s); try done. apply wake_inv in H as [[_ ->]|[(_ & _ & ->)|(_ & _ & ->)]]; done.
      - destruct (rpc s), (sdt s); try done. by injection H as <-.
      - destruct (rpc s) eqn:Er; try done. destruct (unretrieved s); [|done]. injection H as <-. by rewrite /= Er.
      - destruct (rpc s) eqn:Er; try done. injection H as <-. destruct (sigint_seen s); [by rewrite Er|].
        rewrite /svc_shutdown. destruct (shutting_down s); by rewrite /= Er.
      - destruct (rpc s); try done. by injection H as <-.
      - destruct (sdt s); try done. destruct (loop_thread s), (shutting_down s); by injection H as <-.
      - destruct (sdt s); try done. by injection H as <-.
      - destruct (sdt s); try done. rewrite /loop_step in H. destruct (in_loop s); [|done]. by injection H as <-.
      - destruct (sdt s); try done. by injection H as <-.
      - destruct (sdt s); try done. rewrite /loop_step in H. destruct (in_loop s); [|done]. destruct (loop_thread s); [|by injection H as <-].
        destruct awaited; injection H as <-; [|done].
        rewrite /svc_shutdown. by destruct (shutting_down s). }
    constructor.
    + intros ws Ew. destruct (HE ws Ew) as (E1 & E2 & _). rewrite E2. by eapply A.
    + intros ws f Ew. destruct (HE ws Ew) as (E1 & _). by apply B'.
    + intros Ew Ev Eq. destruct (HE [] Ew) as (E1 & E2 & E3). rewrite E3. apply C; [done|congruence|by apply HQ].
  - destruct l; try done.
    + cbn [step] in H. revert H. rewrite /run_step. destruct (sdt s); try done. destruct (loop_thread s).
      * destruct (in_loop s) eqn:Hi; [|done]. intros [= <-]. constructor; [exact A|exact B|exact C].
      * destruct (rpc s) eqn:Er; try done. intros [= <-]. constructor; done.
    + cbn [step] in H. destruct (rpc s) eqn:Er; try done. injection H as <-. rewrite /main_step. set (s1 := prune s).
      destruct (negb _ && _ && _) eqn:E1.
      { destruct (svc_shutdown_sv "idle" false s1) as (HS & _). svi HS. assert (rpc (svc_shutdown "idle" false s1) = AtLoop) as E by (by rewrite H). constructor; rewrite E; done. }
      destruct (shutting_down s1 && _) eqn:E2; [constructor; done|]. constructor; simpl; [done| |].
      * intros ws f [= <-]. rewrite /queue_empty /=. case_match; [|done]. intros Hf. left. apply in_app_or in Hf. exact Hf.
      * intros [= E3] _ Eq. rewrite /queue_empty /= Eq in E3. apply app_eq_nil in E3 as [E3 E4].
        assert (is_idle s1 = true) as Hi by (rewrite /is_idle /= E3 E4 Eq; done). rewrite Hi !andb_true_r in E1, E2.
        rewrite E2 /= in E1. exact E1.
    + destruct (event_step w fuel s s' Hw H) as (r & Hsv & _ & He & _). svi Hsv. constructor.
      * intros ws _. by rewrite He.
      * intros ws f Ew. apply B'. congruence.
      * by rewrite He.
Qed.
Lemma wok_reachable s : reachable w s -> wok s.
Proof. revert s. apply reachable_ind'; [apply wok_init|]. intros l s s' Hr. by apply wok_step. Qed.

(** ** Nothing but the run can be what keeps a run from returning *)
Lemma wake_some ws s : (exists r, evt s = ETDone r) \/ (exists f, In f ws /\ f_is_done f s = true) -> exists s', wake_step ws s = Some s'.
Proof.
  rewrite /wake_step. intros [[r ->]|(f & Hf & Hd)]; [by eexists|].
  assert (existsb (fun f => f_is_done f s) ws = true) as -> by (apply existsb_exists; eauto). rewrite orb_true_r. by eexists.
Qed.
Lemma waits_for s : reachable w s -> in_run s = true -> sdt s = SdNone ->
  (forall l, run_label l = true -> step w l s = None) ->
  exists ws, rpc s = Waiting ws /\ evt s = ETPending /\
    (queue (cx s) <> [] \/ (exists f, awaited f s /\ f_is_done f s = false) \/ (when_idle s = false /\ ws = [] /\ queue (cx s) = [])).
Proof.
  intros Hr Hi Hs Hn. destruct (wok_reachable s Hr) as [A B C].
  pose proof (Hn LMain eq_refl) as H1. pose proof (Hn LWake eq_refl) as H2. pose proof (Hn LLeave eq_refl) as H3. cbn [step] in H1, H2, H3.
  rewrite /in_run in Hi. destruct (rpc s) as [| |ws|] eqn:Er; try done; [|by rewrite Hs in H3].
  exists ws. split; [done|]. specialize (A ws eq_refl).
  destruct (evt s) as [| |r] eqn:Ee; [done| |]; last first. { destruct (wake_some ws s) as [s' E]; [left; by exists r|]. by rewrite E in H2. }
  split; [done|]. destruct (queue (cx s)) as [|e q] eqn:Eq; [|by left]. right.
  destruct ws as [|f ws]; [right; split_and!; try done; by apply C|left]. exists f. 
  destruct (f_is_done f s) eqn:Ed. { destruct (wake_some (f :: ws) s) as [s' E]; [right; exists f; split; [by left|done]|]. by rewrite E in H2. }
  split; [|done]. destruct (B (f :: ws) f eq_refl) as [Ha|Hd]; [by left|done|congruence].
Qed.

(** ** A run with nothing left returns *)
Lemma main_leaves s : rpc s = AtLoop -> shutting_down s = true -> nothing_left s -> sdt s = SdNone ->
  exists ls s', length ls = 2%nat /\ Forall (fun l => run_label l = true) ls /\ steps w s ls s' /\ in_run s' = false.
Proof.
  intros Er Hd [Hq Ha] Hs. exists [LMain; LLeave].
  assert (is_idle (prune s) = true) as Hi by (by apply all_done_prune).
  assert (step w LMain s = Some (prune s <| evt := ETNone |> <| rpc := Leaving |>)) as E1.
  { cbn [step]. rewrite Er /main_step Hi. by rewrite /= Hd. }
  eexists. split_and!; [done|by repeat constructor| |].
  - econstructor; [exact E1|]. econstructor; [|constructor]. cbn [step]. simpl. rewrite Hs. reflexivity.
  - done.
Qed.
Definition awake (s : st) : Prop := forall ws, rpc s = Waiting ws -> evt s = ETPending -> queue (cx s) = [] -> ws <> [].
Lemma returns_awake s : reachable w s -> in_run s = true -> sdt s = SdNone -> shutting_down s = true -> nothing_left s -> awake s ->
  exists ls s', (length ls <= 3)%nat /\ Forall (fun l => run_label l = true) ls /\ steps w s ls s' /\ in_run s' = false.
Proof.
  intros Hr Hi Hs Hd HN HA. destruct (wok_reachable s Hr) as [A B C]. pose proof HN as [Hq Ha]. rewrite /in_run in Hi. destruct (rpc s) as [| |ws|] eqn:Er; try done.
  - destruct (main_leaves s Er Hd HN Hs) as (ls & s' & El & HF & HS & HI). exists ls, s'. split_and!; try done. lia.
  - assert (exists s1, wake_step ws s = Some s1) as [s1 E1].
    { apply wake_some. destruct (evt s) as [| |r] eqn:Ee; [by destruct (A ws eq_refl)| |left; by eexists]. right.
      destruct ws as [|f ws]; [by destruct (HA [] Er)|]. exists f. split; [by left|]. destruct (B (f :: ws) f eq_refl) as [?|?]; [by left|by apply Ha|done]. }
    assert (step w LWake s = Some s1) as E1' by (cbn [step]; by rewrite Er).
    apply wake_inv in E1 as [(_ & ->)|HC].
    + eexists [LWake; LLeave], _. split_and!; [simpl; lia|by repeat constructor| |].
      * econstructor; [exact E1'|]. econstructor; [|constructor]. cbn [step]. simpl. rewrite Hs. reflexivity.
      * done.
    + assert (rpc s1 = AtLoop /\ shutting_down s1 = true /\ nothing_left s1 /\ sdt s1 = SdNone) as (F1 & F2 & F3 & F4).
      { destruct HC as [(_ & _ & ->)|(_ & _ & ->)]; [|by split_and!]. rewrite /svc_shutdown Hd. by split_and!. }
      destruct (main_leaves s1 F1 F2 F3 F4) as (ls & s' & El & HF & HS & HI). exists (LWake :: ls), s'. split_and!; [simpl; lia| |by econstructor|done].
      by constructor.
  - eexists [LLeave], _. split_and!; [simpl; lia|by repeat constructor| |].
    + econstructor; [|constructor]. cbn [step]. rewrite Er Hs. reflexivity.
    + done.
Qed.
Lemma returns_default s : reachable w s -> in_run s = true -> sdt s = SdNone -> when_idle s = true -> shutting_down s = true -> nothing_left s ->
  exists ls s', (length ls <= 3)%nat /\ Forall (fun l => run_label l = true) ls /\ steps w s ls s' /\ in_run s' = false.
Proof.
  intros Hr Hi Hs Hw Hd HN. apply returns_awake; try done. intros ws Er Ee Eq ->. destruct (wok_reachable s Hr) as [_ _ C]. by rewrite (C Er Ee Eq) in Hw.
Qed.
(** With shutdown_when_idle the run first emits the Shutdown event. *)
Lemma shuts_down s : reachable w s -> in_run s = true -> rpc s <> Leaving -> when_idle s = true -> shutting_down s = false -> nothing_left s ->
  (forall f, f_get f s <> FCancelled) ->
  exists ls s', (length ls <= 2)%nat /\ Forall (fun l => run_label l = true) ls /\ steps w s ls s' /\ in_run s' = true /\ shutting_down s' = true /\
    exists r, queue (cx s') = [EvShutdown r false].
Proof.
  intros Hr Hi Hl Hw Hd HN Hc. destruct (wok_reachable s Hr) as [A B C]. pose proof HN as [Hq Ha]. rewrite /in_run in Hi. destruct (rpc s) as [| |ws|] eqn:Er; try done.
  - assert (step w LMain s = Some (main_step s)) as E by (cbn [step]; by rewrite Er).
    destruct (idle_shutdown w s _ E Hw Hd Hq Ha) as (_ & E1 & E2 & E3).
    exists [LMain], (main_step s). split_and!; [simpl; lia|by repeat constructor| |done|done|by eexists]. econstructor; [exact E|constructor].
  - assert (exists s1, wake_step ws s = Some s1) as [s1 E1].
    { apply wake_some. destruct (evt s) as [| |r] eqn:Ee; [by destruct (A ws eq_refl)| |left; by eexists]. right.
      destruct ws as [|f ws]; [by rewrite (C eq_refl eq_refl Hq) in Hw|]. exists f. split; [by left|]. destruct (B (f :: ws) f eq_refl) as [?|?]; [by left|by apply Ha|done]. }
    assert (step w LWake s = Some s1) as E1' by (cbn [step]; by rewrite Er).
    apply wake_inv in E1 as [(Hx & _)|[(_ & _ & ->)|(_ & _ & ->)]].
    + apply existsb_exists in Hx as (f & _ & Hf). rewrite /is_cancelled in Hf. specialize (Hc f). by destruct (f_get f s).
    + eexists [LWake], _. split_and!; [simpl; lia|by repeat constructor|econstructor; [exact E1'|constructor]|done| |].
      * by destruct (svc_shutdown_sv "exception" false s) as (_ & ? & _).
      * exists "exception"%string. by rewrite /svc_shutdown Hd /= Hq.
    + set (s1 := s <| rpc := AtLoop |>) in *. assert (step w LMain s1 = Some (main_step s1)) as E by done.
      destruct (idle_shutdown w s1 _ E Hw Hd Hq Ha) as (_ & E2 & E3 & E4).
      exists [LWake; LMain], (main_step s1). split_and!; [simpl; lia|by repeat constructor| |done|done|by eexists].
      econstructor; [exact E1'|]. econstructor; [exact E|constructor].
Qed.

(** ** Without shutdown_when_idle *)
Lemma regular_reachable s : regular w s -> reachable w s.
Proof. intros H. induction H as [n e|s l s' _ IH H _ _]; [exists n, e, []; constructor|by eapply reachable_step]. Qed.
Definition is_shut_ev (e : event) : bool := match e with EvShutdown _ _ => true | _ => false end.
Record rok (s : st) : Prop := {
  ro_idle : rpc s = Waiting [] -> evt s = ETPending -> queue (cx s) = [] -> shutting_down s = false;
  ro_put : sdt s = SdPut -> (rpc s = AtLoop \/ exists ws, rpc s = Waiting ws) ->
           (exists r g, In (EvShutdown r g) (queue (cx s))) \/ shutting_down s = true \/ (rpc s <> AtLoop /\ exists x, evt s = ETDone (Exn x)) }.
Lemma event_queue fuel s s' : wfu s -> step w (LEvent fuel) s = Some s' ->
  exists e q l r, queue (cx s) = e :: q /\ queue (cx s') = q ++ l /\ processes w s e r s'.
Proof.
  intros Hw H. destruct (step_cases w _ s s' Hw H) as [(_ & Hne & _)|[(i & f & e & Hl & _)|(fu & e & q & s2 & r & Hf & Hi & He & Hq & E & Hr & Es)]]; [by destruct (Hne fuel)|done|].
  pose proof (H_process_event w fu e _ _ _ E) as HF. specialize (HF (proj1 (deq_wfu s e q Hw))).
  destruct HF as [(l & _ & _ & EQ) _ _ _ _ _ _ _ _ _ _ _ _]. exists e, q, (emitted l), r. split_and!; [done|by rewrite Es /= EQ|].
  exists fuel. split_and!; [done|by rewrite Hq|by rewrite Es].
Qed.
Lemma rok_step l s s' : reachable w s -> rok s -> step w l s = Some s' -> l <> LShutLoop false -> In svc_handler (handlers (cx s)) -> rok s'.
Proof.
  intros Hr [A B] H Hl Hin. pose proof (reachable_wfu w s Hr) as Hw.
  destruct (match l with LEvent _ => true | _ => false end) eqn:Ee.
  { destruct l; try done. destruct (event_step w fuel s s' Hw H) as (r & Hsv & Ev & Ev' & _ & Hfl & _). svi Hsv. constructor; [by rewrite Ev'|].
    intros Es Hrp. destruct (event_queue fuel s s' Hw H) as (e & q & m & r' & Q1 & Q2 & Hp).
    assert (r' = r) as -> by (destruct Hp as (? & _ & _ & Hp); congruence).
    assert (exists ws, rpc s = Waiting ws) as [ws Ew].
    { destruct Hrp as [E|[ws E]]; [|exists ws; congruence]. revert H. cbn [step]. by rewrite /loop_step /in_loop -H0 E. }
    destruct B as [(r1 & g & Hi)|[Hd|(_ & x & Hx)]]; [congruence|right; by eexists| | |congruence].
    - rewrite Q1 in Hi. destruct Hi as [->|Hi]; [|left; exists r1, g; rewrite Q2; apply in_or_app; by left].
      destruct r as [[]|x|].
      + right; left. by eapply shutdown_processed.
      + right; right. split; [congruence|by eexists].
      + destruct (processes_inv _ _ _ _ _ Hw Hp) as (? & ? & ? & _ & _ & Hno & _). done.
    - right; left. destruct Hfl as [[-> _]|[? _]]; done. }
  assert (forall fuel, l <> LEvent fuel) as Hne by (by intros fuel ->).
  pose proof (kept_nil l s s' Hr H Hne) as HQ. destruct (queue_kept w l s s' Hr H Hne) as [qq EQ].
  assert ((exists r g, In (EvShutdown r g) (queue (cx s))) -> exists r g, In (EvShutdown r g) (queue (cx s'))) as HI.
  { intros (r & g & Hi). exists r, g. rewrite EQ. apply in_or_app. by left. }
  destruct (foreign l) eqn:Hf.
  { destruct (misc_step w l s s' Hw Hf H) as [HM _]. svfi HM. constructor.
    - intros E1 E2 E3. rewrite H1. apply A; [congruence|congruence|by apply HQ].
    - intros E1 E2. destruct B as [Hb|[Hb|(Hb & x & Hx)]]; [congruence|by rewrite -H4|left; by apply HI|right; left; congruence|right; right; split; [congruence|exists x; congruence]]. }
  assert (forall r g, rok s -> (exists q, queue (cx (svc_shutdown r g s)) = queue (cx s) ++ q) -> rok (svc_shutdown r g s)) as HSV.
  { intros r g [A' B'] [q Eq]. destruct (svc_shutdown_sv r g s) as (HS & HD & _ & _ & _ & HV). svi HS. constructor.
    - intros E1 E2 E3. destruct (shutting_down s) eqn:Ed.
      + enough (true = false) by congruence. apply A'; [congruence|congruence|]. rewrite E3 in Eq. by destruct (queue (cx s)).
      + revert E3. rewrite /svc_shutdown Ed /=. by destruct (queue (cx s)).
    - intros _ _. right; by left. }
  assert (forall r g, exists q, queue (cx (svc_shutdown r g s)) = queue (cx s) ++ q) as HSQ.
  { intros r g. rewrite /svc_shutdown. destruct (shutting_down s); [exists []; by rewrite app_nil_r|by eexists]. }
  destruct l; try done; cbn [step] in H.
  - revert H. rewrite /run_step. destruct (sdt s) eqn:Es; try done. destruct (loop_thread s).
    + destruct (in_loop s) eqn:Hi; [|done]. intros [= <-]. constructor; [done|]. by rewrite /= Es.
    + destruct (rpc s) eqn:Er; try done. intros [= <-]. constructor; [done|]. by rewrite /= Es.
  - destruct (rpc s) eqn:Er; try done. injection H as <-. rewrite /main_step. set (s1 := prune s).
    destruct (negb _ && _ && _) eqn:E1.
    { destruct (svc_shutdown_sv "idle" false s1) as (HS & HD & _). svi HS. constructor; [by rewrite H Er|intros _ _; right; by left]. }
    destruct (shutting_down s1 && _) eqn:E2. { constructor; [done|]. simpl. intros _ [?|[? ?]]; done. }
    constructor; simpl.
    + intros [= E3] _ Eq. rewrite /queue_empty /= Eq in E3. apply app_eq_nil in E3 as [E3 E4].
      assert (is_idle s1 = true) as Hi by (rewrite /is_idle /= E3 E4 Eq; done). by rewrite Hi andb_true_r in E2.
    + intros Es _. destruct B as [Hb|[Hb|(Hb & x & Hx)]]; [done|by left|by left|by right; left|done].
  - destruct (rpc s) as [| |ws|] eqn:Er; try done. apply wake_inv in H as [[_ ->]|[(_ & Hx & ->)|(_ & Hx & ->)]].
    + constructor; simpl; [done|]. intros _ [?|[? ?]]; done.
    + destruct (svc_shutdown_sv "exception" false s) as (_ & HD & _). constructor; [done|]. intros _ _. right; by left.
    + constructor; simpl; [done|]. intros Es _. destruct B as [Hb|[Hb|(_ & x & Hb)]]; [done|right; by eexists|by left|by right; left|]. by rewrite Hb in Hx.
  - destruct (rpc s), (sdt s) eqn:Es; try done. injection H as <-. constructor; simpl; [done|by rewrite Es].
  - destruct (rpc s) eqn:Er; try done. destruct (unretrieved s); [|done]. injection H as <-. constructor; simpl; rewrite Er; [exact A|exact B].
  - destruct (rpc s) eqn:Er; try done. injection H as <-. destruct (sigint_seen s); [constructor; rewrite Er; [exact A|exact B]|].
    assert (rok s) as HR by (constructor; rewrite Er; [exact A|exact B]).
    destruct (HSV "ctrl-c (SIGINT)"%string true HR (HSQ _ _)) as [A2 B2]. constructor; [exact A2|exact B2].
  - destruct (rpc s) eqn:Er; try done. injection H as <-. constructor; simpl; [done|]. intros _ [?|[? ?]]; done.
  - destruct (sdt s) eqn:Es; try done. destruct (loop_thread s) eqn:El; [|injection H as <-; constructor; [done|by rewrite Es]].
    destruct (shutting_down s) eqn:Ed; injection H as <-.
    + constructor; simpl; [exact A|by rewrite Es].
    + constructor; simpl; done.
  - destruct (sdt s) eqn:Es; try done. injection H as <-. constructor; simpl; done.
  - destruct (sdt s) eqn:Es; try done. rewrite /loop_step in H. destruct (in_loop s); [|done]. injection H as <-. constructor; simpl.
    + intros _ _. by destruct (queue (cx s)).
    + intros _ _. left. eexists _, _. apply in_or_app. right. by left.
  - destruct (sdt s) eqn:Es; try done. injection H as <-. constructor; simpl; [|done].
    intros E1 E2 E3. destruct B as [(r & g & Hb)|[Hb|(_ & x & Hb)]]; [done|right; by eexists|by rewrite E3 in Hb|by rewrite (A E1 E2 E3) in Hb|congruence].
  - destruct (sdt s) eqn:Es; try done. rewrite /loop_step in H. destruct (in_loop s); [|done]. destruct (loop_thread s) eqn:El; [|injection H as <-; constructor; [done|by rewrite Es]].
    destruct awaited; [|done]. injection H as <-. apply HSV; [|done]. constructor; [done|by rewrite Es].
Qed.
Lemma rok_regular s : regular w s -> rok s.
Proof. intros H. induction H as [n e|s l s' Hr IH H Hl Hi]; [by constructor|]. eapply rok_step; try done. by apply regular_reachable. Qed.
Lemma returns_regular s : regular w s -> in_run s = true -> sdt s = SdNone -> shutting_down s = true -> nothing_left s ->
  exists ls s', (length ls <= 3)%nat /\ Forall (fun l => run_label l = true) ls /\ steps w s ls s' /\ in_run s' = false.
Proof.
  intros Hg Hi Hs Hd HN. apply returns_awake; try done; [by apply regular_reachable|]. intros ws Er Ee Eq ->. destruct (rok_regular s Hg) as [A _]. by rewrite (A Er Ee Eq) in Hd.
Qed.
Lemma waits_regular s : regular w s -> in_run s = true -> sdt s = SdNone ->
  (forall l, run_label l = true -> step w l s = None) ->
  exists ws, rpc s = Waiting ws /\ evt s = ETPending /\
    (queue (cx s) <> [] \/ (exists f, awaited f s /\ f_is_done f s = false) \/ (when_idle s = false /\ shutting_down s = false)).
Proof.
  intros Hg Hi Hs Hn. destruct (waits_for s (regular_reachable s Hg) Hi Hs Hn) as (ws & E1 & E2 & H). exists ws. split_and!; [done|done|].
  destruct H as [H|[H|(H1 & -> & H2)]]; [by left|right; by left|right; right]. split; [done|]. by apply (ro_idle s (rok_regular s Hg)).
Qed.

(** ** A thread in shutdown() *)
Lemma locked_step l s s' : rpc s = Leaving -> sdt s = SdPosted -> step w l s = Some s' -> rpc s' = Leaving /\ sdt s' = SdPosted.
Proof.
  intros Er Es. destruct l; cbn [step]; rewrite /run_step /loop_step /in_loop ?Er ?Es; try done.
  destruct (Qle_bool 0 d); [|done]. by intros [= <-].
Qed.
Lemma locked s ls s' : rpc s = Leaving -> sdt s = SdPosted -> steps w s ls s' -> rpc s' = Leaving /\ sdt s' = SdPosted.
Proof.
  intros Er Es H. revert Er Es. induction H as [|s l s1 ls s2 H1 _ IH]; [done|]. intros Er Es. destruct (locked_step l s s1 Er Es H1). by apply IH.
Qed.
End inv.
