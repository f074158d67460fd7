(** Lemmas for running launch tests. *)
From Coq Require Import ssreflect.
From Verif Require Import SpecTestRun TestingFacts StrFacts.

(** ** Results *)
Lemma add_key_in t l x : In x (add_key t l) <-> x = t \/ In x l.
Proof.
  rewrite /add_key. destruct (existsb (Nat.eqb t) l) eqn:E.
  - apply existsb_exists in E as (y & Hy & Ey). apply Nat.eqb_eq in Ey as <-. naive_solver.
  - rewrite in_app_iff /=. naive_solver.
Qed.
Lemma existsb_in t l : existsb (Nat.eqb t) l = true <-> In t l.
Proof.
  rewrite existsb_exists. split; [intros (y & Hy & Ey); by apply Nat.eqb_eq in Ey as ->|]. intros H. exists t. by rewrite Nat.eqb_refl.
Qed.
Definition keys_from (l0 l : list nat) : list nat := fold_left (fun l t => add_key t l) l l0.
Lemma keys_in l l0 x : In x (keys_from l0 l) <-> In x l0 \/ In x l.
Proof. revert l0. induction l as [|t l IH]; intros l0; cbn; [naive_solver|]. rewrite IH add_key_in. naive_solver. Qed.
Lemma keys_skip l0 l : (forall x, In x l -> In x l0) -> keys_from l0 l = l0.
Proof.
  revert l0. induction l as [|t l IH]; intros l0 H; [done|]. cbn. rewrite {2}/add_key. destruct (existsb (Nat.eqb t) l0) eqn:E.
  - apply IH. intros x Hx. apply H. by right.
  - exfalso. assert (existsb (Nat.eqb t) l0 = true); [|congruence]. apply existsb_in, H. by left.
Qed.
Lemma keys_snoc l0 l t : keys_from l0 (l ++ [t]) = add_key t (keys_from l0 l).
Proof. by rewrite /keys_from fold_left_app. Qed.
Lemma add_key_idem l0 l t : keys_from l0 (add_key t l) = add_key t (keys_from l0 l).
Proof.
  rewrite {1}/add_key. destruct (existsb (Nat.eqb t) l) eqn:E; [|apply keys_snoc].
  rewrite /add_key. destruct (existsb (Nat.eqb t) (keys_from l0 l)) eqn:E'; [done|]. exfalso.
  assert (existsb (Nat.eqb t) (keys_from l0 l) = true); [|congruence]. apply existsb_in, keys_in. right. by apply existsb_in.
Qed.
Lemma keys_firsts l : keys_from [] l = first_actions l.
Proof.
  rewrite /first_actions. assert (forall l0, keys_from l0 l = l0 ++ firsts_from Nat.eqb l0 l) as H; [|by rewrite H].
  assert (forall (l1 l2 l : list nat), (forall x, In x l1 <-> In x l2) -> firsts_from Nat.eqb l1 l = firsts_from Nat.eqb l2 l) as Hsame.
  { intros l1 l2 l'. revert l1 l2. induction l' as [|x l' IH]; intros l1 l2 H; [done|]. cbn.
    assert (existsb (Nat.eqb x) l1 = existsb (Nat.eqb x) l2) as ->. { apply eq_true_iff_eq. rewrite !existsb_in. apply H. }
    destruct (existsb (Nat.eqb x) l2); [by apply IH|]. f_equal. apply IH. intros y. cbn. by rewrite H. }
  induction l as [|t l IH]; intros l0; [by rewrite app_nil_r|]. change (keys_from l0 (t :: l)) with (keys_from (add_key t l0) l). cbn [firsts_from]. rewrite IH /add_key. destruct (existsb (Nat.eqb t) l0) eqn:E; [done|].
  rewrite -app_assoc. cbn. do 2 f_equal. apply Hsame. intros x. rewrite in_app_iff /=. naive_solver.
Qed.
Lemma tr_of_snoc l e : tr_of (l ++ [e]) = tr_do (tr_of l) e.
Proof. by rewrite /tr_of fold_left_app. Qed.
Lemma tr_of_law l : let r := tr_of l in
  tr_cases r = first_actions (starts l) /\ tr_run r = length (starts l) /\ tr_failures r = with_outcome OFailure l /\ tr_errors r = with_outcome OError l /\
  tr_skipped r = with_outcome OSkip l /\ tr_expected r = with_outcome OExpected l /\ tr_unexpected r = with_outcome OUnexpected l.
Proof.
  cbn zeta. rewrite -keys_firsts. induction l as [|e l (I1 & I2 & I3 & I4 & I5 & I6 & I7)] using rev_ind; [done|].
  rewrite tr_of_snoc /starts /with_outcome !omap_app. fold (starts l).
  fold (with_outcome OFailure l) (with_outcome OError l) (with_outcome OSkip l) (with_outcome OExpected l) (with_outcome OUnexpected l).
  destruct e as [t|[| | | |] t]; cbn [tr_do tr_cases tr_run tr_failures tr_errors tr_skipped tr_expected tr_unexpected omap list_omap];
    rewrite ?app_nil_r ?app_length /= ?keys_snoc I1 I2 I3 I4 I5 I6 I7; repeat split; lia.
Qed.
Lemma tr_append_of a p : tr_append (tr_of a) (tr_of p) = tr_of (a ++ p).
Proof.
  induction p as [|e p IH] using rev_ind.
  { rewrite app_nil_r /tr_append. destruct (tr_of a) as [c f er n s x u]. cbn. rewrite !app_nil_r. f_equal. lia. }
  rewrite app_assoc !tr_of_snoc -IH. destruct e as [t|o t].
  - rewrite /tr_append. cbn. f_equal; [|lia]. apply add_key_idem.
  - rewrite /tr_append. cbn. destruct o; f_equal; by rewrite ?app_assoc.
Qed.
Lemma is_nil_spec {A} (l : list A) : is_nil l = true <-> l = [].
Proof. by destruct l. Qed.
Lemma with_outcome_in o l t : In t (with_outcome o l) <-> In (RGot o t) l.
Proof.
  rewrite -elem_of_list_In /with_outcome elem_of_list_omap. split.
  - intros (e & He & H). apply elem_of_list_In in He. destruct e as [x|[| | | |] x], o; try done; by injection H as ->.
  - intros H. exists (RGot o t). split; [by apply elem_of_list_In|]. by destruct o.
Qed.
Lemma nil_in {A} (l : list A) : l = [] <-> forall x, ~ In x l.
Proof. split; [intros -> x []|]. destruct l as [|x l]; [done|]. intros H. exfalso. apply (H x). by left. Qed.
Lemma success_law l : tr_success (tr_of l) = true <-> all_good l.
Proof.
  destruct (tr_of_law l) as (_ & _ & H1 & H2 & _ & _ & H3). rewrite /tr_success H1 H2 H3 !andb_true_iff !is_nil_spec !nil_in. rewrite /all_good /bad.
  split.
  - intros [[A B] C] o t Hin [->|[->| ->]]; [apply (A t)|apply (B t)|apply (C t)]; by apply with_outcome_in.
  - intros H. repeat split; intros t Ht%with_outcome_in; eapply H; eauto.
Qed.

(** ** One test run *)
Notation log_of st := (wk_log st).
Lemma wk_snoc l o : wk_run (l ++ [o]) = wk_do (wk_run l) o.
Proof. by rewrite /wk_run fold_left_app. Qed.
Lemma earlier_more x y log z : earlier x y log -> earlier x y (log ++ [z]).
Proof. intros (l1 & l2 & l3 & ->). exists l1, l2, (l3 ++ [z]). by rewrite -!app_assoc /= -!app_assoc. Qed.
Lemma earlier_last x y log : In x log -> earlier x y (log ++ [y]).
Proof. intros (l1 & l2 & ->)%in_split. exists l1, l2, []. by rewrite -!app_assoc. Qed.
Lemma earlier_fst x y log : earlier x y log -> In x log.
Proof. intros (l1 & l2 & l3 & ->). apply in_app_iff. right. by left. Qed.
Lemma earlier_snd x y log : earlier x y log -> In y log.
Proof. intros (l1 & l2 & l3 & ->). apply in_app_iff. right. right. apply in_app_iff. right. by left. Qed.
Lemma in_snoc {A} (x y : A) l : In x (l ++ [y]) <-> In x l \/ x = y.
Proof. rewrite in_app_iff /=. naive_solver. Qed.
(** The state is determined by what was observed. *)
Definition test_inv (st : wkst) : Prop :=
  let log := wk_log st in
  (wk_ready st = true <-> In BReady log) /\
  match wk_test st with
  | TWait => wk_results st = None /\ wk_completed st = false /\ (forall x, ~ In (BActiveEnd x) log) /\ ~ In BActive log /\ ~ In BShutdown log
  | TRunning => wk_results st = None /\ wk_completed st = false /\ (forall x, ~ In (BActiveEnd x) log) /\ earlier BReady BActive log /\ ~ In BShutdown log
  | TSet => wk_completed st = false /\ (exists x, wk_results st = tr_of <$> x /\ (forall y, In (BActiveEnd y) log <-> y = x) /\ earlier BActive (BActiveEnd x) log) /\
      earlier BReady BActive log /\ ~ In BShutdown log
  | TShut => ~ In BShutdown log /\
      if wk_completed st
      then (exists x, wk_results st = tr_of <$> x /\ (forall y, In (BActiveEnd y) log <-> y = x) /\ earlier BActive (BActiveEnd x) log) /\ earlier BReady BActive log
      else wk_results st = None /\ (forall x, ~ In (BActiveEnd x) log) /\ ~ In BActive log
  | TEnd => In BShutdown log /\
      if wk_completed st
      then (exists x, wk_results st = tr_of <$> x /\ (forall y, In (BActiveEnd y) log <-> y = x) /\ earlier BActive (BActiveEnd x) log /\ earlier (BActiveEnd x) BShutdown log) /\
        earlier BReady BActive log
      else wk_results st = None /\ (forall x, ~ In (BActiveEnd x) log) /\ ~ In BActive log
  end.
Definition main_inv (st : wkst) : Prop :=
  let log := wk_log st in
  match wk_main st with
  | MLaunch => (forall rc, ~ In (BLaunchEnd rc) log) /\ (forall x, ~ In (BPost x) log)
  | MCheck => (exists rc, In (BLaunchEnd rc) log) /\ (forall x, ~ In (BPost x) log)
  | MPost => wk_completed st = true /\ (exists rc, In (BLaunchEnd rc) log) /\ (forall x, ~ In (BPost x) log)
  | MEnd w => (exists rc, In (BLaunchEnd rc) log) /\
      match w with
      | WDied => forall x, ~ In (BPost x) log
      | _ => wk_completed st = true /\
          exists rc p a, earlier (BLaunchEnd rc) (BPost p) log /\ (forall y, In (BPost y) log <-> y = p) /\ wk_results st = tr_of <$> a /\ earlier (BActiveEnd a) (BPost p) log /\
            w = match p, a with Some p, Some a => WResults (tr_of (a ++ p)) | _, _ => WRaises end
      end
  end.

Ltac more := repeat match goal with
  | H : _ /\ _ |- _ => destruct H
  | H : exists _, _ |- _ => destruct H
  end.
Lemma ready_snoc (r : bool) log z : z <> BReady -> (r = true <-> In BReady log) -> (r = true <-> In BReady (log ++ [z])).
Proof. intros Hz ->. rewrite in_snoc. split; [by left|]. intros [H|H]; [done|by rewrite H in Hz]. Qed.
Lemma test_step st o : test_inv st -> test_inv (wk_do st o).
Proof.
  destruct st as [ready completed results main test log]. intros [HR HT]. cbn in HR, HT.
  assert (forall z, z <> BReady -> (forall x, z <> BActiveEnd x) -> z <> BActive -> z <> BShutdown -> forall main', test_inv
    {| wk_ready := ready; wk_completed := completed; wk_results := results; wk_main := main'; wk_test := test; wk_log := log ++ [z] |}) as Hother.
  { intros z Z1 Z2 Z3 Z4 main'. split; cbn; [by apply ready_snoc|]. destruct test; try destruct completed; more; repeat setoid_rewrite in_snoc; repeat split; eauto using earlier_more; naive_solver eauto using earlier_more. }
  assert (forall main', test_inv {| wk_ready := ready; wk_completed := completed; wk_results := results; wk_main := main'; wk_test := test; wk_log := log |}) as Hsame by (intros; by split).
  destruct o as [| | |x| | |rc| |x]; cbn [wk_do].
  - destruct main; try by apply Hsame. split; cbn; [rewrite in_snoc; by split; [right|]|].
    destruct test; try destruct completed; more; repeat setoid_rewrite in_snoc; repeat split; eauto using earlier_more; naive_solver eauto using earlier_more.
  - destruct main, test; first [by apply Hsame|split; [done|cbn; naive_solver]].
  - assert (test_inv match test with TWait => if ready then {| wk_ready := ready; wk_completed := completed; wk_results := results; wk_main := main; wk_test := TRunning; wk_log := log ++ [BActive] |}
       else {| wk_ready := ready; wk_completed := completed; wk_results := results; wk_main := main; wk_test := test; wk_log := log |}
       | _ => {| wk_ready := ready; wk_completed := completed; wk_results := results; wk_main := main; wk_test := test; wk_log := log |} end) as HX; [|by destruct main, test].
    destruct test; try by apply Hsame. destruct ready; [|by apply Hsame]. more. split; cbn; [by apply ready_snoc|].
    split; [done|]. split; [done|]. split; [intros y; rewrite in_snoc; naive_solver|]. split; [apply earlier_last; by apply HR|rewrite in_snoc; naive_solver].
  - assert (test_inv match test with TRunning => {| wk_ready := ready; wk_completed := completed; wk_results := tr_of <$> x; wk_main := main; wk_test := TSet; wk_log := log ++ [BActiveEnd x] |}
       | _ => {| wk_ready := ready; wk_completed := completed; wk_results := results; wk_main := main; wk_test := test; wk_log := log |} end) as HX; [|by destruct main, test].
    destruct test; try by apply Hsame. more. split; cbn; [by apply ready_snoc|]. split; [done|]. split.
    + exists x. split; [done|]. split; [setoid_rewrite in_snoc; naive_solver|]. apply earlier_last. by eapply earlier_snd.
    + split; [by apply earlier_more|]. rewrite in_snoc. naive_solver.
  - destruct main, test; first [by apply Hsame|split; [done|cbn; naive_solver]].
  - assert (test_inv match test with TShut => {| wk_ready := ready; wk_completed := completed; wk_results := results; wk_main := main; wk_test := TEnd; wk_log := log ++ [BShutdown] |}
       | _ => {| wk_ready := ready; wk_completed := completed; wk_results := results; wk_main := main; wk_test := test; wk_log := log |} end) as HX; [|by destruct main, test].
    destruct test; try by apply Hsame. split; cbn; [by apply ready_snoc|]. destruct HT as [HT1 HT2]. split; [rewrite in_snoc; by right|]. destruct completed.
    + destruct HT2 as [(x & X1 & X2 & X3) X4]. split; [|by apply earlier_more]. exists x. split; [done|]. split; [setoid_rewrite in_snoc; naive_solver|].
      split; [by apply earlier_more|]. apply earlier_last. by apply X2.
    + repeat setoid_rewrite in_snoc. naive_solver.
  - destruct main; try by apply Hsame. by apply Hother.
  - destruct main; by apply Hsame.
  - destruct main; try by apply Hsame. by apply Hother.
Qed.
Lemma main_step st o : test_inv st -> main_inv st -> main_inv (wk_do st o).
Proof.
  destruct st as [ready completed results main test log]. intros [HR HT] HM. cbn in HR, HT, HM.
  assert (forall z, (forall rc, z <> BLaunchEnd rc) -> (forall x, z <> BPost x) -> forall ready' test' results' completed',
    (completed = true -> completed' = true /\ results' = results) -> main_inv
    {| wk_ready := ready'; wk_completed := completed'; wk_results := results'; wk_main := main; wk_test := test'; wk_log := log ++ [z] |}) as Hother.
  { clear HR HT. intros z Z1 Z2 ready' test' results' completed' HC. rewrite /main_inv. cbn. destruct main as [| | |w]; 
    [destruct HM as [A B]; split; intros y; rewrite in_snoc; intros [H|H]; by [eapply A|eapply B|eapply Z1|eapply Z2]
    |destruct HM as [[rc A] B]; (split; [exists rc; rewrite in_snoc; by left|]); intros y; rewrite in_snoc; intros [H|H]; by [eapply B|eapply Z2]
    |destruct HM as (A & [rc B] & C); (split; [by apply HC|]); (split; [exists rc; rewrite in_snoc; by left|]); intros y; rewrite in_snoc; intros [H|H]; by [eapply C|eapply Z2]|].
    destruct HM as [[rc0 HM1] HM2]. split; [exists rc0; rewrite in_snoc; by left|].
    destruct w as [r| |]; [|intros y; rewrite in_snoc; naive_solver|]; cbn in HM2; destruct HM2 as (-> & rc & p & a & H1 & H2 & H3 & H4 & H5); destruct (HC eq_refl) as [-> ->]; (split; [done|]); exists rc, p, a;
      (split; [by apply earlier_more|]); (split; [intros y; rewrite in_snoc -H2; naive_solver|]); (split; [done|]); (split; [by apply earlier_more|done]). }
  assert (forall ready' test' results' completed', (completed = true -> completed' = true /\ results' = results) -> main_inv
    {| wk_ready := ready'; wk_completed := completed'; wk_results := results'; wk_main := main; wk_test := test'; wk_log := log |}) as Hsame.
  { clear HR HT. intros ready' test' results' completed' HC. rewrite /main_inv. cbn. destruct main as [| | |w]; [done|done|destruct HM as (A & B & C); split; [by apply HC|done]|]. destruct HM as [HM1 HM2]. split; [done|].
    destruct w; try done; cbn in HM2; destruct HM2 as (-> & rc & p & a & H1 & H2 & H3 & H4 & H5); destruct (HC eq_refl) as [-> ->]; (split; [done|]); by exists rc, p, a. }
  destruct o as [| | |x| | |rc| |x]; cbn [wk_do].
  - destruct main; try by apply Hsame. by apply Hother.
  - destruct main, test; by apply Hsame.
  - destruct test; try (by destruct main; apply Hsame). destruct ready; [|by destruct main; apply Hsame]. destruct main; by apply Hother.
  - destruct test; try (by destruct main; apply Hsame). destruct HT as (_ & -> & _). destruct main; by apply Hother.
  - destruct test; try (by destruct main; apply Hsame).
  - destruct test; try (by destruct main; apply Hsame). destruct main; by apply Hother.
  - destruct main; try by apply Hsame. rewrite /main_inv. cbn. destruct HM as [_ HM]. split; [exists rc; rewrite in_snoc; by right|]. intros y. rewrite in_snoc. intros [H|H]; [by eapply HM|done].
  - destruct main; try by apply Hsame. rewrite /main_inv. cbn. cbn in HM. destruct completed; by destruct HM.
  - destruct main; try by apply Hsame. cbn in HM. destruct HM as (-> & [rc Hrc] & HP).
    assert (exists a, results = tr_of <$> a /\ In (BActiveEnd a) log) as (a & -> & Ha).
    { destruct test; [by destruct HT as (_ & ? & _)|by destruct HT as (_ & ? & _)|by destruct HT as (? & _)|..]; destruct HT as [_ [(a & H1 & H2 & _) _]]; exists a; (split; [done|]); by apply H2. }
    rewrite /main_inv. cbn. split; [exists rc; rewrite in_snoc; by left|].
    assert (true = true /\ exists rc0 p a0, earlier (BLaunchEnd rc0) (BPost p) (log ++ [BPost x]) /\ (forall y, In (BPost y) (log ++ [BPost x]) <-> y = p) /\ tr_of <$> a = tr_of <$> a0 /\
      earlier (BActiveEnd a0) (BPost p) (log ++ [BPost x]) /\
      match x with Some l => match tr_of <$> a with Some r => WResults (tr_append r (tr_of l)) | None => WRaises end | None => WRaises end =
      match p, a0 with Some p, Some a => WResults (tr_of (a ++ p)) | _, _ => WRaises end) as HX.
    { split; [done|]. exists rc, x, a. split; [by apply earlier_last|]. split; [intros y; rewrite in_snoc; split; [intros [H|H]; [by apply HP in H|by injection H]|intros ->; by right]|]. split; [done|]. split; [by apply earlier_last|].
      destruct x as [x|], a as [a|]; try done. cbn. by rewrite tr_append_of. }
    destruct x as [x|], a as [a|]; exact HX.
Qed.
Lemma inv_law l : test_inv (wk_run l) /\ main_inv (wk_run l).
Proof.
  induction l as [|o l [I1 I2]] using rev_ind; [split; [split; [by split|]|]; cbn; naive_solver|]. rewrite wk_snoc. split; [by apply test_step|by apply main_step].
Qed.

Lemma verdict_law l r : wk_main (wk_run l) = MEnd (WResults r) ->
  exists a p rc, let log := wk_log (wk_run l) in
    earlier BReady BActive log /\ earlier BActive (BActiveEnd (Some a)) log /\ earlier (BActiveEnd (Some a)) (BPost (Some p)) log /\ earlier (BLaunchEnd rc) (BPost (Some p)) log /\
    (forall y, In (BActiveEnd y) log -> y = Some a) /\ (forall y, In (BPost y) log -> y = Some p) /\
    r = tr_of (a ++ p) /\ (tr_success r = true <-> all_good (a ++ p)).
Proof.
  intros HE. destruct (inv_law l) as [[_ HT] HM]. rewrite /main_inv HE in HM. destruct HM as (_ & HC & rc & p & a & H1 & H2 & H3 & H4 & H5).
  destruct p as [p|], a as [a|]; try done. injection H5 as ->. exists a, p, rc. cbn zeta.
  assert (exists x, wk_results (wk_run l) = tr_of <$> x /\ (forall y, In (BActiveEnd y) (wk_log (wk_run l)) <-> y = x) /\ earlier BActive (BActiveEnd x) (wk_log (wk_run l)) /\
    earlier BReady BActive (wk_log (wk_run l))) as (x & X1 & X2 & X3 & X4).
  { rewrite HC in HT. destruct (wk_test (wk_run l)); [by destruct HT as (_ & ? & _)|by destruct HT as (_ & ? & _)|by destruct HT as (? & _)|..];
      destruct HT as (_ & (x & X1 & X2 & X3) & X4); exists x; repeat split; try done; try apply X2; by destruct X3. }
  assert (x = Some a) as ->. { symmetry. apply X2. by eapply earlier_fst. }
  split; [done|]. split; [done|]. split; [done|]. split; [done|]. split; [intros y; by apply X2|]. split; [intros y; by apply H2|]. split; [done|]. apply success_law.
Qed.
Lemma died_law l : wk_main (wk_run l) = MEnd WDied -> (exists rc, In (BLaunchEnd rc) (wk_log (wk_run l))) /\ forall x, ~ In (BPost x) (wk_log (wk_run l)).
Proof. intros HE. destruct (inv_law l) as [_ HM]. by rewrite /main_inv HE in HM. Qed.
(** Whether the run died is decided when the main thread looks. *)
Lemma check_law l : wk_main (wk_run l) = MCheck -> (forall x, ~ In (BActiveEnd x) (wk_log (wk_run l))) -> wk_main (wk_run (l ++ [KCheck])) = MEnd WDied.
Proof.
  intros HE HN. rewrite wk_snoc. destruct (inv_law l) as [[_ HT] _]. destruct (wk_run l) as [ready completed results main test log]. cbn in HE, HN, HT |- *. subst main.
  destruct completed; [|done]. exfalso. destruct test; [by destruct HT as (_ & ? & _)|by destruct HT as (_ & ? & _)|by destruct HT as (? & _)|..];
    destruct HT as (_ & (x & _ & X2 & _) & _); apply (HN x); by apply X2.
Qed.
Lemma check_done_law l : wk_main (wk_run l) = MCheck -> (exists x, earlier (BActiveEnd x) BShutdown (wk_log (wk_run l))) -> wk_main (wk_run (l ++ [KCheck])) = MPost.
Proof.
  intros HE [x HX]. rewrite wk_snoc. destruct (inv_law l) as [[_ HT] _]. destruct (wk_run l) as [ready completed results main test log]. cbn in HE, HX, HT |- *. subst main.
  destruct completed; [done|]. exfalso. apply earlier_fst in HX as H1. apply earlier_snd in HX as H2.
  destruct test; [destruct HT as (_ & _ & HT & _); by eapply HT|destruct HT as (_ & _ & HT & _); by eapply HT|by destruct HT as (_ & _ & _ & HT)|destruct HT as (_ & _ & HT & _); by eapply HT|destruct HT as (_ & _ & HT & _); by eapply HT].
Qed.
Lemma raises_law l : wk_main (wk_run l) = MEnd WRaises -> In (BActiveEnd None) (wk_log (wk_run l)) \/ In (BPost None) (wk_log (wk_run l)).
Proof.
  intros HE. destruct (inv_law l) as [_ HM]. rewrite /main_inv HE in HM. destruct HM as (_ & HC & rc & p & a & H1 & H2 & H3 & H4 & H5).
  destruct p as [p|]; [|right; by apply H2]. destruct a as [a|]; [done|]. left. by eapply earlier_fst.
Qed.
(** The test thread: when it has ended, it has called shutdown, after the tests if they ran. *)
Lemma thread_law l : let st := wk_run l in
  match wk_test st with
  | TEnd => In BShutdown (wk_log st) /\ (In BActive (wk_log st) -> exists x, earlier BActive (BActiveEnd x) (wk_log st) /\ earlier (BActiveEnd x) BShutdown (wk_log st))
  | _ => ~ In BShutdown (wk_log st) /\ exists o, wk_test (wk_do st o) <> wk_test st
  end.
Proof.
  intros st. destruct (inv_law l) as [[_ HT] _]. fold st in HT.
  assert (forall o, wk_test st = TWait -> o = KTimeout -> wk_test (wk_do st o) <> TWait) as A1 by (intros o E ->; destruct st as [? ? ? [] [] ?]; cbn in *; done).
  assert (forall o, wk_test st = TRunning -> o = KActive None -> wk_test (wk_do st o) <> TRunning) as A2 by (intros o E ->; destruct st as [? ? ? [] [] ?]; cbn in *; done).
  assert (forall o, wk_test st = TSet -> o = KSet -> wk_test (wk_do st o) <> TSet) as A3 by (intros o E ->; destruct st as [? ? ? [] [] ?]; cbn in *; done).
  assert (forall o, wk_test st = TShut -> o = KShut -> wk_test (wk_do st o) <> TShut) as A4 by (intros o E ->; destruct st as [? ? ? [] [] ?]; cbn in *; done).
  destruct (wk_test st) eqn:E.
  - split; [by destruct HT as (_ & _ & _ & _ & ?)|]. exists KTimeout. by apply A1.
  - split; [by destruct HT as (_ & _ & _ & _ & ?)|]. exists (KActive None). by apply A2.
  - split; [by destruct HT as (_ & _ & _ & ?)|]. exists KSet. by apply A3.
  - split; [by destruct HT as (? & _)|]. exists KShut. by apply A4.
  - destruct HT as [H1 H2]. split; [done|]. intros HA. destruct (wk_completed st); [|by destruct H2 as (_ & _ & ?)].
    destruct H2 as [(x & _ & _ & X1 & X2) _]. by exists x.
Qed.

Lemma earlier_at x y log : earlier x y log -> exists i j, i < j /\ nth_error log i = Some x /\ nth_error log j = Some y.
Proof.
  intros (l1 & l2 & l3 & ->). exists (length l1), (length l1 + S (length l2)). split; [lia|]. split.
  - rewrite nth_error_app2; [lia|]. by rewrite Nat.sub_diag.
  - rewrite nth_error_app2; [lia|]. replace (length l1 + S (length l2) - length l1) with (S (length l2)) by lia. cbn. rewrite nth_error_app2; [lia|]. by rewrite Nat.sub_diag.
Qed.

(** ** All test runs *)
Lemma runner_none runs : runner_run runs = None <-> exists pre cases t post, runs = pre ++ (cases, t) :: post /\ raising t /\ forall c, ~ In (c, TWorks WDied) pre.
Proof.
  induction runs as [|[cases t] runs IH]; [split; [done|]; by intros ([|] & ? & ? & ? & ? & _)|].
  assert (t = TSkips \/ (exists r, t = TWorks (WResults r)) \/ t = TWorks WDied \/ raising t) as HC by (rewrite /raising; destruct t as [| |[| |]]; eauto 6).
  assert (t = TWorks WDied \/ raising t \/ (runner_run ((cases, t) :: runs) = None <-> runner_run runs = None) /\ t <> TWorks WDied /\ ~ raising t) as [->|[HR|(HN & H1 & H2)]].
  { destruct HC as [->|[[r ->]|[->|?]]]; [right; right|right; right|by left|right; by left];
      (split; [cbn; by destruct (runner_run runs)|split; [done|by intros [?|?]]]). }
  - split; [done|]. intros ([|x pre] & c & t & post & E & HR & HD); injection E as ? ?; subst.
    + by destruct HR.
    + exfalso. apply (HD cases). by left.
  - split; [|by destruct HR as [->| ->]]. intros _. exists [], cases, t, runs. split; [done|]. split; [done|]. by intros c [].
  - rewrite HN IH. split.
    + intros (pre & c & t' & post & -> & HR & HD). exists ((cases, t) :: pre), c, t', post. split; [done|]. split; [done|]. intros d [[= _ ?]|?]; [done|by eapply HD].
    + intros ([|x pre] & c & t' & post & E & HR & HD); injection E as ? ?; subst; [done|]. exists pre, c, t', post. split; [done|]. split; [done|]. intros d Hd. apply (HD d). by right.
Qed.
Lemma exit_zero runs : exit_code runs = 0%Z <-> forall cases t, In (cases, t) runs -> good_run t.
Proof.
  rewrite /exit_code. induction runs as [|[cases t] runs IH].
  { split; [by intros _ c t []|done]. }
  destruct t as [| |[r| |]]; cbn.
  - destruct (runner_run runs) as [rs|] eqn:E; cbn; (split; [intros H c t [[= <- <-]|Hin]; [by left|]; by eapply IH|]);
      intros H; apply IH; intros c t Hin; apply (H c t); by right.
  - split; [done|]. intros H. destruct (H cases TBroken) as [?|[? [? _]]]; [by left|done|done].
  - destruct (runner_run runs) as [rs|] eqn:E; cbn.
    + split.
      * destruct (tr_success r) eqn:Er; [|done]. cbn. intros H c t [[= <- <-]|Hin]; [right; by exists r|]. by eapply IH.
      * intros H. destruct (H cases (TWorks (WResults r))) as [?|(r' & [= <-] & ->)]; [by left|done|]. cbn. apply IH. intros c t Hin. apply (H c t). by right.
    + split; [done|]. intros H. exfalso. assert (2 = 0)%Z; [|done]. apply IH. intros c t Hin. apply (H c t). by right.
  - split; [done|]. intros H. destruct (H cases (TWorks WDied)) as [?|[? [? _]]]; [by left|done|done].
  - split; [done|]. intros H. destruct (H cases (TWorks WRaises)) as [?|[? [? _]]]; [by left|done|done].
Qed.
Lemma exit_two runs : exit_code runs = 2%Z <-> exists pre cases t post, runs = pre ++ (cases, t) :: post /\ raising t /\ forall c, ~ In (c, TWorks WDied) pre.
Proof. rewrite -runner_none /exit_code. destruct (runner_run runs); [|done]. split; [by case_match|done]. Qed.
Lemma exit_codes runs : exit_code runs = 0%Z \/ exit_code runs = 1%Z \/ exit_code runs = 2%Z.
Proof. rewrite /exit_code. destruct (runner_run runs); [case_match|]; eauto. Qed.
(** The results. *)
Lemma results_law runs rs : runner_run runs = Some rs ->
  exists done_ rest, runs = done_ ++ rest /\ map Some rs = map result_of done_ /\
    (rest = [] \/ exists pre cases, done_ = pre ++ [(cases, TWorks WDied)]) /\ forall pre x post, done_ = pre ++ x :: post -> snd x = TWorks WDied -> post = [].
Proof.
  revert rs. induction runs as [|[cases t] runs IH]; intros rs.
  { intros [= <-]. exists [], []. split; [done|]. split; [done|]. split; [by left|]. by intros [|]. }
  assert (t = TWorks WDied -> runner_run ((cases, t) :: runs) = Some rs -> exists done_ rest, (cases, t) :: runs = done_ ++ rest /\ map Some rs = map result_of done_ /\
    (rest = [] \/ exists pre cases, done_ = pre ++ [(cases, TWorks WDied)]) /\ forall pre x post, done_ = pre ++ x :: post -> snd x = TWorks WDied -> post = []) as HD.
  { intros -> [= <-]. exists [(cases, TWorks WDied)], runs. split; [done|]. split; [done|]. split; [right; by exists [], cases|]. intros [|? [|]] x post [=]; done. }
  assert (forall r, result_of (cases, t) = Some r -> t <> TWorks WDied -> runner_run ((cases, t) :: runs) = cons r <$> runner_run runs -> runner_run ((cases, t) :: runs) = Some rs ->
    exists done_ rest, (cases, t) :: runs = done_ ++ rest /\ map Some rs = map result_of done_ /\
    (rest = [] \/ exists pre cases, done_ = pre ++ [(cases, TWorks WDied)]) /\ forall pre x post, done_ = pre ++ x :: post -> snd x = TWorks WDied -> post = []) as HC.
  { intros r Hr Ht -> HR. destruct (runner_run runs) as [rs'|]; [|done]. injection HR as <-. destruct (IH rs' eq_refl) as (d & rest & -> & E1 & E2 & E3).
    exists ((cases, t) :: d), rest. split; [done|]. split; [cbn [map]; by rewrite E1 -Hr|]. split.
    - destruct E2 as [E2|(pre & c & ->)]; [by left|right]. by exists ((cases, t) :: pre), c.
    - intros [|y pre] x post E Hx; injection E as ? ?; subst; [done|]. by eapply E3. }
  destruct t as [| |[r| |]]; [by apply (HC (skip_result cases))|done|by apply (HC r)|by apply HD|done].
Qed.

(** ** The report *)

Lemma firsts_nodup l : NoDup (first_actions l).
Proof.
  rewrite -keys_firsts. induction l as [|t l IH] using rev_ind; [constructor|]. rewrite keys_snoc /add_key. destruct (existsb (Nat.eqb t) (keys_from [] l)) eqn:E; [done|].
  apply NoDup_app. split; [done|]. split; [|by apply NoDup_singleton]. intros x Hx ->%elem_of_list_singleton.
  apply elem_of_list_In, existsb_in in Hx. congruence.
Qed.
Lemma firsts_in l x : In x (first_actions l) <-> In x l.
Proof. rewrite -keys_firsts keys_in /=. naive_solver. Qed.
Lemma filter_eq_dup t l : List.filter (Nat.eqb t) l = repeat t (length (List.filter (Nat.eqb t) l)).
Proof. induction l as [|x l IH]; [done|]. cbn. destruct (Nat.eqb_spec t x) as [<-|?]; [cbn; by f_equal|done]. Qed.
(** Collecting a list by the different elements it can have gives a permutation. *)
Lemma collect_perm ks l : NoDup ks -> (forall x, In x l -> In x ks) -> flat_map (fun t => List.filter (Nat.eqb t) l) ks ≡ₚ l.
Proof.
  intros Hk. revert l. induction Hk as [|t ks Ht Hk IH]; intros l Hl.
  { destruct l as [|x l]; [done|]. destruct (Hl x). by left. }
  cbn. assert (forall ks', ~ In t ks' -> flat_map (fun t => List.filter (Nat.eqb t) l) ks' = flat_map (fun t' => List.filter (Nat.eqb t') (List.filter (fun x => negb (Nat.eqb t x)) l)) ks') as Hsame.
  { induction ks' as [|k ks' IH']; intros Hin; [done|]. cbn. rewrite IH'; [intros ?; apply Hin; by right|]. f_equal.
    assert (t <> k) as Hne by (intros ->; apply Hin; by left). clear -Hne. induction l as [|x l IH]; [done|]. cbn.
    destruct (Nat.eqb_spec t x) as [<-|?]; cbn.
    - destruct (Nat.eqb_spec k t) as [?|?]; [congruence|done].
    - destruct (Nat.eqb_spec k x) as [<-|?]; [by f_equal|done]. }
  rewrite Hsame; [by rewrite -elem_of_list_In|]. rewrite IH.
  - intros x Hx. apply filter_In in Hx as [Hx Hn]. destruct (Hl x Hx) as [<-|?]; [|done]. by rewrite Nat.eqb_refl in Hn.
  - clear. induction l as [|x l IH]; [done|]. cbn. destruct (Nat.eqb t x); cbn; [by rewrite IH|]. rewrite -Permutation_middle. by rewrite IH.
Qed.
Lemma kind_map (f : xkind -> list nat) c t l : f c = [t] -> flat_map f (map (fun _ => c) (List.filter (Nat.eqb t) l)) = List.filter (Nat.eqb t) l.
Proof. intros Hf. induction l as [|x l IH]; [done|]. cbn. destruct (Nat.eqb_spec t x) as [<-|?]; [|done]. cbn. by rewrite Hf IH. Qed.
Lemma kind_map_nil (f : xkind -> list nat) c (l : list nat) : f c = [] -> flat_map f (map (fun _ => c) l) = [].
Proof. intros Hf. induction l as [|x l IH]; [done|]. cbn. by rewrite Hf IH. Qed.
Lemma of_kind_law k r : of_kind k (suite_xml r) = flat_map (fun t => List.filter (Nat.eqb t) (match k with KFailure => tr_failures r | KError => tr_errors r | KSkipped => tr_skipped r end)) (tr_cases r).
Proof.
  rewrite /of_kind. cbn. induction (tr_cases r) as [|t l IH]; [done|]. cbn. rewrite IH. f_equal. clear.
  rewrite !flat_map_app. destruct k.
  - rewrite kind_map // !kind_map_nil // !app_nil_r //.
  - rewrite kind_map_nil // kind_map // kind_map_nil // !app_nil_r //.
  - rewrite kind_map_nil // kind_map_nil // kind_map //.
Qed.
Lemma suite_law l : let s := suite_xml (tr_of l) in
  map xc_case (xs_cases s) = first_actions (starts l) /\ xs_tests s = length (starts l) /\
  xs_failures s = length (with_outcome OFailure l) /\ xs_errors s = length (with_outcome OError l) /\ xs_skipped s = length (with_outcome OSkip l) /\
  forall k, of_kind k s ≡ₚ List.filter (fun t => existsb (Nat.eqb t) (starts l)) (with_outcome (outcome_of k) l).
Proof.
  cbn zeta. destruct (tr_of_law l) as (H1 & H2 & H3 & H4 & H5 & _). cbn [xs_cases suite_xml xs_tests xs_failures xs_errors xs_skipped].
  rewrite map_map map_id H2 H3 H4 H5. do 5 (split; [done|]). intros k. rewrite of_kind_law H1.
  assert ((match k with KFailure => tr_failures (tr_of l) | KError => tr_errors (tr_of l) | KSkipped => tr_skipped (tr_of l) end) = with_outcome (outcome_of k) l) as -> by by destruct k.
  rewrite -(collect_perm (first_actions (starts l)) (List.filter _ _)).
  - apply firsts_nodup.
  - intros x Hx. apply filter_In in Hx as [_ Hx]. apply firsts_in. by apply existsb_in.
  - apply reflexive_eq. rewrite !flat_map_concat_map. f_equal. apply map_ext_in. intros t Ht. rewrite firsts_in -existsb_in in Ht.
    induction (with_outcome (outcome_of k) l) as [|x w IH]; [done|]. cbn. destruct (Nat.eqb_spec t x) as [<-|Hne].
    + rewrite Ht. cbn. rewrite Nat.eqb_refl. by f_equal.
    + destruct (existsb (Nat.eqb x) (starts l)); [|done]. cbn. by destruct (Nat.eqb_spec t x).
Qed.
Lemma kinds_law k l : (forall t, In (RGot (outcome_of k) t) l -> In (RStarted t) l) -> of_kind k (suite_xml (tr_of l)) ≡ₚ with_outcome (outcome_of k) l.
Proof.
  intros H. destruct (suite_law l) as (_ & _ & _ & _ & _ & Hk). rewrite Hk. apply reflexive_eq.
  assert (forall w, (forall x, In x w -> existsb (Nat.eqb x) (starts l) = true) -> List.filter (fun t => existsb (Nat.eqb t) (starts l)) w = w) as Hf.
  { induction w as [|x w IH]; intros Hw; [done|]. cbn. rewrite (Hw x); [by left|]. f_equal. apply IH. intros y Hy. apply Hw. by right. }
  apply Hf. intros x Hx. apply existsb_in. apply with_outcome_in, H in Hx. rewrite -elem_of_list_In /starts elem_of_list_omap. exists (RStarted x). split; [|done]. by apply elem_of_list_In.
Qed.
Lemma fold_sum {A} (f : A -> nat) l n : fold_left (fun n x => n + f x) l n = n + list_sum (map f l).
Proof. revert n. induction l as [|x l IH]; intros n; [cbn; lia|]. cbn [fold_left map]. rewrite IH. change (list_sum (f x :: map f l)) with (f x + list_sum (map f l)). lia. Qed.
Lemma report_law rs : let x := report_xml rs in
  xr_suites x = map suite_xml rs /\ xr_tests x = list_sum (map xs_tests (xr_suites x)) /\ xr_failures x = list_sum (map xs_failures (xr_suites x)) /\ xr_errors x = list_sum (map xs_errors (xr_suites x)).
Proof. cbn zeta. cbn [xr_suites report_xml xr_tests xr_failures xr_errors]. rewrite !fold_sum !map_map. done. Qed.
(** A run that died or was skipped. *)
Lemma fail_suite cases : NoDup cases -> let s := suite_xml (fail_result cases) in
  map xc_case (xs_cases s) = cases /\ xs_tests s = length cases /\ xs_failures s = length cases /\ xs_errors s = 0 /\ xs_skipped s = 0 /\ forall c, In c (xs_cases s) -> xc_elements c = [KFailure].
Proof.
  intros Hn. cbn. rewrite map_map map_id. do 5 (split; [done|]). intros c [t [<- Ht]]%in_map_iff. cbn. rewrite app_nil_r.
  induction Hn as [|x l Hx Hn IH]; [done|]. cbn. destruct (Nat.eqb_spec t x) as [->|Hne].
  - cbn. f_equal. clear IH Hn Ht. induction l as [|y l IH]; [done|]. cbn. destruct (Nat.eqb_spec x y) as [->|?]; [destruct Hx; by left|]. apply IH. intros ?. apply Hx. by right.
  - apply IH. by destruct Ht.
Qed.
Lemma skip_suite cases : NoDup cases -> let s := suite_xml (skip_result cases) in
  map xc_case (xs_cases s) = cases /\ xs_tests s = length cases /\ xs_failures s = 0 /\ xs_errors s = 0 /\ xs_skipped s = length cases /\ forall c, In c (xs_cases s) -> xc_elements c = [KSkipped].
Proof.
  intros Hn. cbn. rewrite map_map map_id. do 5 (split; [done|]). intros c [t [<- Ht]]%in_map_iff. cbn.
  induction Hn as [|x l Hx Hn IH]; [done|]. cbn. destruct (Nat.eqb_spec t x) as [->|Hne].
  - cbn. f_equal. clear IH Hn Ht. induction l as [|y l IH]; [done|]. cbn. destruct (Nat.eqb_spec x y) as [->|?]; [destruct Hx; by left|]. apply IH. intros ?. apply Hx. by right.
  - apply IH. by destruct Ht.
Qed.

(** ** Arguments *)
Lemma starts_sep s : starts_with ":=" s = true <-> exists v, s = (sep ++ v)%string.
Proof.
  destruct s as [|a [|b s]]; cbn [starts_with].
  - split; [done|by intros [v ?]].
  - split; [by destruct (Ascii.eqb ":" a)|]. by intros [v ?].
  - destruct (Ascii.eqb_spec ":" a) as [<-|Ha]; [|split; [done|intros [v E]; injection E as ? ? ?; congruence]].
    destruct (Ascii.eqb_spec "=" b) as [<-|Hb]; [|split; [done|intros [v E]; injection E as ? ?; congruence]]. split; [by exists s|done].
Qed.
Lemma no_sep_cons a k : ~ name_contains sep (String a k) <-> (starts_with ":=" (String a k) = false /\ ~ name_contains sep k).
Proof.
  rewrite -not_true_iff_false starts_sep. split.
  - intros H. split; [intros [v Hv]; apply H; by exists "", v|intros (x & y & ->); apply H; by exists (String a x), y].
  - intros [H1 H2] ([|b x] & y & E); [apply H1; by exists y|]. injection E as -> ->. apply H2. by exists x, y.
Qed.
(** A name without a separator cannot begin one together with what follows. *)
Lemma starts_app a k v : starts_with ":=" (String a k ++ sep ++ v) = starts_with ":=" (String a k).
Proof.
  destruct k as [|b k]; [|done]. change ((if Ascii.eqb ":" a then false else false) = (if Ascii.eqb ":" a then false else false)). done.
Qed.
Lemma split_arg_law a k v : split_arg a = Some (k, v) <-> a = (k ++ sep ++ v)%string /\ ~ name_contains sep k.
Proof.
  revert k v. induction a as [|c a IH]; intros k v.
  { split; [done|]. intros [E _]. by destruct k. }
  cbn [split_arg]. destruct (starts_with ":=" (String c a)) eqn:Es.
  - apply starts_sep in Es as [w Ew]. rewrite Ew. cbn [drop_str sep append]. split.
    + intros [= <- <-]. split; [done|]. intros ([|] & ? & ?); done.
    + intros [E Hn]. destruct k as [|b k]; [by injection E as ->|]. exfalso. apply no_sep_cons in Hn as [Hn _].
      rewrite -(starts_app b k v) -E in Hn. done.
  - split.
    + destruct (split_arg a) as [[k' v']|] eqn:E; [|done]. intros [= <- <-]. destruct (IH k' v') as [IH' _]. destruct (IH' eq_refl) as [-> Hn]. cbn. split; [done|]. apply no_sep_cons. split; [|done].
      rewrite -(starts_app c k' v'). done.
    + intros [E Hn]. destruct k as [|b k]; [injection E as -> ->; done|]. injection E as -> ->. apply no_sep_cons in Hn as [_ Hn].
      assert (split_arg (k ++ sep ++ v)%string = Some (k, v)) as Hs by by apply IH. cbn [append] in Hs |- *. by rewrite Hs.
Qed.
Lemma count_zero a : count_sep a = 0 <-> ~ name_contains sep a.
Proof.
  induction a as [|c a IH]; [split; [|done]; by intros _ ([|] & ? & ?)|]. cbn [count_sep]. rewrite no_sep_cons -IH. destruct (starts_with ":=" (String c a)); split; intros; [lia|by destruct H|by split|by destruct H].
Qed.
Lemma count_app k v : ~ name_contains sep k -> count_sep (k ++ sep ++ v) = S (count_sep v).
Proof.
  induction k as [|c k IH]; intros Hn; [done|]. apply no_sep_cons in Hn as [H1 H2]. change ((String c k ++ sep ++ v)%string) with (String c (k ++ sep ++ v)%string). cbn [count_sep].
  change (String c (k ++ sep ++ v)%string) with ((String c k ++ sep ++ v)%string). by rewrite starts_app H1 IH.
Qed.
Lemma drop_app x y : drop_str (String.length x) (x ++ y)%string = y.
Proof. by induction x. Qed.
Lemma split_at n s : n <= String.length s -> exists x, s = (x ++ drop_str n s)%string /\ String.length x = n.
Proof.
  revert s. induction n as [|n IH]; intros s Hn; [exists ""; by destruct s|]. destruct s as [|c s]; [cbn in Hn; lia|]. destruct (IH s) as (x & E & Hx); [cbn in Hn; lia|].
  exists (String c x). split; [|cbn; by rewrite Hx]. change (String c s = String c (x ++ drop_str n s)%string). by rewrite -E.
Qed.
Lemma ends_sep a : ends_with ":=" a = true <-> exists x, a = (x ++ sep)%string.
Proof.
  rewrite /ends_with. cbn [String.length]. split.
  - destruct (2 <=? String.length a) eqn:E; [|done]. intros H%String.eqb_eq. apply Nat.leb_le in E.
    destruct (split_at (String.length a - 2) a) as (x & Ex & _); [lia|]. exists x. by rewrite Ex H.
  - intros [x ->]. rewrite str_app_length. cbn [sep String.length]. replace (2 <=? String.length x + 2) with true by (symmetry; apply Nat.leb_le; lia).
    replace (String.length x + 2 - 2) with (String.length x) by lia. by rewrite drop_app.
Qed.
Lemma ends_value k v : k <> "" -> count_sep v = 0 -> ends_with ":=" (k ++ sep ++ v) = true -> v = "".
Proof.
  intros _ Hv (x & E)%ends_sep. destruct v as [|a [|b v]]; [done|exfalso..].
  - assert ((k ++ ":") ++ String "=" (String a "") = x ++ ":=")%string as E'. { rewrite -E str_app_assoc. done. }
    apply str_app_split_r in E' as [_ E']; [|done]. done.
  - apply count_zero in Hv. apply Hv. assert (2 <= String.length (String a (String b v))) as Hlen by (cbn [String.length]; lia).
    set (w := String a (String b v)) in *. clearbody w. destruct (split_at (String.length w - 2) w) as (y & Ey & Hy); [lia|].
    set (t := drop_str _ _) in Ey. clearbody t. subst w. rewrite str_app_length in Hlen Hy.
    exists y, "". rewrite -!str_app_assoc in E. apply str_app_split_r in E as [_ ->]; [by rewrite str_app_nil|]. change (String.length sep) with 2. lia.
Qed.
(** Whether an argument is accepted. *)
Definition arg_of (a : string) : option (string * string) :=
  let n := count_sep a in if (n =? 0) || starts_with ":=" a || ((n =? 1) && ends_with ":=" a) then None else split_arg a.
Lemma arg_of_law a k v : arg_of a = Some (k, v) <-> argument a k v.
Proof.
  rewrite /arg_of /argument. cbn zeta. split.
  - destruct (count_sep a =? 0) eqn:E0; [done|]. destruct (starts_with ":=" a) eqn:E1; [done|]. cbn [orb]. destruct ((count_sep a =? 1) && _) eqn:E2; [done|]. intros H.
    apply split_arg_law in H as [-> Hn]. split; [done|]. split; [intros ->; cbn in E1; done|]. split; [|done]. intros ->. rewrite count_app in E2; [done|].
    cbn [count_sep] in E2. assert (ends_with ":=" (k ++ sep ++ "") = true) as He; [apply ends_sep; by exists k; rewrite str_app_nil|]. by rewrite He in E2.
  - intros (-> & Hk & Hv & Hn). rewrite count_app; [done|]. cbn [Nat.eqb orb]. destruct (starts_with ":=" (k ++ sep ++ v)) eqn:E1.
    { exfalso. destruct k as [|c k]; [done|]. rewrite starts_app in E1. apply no_sep_cons in Hn as [Hn _]. congruence. }
    cbn [orb]. destruct (Nat.eqb_spec (count_sep v) 0) as [H0|H0]; cbn [andb].
    + destruct (ends_with ":=" (k ++ sep ++ v)) eqn:E2; [by apply ends_value in E2|]. by apply split_arg_law.
    + by apply split_arg_law.
Qed.
Lemma parse_cons d a l : parse_args_from d (a :: l) = match arg_of a with Some (k, v) => parse_args_from (od_set k v d) l | None => None end.
Proof. rewrite /arg_of. cbn [parse_args_from]. cbv zeta. by destruct ((count_sep a =? 0) || _ || _). Qed.
Lemma parse_none l d : parse_args_from d l = None <-> exists a, In a l /\ forall k v, ~ argument a k v.
Proof.
  revert d. induction l as [|a l IH]; intros d; [split; [done|by intros (? & [] & _)]|]. rewrite parse_cons. destruct (arg_of a) as [[k v]|] eqn:E.
  - rewrite IH. apply arg_of_law in E. split; [intros (b & Hb & Hn); exists b; split; [by right|done]|]. intros (b & [<-|Hb] & Hn); [by destruct (Hn k v)|by exists b].
  - split; [|done]. intros _. exists a. split; [by left|]. intros k v H%arg_of_law. congruence.
Qed.
Definition od_keys (d : list (string * string)) : list string := map fst d.
Fixpoint od_get (k : string) (d : list (string * string)) : option string :=
  match d with [] => None | (k', v) :: d' => if String.eqb k' k then Some v else od_get k d' end.
Lemma od_set_get k v d x : od_get x (od_set k v d) = if String.eqb k x then Some v else od_get x d.
Proof.
  induction d as [|[k' v'] d IH]; [done|]. cbn. destruct (String.eqb_spec k' k) as [->|Hne]; cbn; [by destruct (String.eqb k x)|].
  rewrite IH. destruct (String.eqb_spec k' x) as [->|?]; [|done]. destruct (String.eqb_spec k x) as [->|?]; done.
Qed.
Lemma od_set_keys k v d : od_keys (od_set k v d) = if existsb (String.eqb k) (od_keys d) then od_keys d else od_keys d ++ [k].
Proof.
  rewrite /od_keys. induction d as [|[k' v'] d IH]; [done|]. cbn. rewrite String.eqb_sym. destruct (String.eqb_spec k k') as [->|Hne]; cbn; [done|].
  rewrite IH. by destruct (existsb _ _).
Qed.
Lemma parse_some l d r : parse_args_from d l = Some r <-> exists kvs, Forall2 (fun a kv => argument a (fst kv) (snd kv)) l kvs /\ r = fold_left (fun d kv => od_set (fst kv) (snd kv) d) kvs d.
Proof.
  revert d. induction l as [|a l IH]; intros d.
  { split; [intros [= <-]; by exists []|]. intros (kvs & H & ->). by inversion H. }
  rewrite parse_cons. split.
  - destruct (arg_of a) as [[k v]|] eqn:E; [|done]. intros (kvs & H & ->)%IH. exists ((k, v) :: kvs). split; [|done]. constructor; [by apply arg_of_law|done].
  - intros (kvs & H & ->). inversion H as [|? [k v] ? kvs' Ha Hl]; subst. apply arg_of_law in Ha. cbn in Ha. rewrite Ha. apply IH. by exists kvs'.
Qed.
Lemma fold_get kvs d x : od_get x (fold_left (fun d kv => od_set (fst kv) (snd kv) d) kvs d) = match last_value x kvs with Some v => Some v | None => od_get x d end.
Proof.
  revert d. induction kvs as [|[k v] kvs IH]; intros d; [done|]. cbn. rewrite IH od_set_get. destruct (last_value x kvs); [done|]. by destruct (String.eqb k x).
Qed.
Lemma fold_keys kvs : od_keys (fold_left (fun d kv => od_set (fst kv) (snd kv) d) kvs []) = first_names (map fst kvs).
Proof.
  induction kvs as [|[k v] kvs IH] using rev_ind; [done|]. rewrite fold_left_app map_app. cbn [fold_left map fst snd].
  rewrite od_set_keys /first_names (firsts_snoc String.eqb seqb) -/(first_names _) -IH. cbn [app].
  assert (existsb (String.eqb k) (od_keys (fold_left (fun d kv => od_set (fst kv) (snd kv) d) kvs [])) = existsb (String.eqb k) (map fst kvs)) as ->.
  { apply eq_true_iff_eq. rewrite !(TestingFacts.existsb_in String.eqb seqb) IH /first_names (TestingFacts.firsts_in String.eqb seqb). naive_solver. }
  destruct (existsb _ _); by rewrite ?app_nil_r.
Qed.
Lemma args_law l r : parse_args l = Some r <-> exists kvs, Forall2 (fun a kv => argument a (fst kv) (snd kv)) l kvs /\
  r = map (fun k => (k, default "" (last_value k kvs))) (first_names (map fst kvs)).
Proof.
  rewrite /parse_args parse_some. assert (forall kvs, fold_left (fun d kv => od_set (fst kv) (snd kv) d) kvs [] = map (fun k => (k, default "" (last_value k kvs))) (first_names (map fst kvs))) as H;
    [|split; intros (kvs & ? & E); exists kvs; by rewrite E H]. 
  intros kvs. rewrite -fold_keys. assert (forall x, last_value x kvs = od_get x (fold_left (fun d kv => od_set (fst kv) (snd kv) d) kvs [])) as Hg.
  { intros x. rewrite fold_get. by destruct (last_value x kvs). }
  assert (NoDup (od_keys (fold_left (fun d kv => od_set (fst kv) (snd kv) d) kvs []))) as Hn. { rewrite fold_keys. apply (TestingFacts.firsts_nodup String.eqb seqb). }
  set (d := fold_left _ _ _) in *. rewrite (map_ext _ (fun k => (k, default "" (od_get k d)))); [intros k; by rewrite Hg|]. clear Hg. revert Hn. clearbody d. clear.
  induction d as [|[k v] d IH]; intros Hn; [done|]. cbn. rewrite String.eqb_refl. cbn. f_equal. inversion Hn as [|? ? Hk Hd]; subst. rewrite {1}IH; [done|].
  apply map_ext_in. intros x Hx. destruct (String.eqb_spec k x) as [->|?]; [|done]. destruct Hk. by apply elem_of_list_In.
Qed.
Lemma last_in x kvs : In x (map fst kvs) -> is_Some (last_value x kvs).
Proof.
  induction kvs as [|[k v] kvs IH]; [done|]. cbn. intros [->|Hin]; [destruct (last_value x kvs); [by eexists|]; by rewrite String.eqb_refl|].
  destruct (IH Hin) as [y ->]. by eexists.
Qed.
Lemma args_values_law l r : parse_args l = Some r <-> exists kvs, Forall2 (fun a kv => argument a (fst kv) (snd kv)) l kvs /\
  map fst r = first_names (map fst kvs) /\ Forall (fun kv => last_value (fst kv) kvs = Some (snd kv)) r.
Proof.
  rewrite args_law. split; intros (kvs & H & E); exists kvs; (split; [done|]).
  - subst r. split; [by rewrite map_map map_id|]. apply Forall_forall. intros kv (k' & <- & Hk)%elem_of_list_In%in_map_iff. cbn.
    destruct (last_in k' kvs) as [y ->]; [|done]. apply (TestingFacts.firsts_in String.eqb seqb) in Hk as [Hk _]. done.
  - destruct E as [<- HF]. rewrite map_map. induction HF as [|[k v] r Hkv HF IH]; [done|]. cbn. f_equal; [|done]. cbn in Hkv. by rewrite Hkv.
Qed.
Lemma args_none_law l : parse_args l = None <-> exists a, In a l /\ forall k v, ~ argument a k v.
Proof. apply parse_none. Qed.
