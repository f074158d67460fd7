(** Lemmas about tests that are retried. *)
From Coq Require Import ssreflect.
From Verif Require Import SpecRetry.

Lemma deciding_ex times calls : 0 < times -> exists k, deciding times calls k.
Proof.
  intros Ht. assert (H : forall n, n <= times -> (forall j, j < n -> fails (calls j)) \/ exists k, deciding times calls k).
  { induction n as [|n IH]; intros Hn; [left; lia|]. destruct IH as [H|H]; [lia| |by right].
    assert (Hd : fails (calls n) \/ ~ fails (calls n)).
    { rewrite /fails. destruct (at_end (calls n)) as [v| |e]; [|by left; left|right; intros [?|(_ & ? & ?)]; done].
      destruct (at_subs (calls n)); [right; intros [?|[? _]]; done|left; right; split; [done|by exists v]]. }
    destruct Hd as [Hd|Hd]; [|right; exists n; split; [lia|]; split; [done|]; intros ?; done].
    destruct (decide (S n = times)) as [<-|Hne]; [right; exists n; split; [lia|]; by split|]. left. intros j Hj. destruct (decide (j = n)) as [->|]; [done|apply H; lia]. }
  destruct (H times) as [HF|?]; [lia| |done]. exists (times - 1). split; [lia|]. split; [intros j ?; apply HF; lia|lia].
Qed.
Lemma deciding_unique times calls k k' : deciding times calls k -> deciding times calls k' -> k = k'.
Proof.
  intros (H1 & H2 & H3) (H1' & H2' & H3'). destruct (Nat.lt_trichotomy k k') as [H|[H|H]]; [|done|]; [assert (S k = times) by (apply H3, H2', H)|assert (S k' = times) by (apply H3', H2, H)]; lia.
Qed.
Lemma fails_not_raises a : fails a -> forall e, at_end a <> CRaises e.
Proof. intros [->|(_ & v & ->)] e; done. Qed.

Section retry.
Context (old : bool) (t : nat) (delay : bool) (calls : nat -> attempt).
Notation wrapper := (wrapper old t delay calls).
Definition settled (o : ostate) : Prop := os_success o = true /\ os_waiting o = [].
(** The state after the calls [k], ..., [k + j - 1], which fail. *)
Fixpoint after (k j : nat) (o : ostate) : ostate :=
  match j with 0 => o | S j' => after (S k) j' (forgive old (report_subs old t (at_subs (calls k)) o)) end.
Lemma wrapper_law j : forall n k o, os_success o = true -> j <= n -> (forall i, i < j -> fails (calls (k + i))) -> (fails (calls (k + j)) -> j = n) ->
  wrapper n k o = {| rt_calls := S (k + j); rt_sleeps := if delay then k + j else 0; rt_end := at_end (calls (k + j)); rt_state := report_subs old t (at_subs (calls (k + j))) (after k j o) |}.
Proof.
  induction j as [|j IH]; intros n k o Ho Hj Hf Hd.
  - rewrite !Nat.add_0_r in Hd |- *. cbn [after]. destruct n as [|n]; [done|]. cbn [Retry.wrapper]. destruct (at_end (calls k)) as [v| |e] eqn:E; [|by specialize (Hd (or_introl E))|done].
    destruct (at_subs (calls k)) eqn:Es; [by rewrite /= Ho|]. exfalso. assert (0 = S n); [|done]. apply Hd. right. rewrite Es E. split; [done|by exists v].
  - destruct n as [|n]; [lia|]. cbn [Retry.wrapper]. assert (H0 : fails (calls k)) by (rewrite -(Nat.add_0_r k); apply Hf; lia).
    assert (Hs : os_success (forgive old (report_subs old t (at_subs (calls k)) o)) = true) by (rewrite /forgive; by destruct old).
    assert (E : wrapper n (S k) (forgive old (report_subs old t (at_subs (calls k)) o)) =
      {| rt_calls := S (k + S j); rt_sleeps := if delay then k + S j else 0; rt_end := at_end (calls (k + S j)); rt_state := report_subs old t (at_subs (calls (k + S j))) (after k (S j) o) |}).
    { rewrite (IH n (S k)); [done|lia| | |].
      - intros i Hi. replace (S k + i) with (k + S i) by lia. apply Hf. lia.
      - replace (S k + j) with (k + S j) by lia. intros ?. assert (S j = S n) by (by apply Hd). lia.
      - replace (S k + j) with (k + S j) by lia. done. }
    destruct H0 as [H0|(Hne & v & H0)]; rewrite H0; [done|]. destruct (at_subs (calls k)) as [|b l] eqn:Es; [done|].
    cbn [report_subs]. by destruct old.
Qed.
Lemma after_settled j : forall k o, settled o -> settled (after k j o).
Proof.
  induction j as [|j IH]; intros k o H; [done|]. cbn [after]. apply IH. rewrite /forgive /report_subs. destruct H as [H1 H2]. destruct old; [done|]. split; [done|]. by destruct (at_subs (calls k)).
Qed.
Lemma after_old j : old = true -> forall k o, os_result (after k j o) = os_result o.
Proof.
  intros Ho. induction j as [|j IH]; intros k o; [done|]. cbn [after]. rewrite IH /forgive /report_subs Ho. by destruct (at_subs (calls k)).
Qed.
Lemma do_subs_result l r : tr_cases (fold_left tr_do (map (sub_report t) l) r) = tr_cases r /\ tr_run (fold_left tr_do (map (sub_report t) l) r) = tr_run r.
Proof. revert r. induction l as [|b l IH]; intros r; [done|]. cbn [map fold_left]. destruct (IH (tr_do r (sub_report t b))) as [-> ->]. done. Qed.
Lemma end_reports (o : ostate) a : settled o ->
  forall calls' sl, test_end old t {| rt_calls := calls'; rt_sleeps := sl; rt_end := at_end a; rt_state := report_subs old t (at_subs a) o |} = fold_left tr_do (reports t a) (os_result o).
Proof.
  intros [_ Hw] c s. rewrite /test_end /reports fold_left_app. cbn [rt_state rt_end]. rewrite /report_subs. destruct (at_subs a) as [|b l]; cbn [map].
  - rewrite Hw. by destruct old, (at_end a).
  - destruct old; cbn [os_waiting os_result]; rewrite ?Hw; by destruct (at_end a).
Qed.
(** Since 3.11: the failures of all calls stay. *)
Lemma after_new j : old = false -> forall k o, tr_failures (os_result (after k j o)) = tr_failures (os_result o) ++ concat (map (fun i => map (fun _ => t) (List.filter (fun b => b) (at_subs (calls i)))) (seq k j)).
Proof.
  intros Ho. induction j as [|j IH]; intros k o; [by rewrite app_nil_r|]. cbn [after seq map concat]. rewrite IH /forgive /report_subs Ho app_assoc. f_equal.
  destruct (at_subs (calls k)) as [|b l]; cbn [os_result clear_errors tr_failures]; [by rewrite app_nil_r|]. generalize (b :: l) (os_result o). clear. intros l. induction l as [|b l IH]; intros r; [by rewrite app_nil_r|].
  cbn [map fold_left]. rewrite IH. destruct b; cbn [List.filter map tr_do sub_report tr_failures]; [by rewrite -app_assoc|done].
Qed.
Lemma after_erased j : old = false -> forall k o, 0 < j -> tr_errors (os_result (after k j o)) = [].
Proof.
  intros Ho. induction j as [|j IH]; intros k o Hj; [lia|]. cbn [after]. destruct j as [|j]; [cbn [after]; rewrite /forgive Ho //|]. apply IH. lia.
Qed.
End retry.

Lemma tr_success_iff r : tr_success r = true <-> tr_failures r = [] /\ tr_errors r = [] /\ tr_unexpected r = [].
Proof. rewrite /tr_success !andb_true_iff. destruct (tr_failures r), (tr_errors r), (tr_unexpected r); cbn; intuition congruence. Qed.
Lemma reports_success t a r : tr_success (fold_left tr_do (reports t a) r) = true <-> tr_success r = true /\ passes a.
Proof.
  assert (H : forall l r, (forall x, In x l -> exists o, (o = OFailure \/ o = OError) /\ x = RGot o t) -> (tr_success (fold_left tr_do l r) = true <-> tr_success r = true /\ l = [])).
  { clear. induction l as [|x l IH]; intros r Hl; [by intuition|]. cbn [fold_left]. rewrite IH; [intros; apply Hl; by right|].
    destruct (Hl x (or_introl eq_refl)) as (o & Ho & ->). rewrite !tr_success_iff. split; [|intros [_ ?]; done]. intros [(H1 & H2 & H3) _]. exfalso.
    destruct Ho as [-> | ->]; cbn in H1, H2; [by destruct (tr_failures r)|by destruct (tr_errors r)]. }
  rewrite H.
  - rewrite /reports. intros x Hx. apply in_app_or in Hx as [Hx|Hx]; [apply in_map_iff in Hx as (b & <- & _); destruct b; eauto|]. destruct (at_end a); [done|destruct Hx as [<- |[]]; eauto|destruct Hx as [<- |[]]; eauto].
  - rewrite /reports /passes. destruct (at_subs a); [|cbn; split; [intros [_ ?]; done|intros (_ & ? & _); done]]. destruct (at_end a) as [v| |e]; cbn; (split; [intros [? ?]; try done|intros (? & ? & ? & ?); try done]). by split_and!; eauto.
Qed.
Lemma started_success t r : tr_success (tr_do r (RStarted t)) = tr_success r.
Proof. done. Qed.

Section test.
Context (old : bool) (t : nat) (delay : bool) (calls : nat -> attempt).
Definition begun (r : tresult) : ostate := {| os_success := true; os_waiting := []; os_result := tr_do r (RStarted t) |}.
Lemma retry_at times r k : deciding times calls k -> exists x,
  retry_test old t times delay calls r = Some (x, fold_left tr_do (reports t (calls k)) (os_result (after old t calls 0 k (begun r)))) /\
  rt_calls x = S k /\ rt_sleeps x = (if delay then k else 0) /\ rt_end x = at_end (calls k).
Proof.
  intros (Hk & Hf & Hd). destruct times as [|n]; [lia|]. rewrite /retry_test. rewrite (wrapper_law old t delay calls k n 0); [done|lia|done|intros H; apply Hd in H; lia|].
  cbn [Nat.add]. eexists. rewrite end_reports; [by apply after_settled|]. by split_and!.
Qed.
Lemma after_fresh j r : (old = true \/ (tr_errors r = [] /\ forall i, i < j -> at_subs (calls i) = [])) -> os_result (after old t calls 0 j (begun r)) = tr_do r (RStarted t).
Proof.
  intros [H|[He Hs]]; [by rewrite after_old|]. assert (H : forall k o, (forall i, i < j -> at_subs (calls (k + i)) = []) -> tr_errors (os_result o) = [] -> os_result (after old t calls k j o) = os_result o).
  { clear. induction j as [|j IH]; intros k o Hs He; [done|]. cbn [after]. assert (E : at_subs (calls k) = []) by (rewrite -(Nat.add_0_r k); apply Hs; lia). rewrite E. cbn [report_subs].
    assert (Hr : os_result (forgive old o) = os_result o) by (rewrite /forgive; destruct old; [done|]; cbn; rewrite /clear_errors -He; by destruct (os_result o)).
    rewrite IH; [|by rewrite Hr|done]. intros i Hi. replace (S k + i) with (k + S i) by lia. apply Hs. lia. }
  rewrite H; [intros i Hi; by apply Hs|done|done].
Qed.
Lemma got_failures l r : tr_failures (fold_left tr_do l r) = tr_failures r ++ tr_failures (fold_left tr_do l tr_empty).
Proof.
  induction l as [|x l IH] using rev_ind; [by rewrite app_nil_r|]. rewrite !fold_left_app. cbn [fold_left]. destruct x as [u|o u]; cbn [tr_do tr_failures]; [done|]. destruct o; rewrite IH ?app_assoc //.
Qed.
Lemma got_errors l r : tr_errors (fold_left tr_do l r) = tr_errors r ++ tr_errors (fold_left tr_do l tr_empty).
Proof.
  induction l as [|x l IH] using rev_ind; [by rewrite app_nil_r|]. rewrite !fold_left_app. cbn [fold_left]. destruct x as [u|o u]; cbn [tr_do tr_errors]; [done|]. destruct o; rewrite IH ?app_assoc //.
Qed.
End test.
