(** Lemmas for the verbosity of loggers (C100). *)
From Coq Require Import ssreflect Sorting.Sorted.
From Verif Require Import SpecLevels StrFacts.
#[local] Arguments String.append : simpl nomatch.

Definition own_level (s : levels) (n : string) : nat := match lv_own s !! n with Some (l, _) => l | None => 0 end.
Definition longer (a b : string) : Prop := (String.length b < String.length a)%nat.

Lemma above_in b r a : In a (above b r) <-> a <> "" /\ exists r1 r2, a = (b ++ r1)%string /\ r = (r1 ++ "." ++ r2)%string.
Proof.
  revert b. induction r as [|c r IH]; intros b; simpl.
  - split; [done|]. intros (_ & r1 & r2 & _ & E). by destruct r1.
  - rewrite in_app_iff IH. split.
    + intros [(Ha & r1 & r2 & -> & ->)|Hin].
      * split; [done|]. exists (String c r1), r2. by rewrite str_app_assoc.
      * destruct (Ascii.eqb_spec c ".") as [->|]; [|done]. simpl in Hin. destruct (String.eqb_spec b "") as [|Hb]; [done|].
        destruct Hin as [<-|[]]. split; [done|]. exists "", r. by rewrite str_app_nil.
    + intros (Ha & [|c' r1] & r2 & -> & E).
      * right. injection E as -> ->. rewrite str_app_nil in Ha |- *. simpl. destruct (String.eqb_spec b "") as [|Hb]; [done|by left].
      * left. injection E as -> ->. split; [done|]. exists r1, r2. by rewrite str_app_assoc.
Qed.
Lemma above_length b r a : In a (above b r) -> (String.length a < String.length b + String.length r)%nat.
Proof. intros (_ & r1 & r2 & -> & ->)%above_in. rewrite !str_app_length /=. lia. Qed.
Lemma above_sorted b r : StronglySorted longer (above b r).
Proof.
  revert b. induction r as [|c r IH]; intros b; simpl; [constructor|].
  assert (forall a, In a (above (b ++ String c "") r) -> longer a b) as H.
  { intros a (_ & r1 & r2 & -> & _)%above_in. rewrite /longer !str_app_length /=. lia. }
  specialize (IH (b ++ String c "")%string). induction IH as [|a l Hl IHl Ha]; simpl.
  - destruct (_ && _); repeat constructor.
  - constructor; [apply IHl; intros; apply H; by right|]. apply Forall_app. split; [done|].
    destruct (_ && _); [|constructor]. constructor; [|constructor]. apply H. by left.
Qed.
Lemma covers_in a n : In a (n :: above "" n) <-> covers a n.
Proof.
  simpl. rewrite above_in /covers. split.
  - intros [->|(Ha & r1 & r2 & -> & ->)]; [by left|]. right. split; [done|]. by exists r2.
  - intros [->|(Ha & r & ->)]; [by left|]. right. split; [done|]. exists a, r. done.
Qed.
Lemma covers_sorted n : StronglySorted longer (n :: above "" n).
Proof. constructor; [apply above_sorted|]. apply List.Forall_forall. intros a Ha%above_length. exact Ha. Qed.
Lemma first_facts s L : StronglySorted longer L ->
  (exists a, In a L /\ own_level s a = first_level s L /\ first_level s L <> 0 /\ forall b, In b L -> longer b a -> own_level s b = 0) \/
  (first_level s L = lv_root s /\ forall b, In b L -> own_level s b = 0).
Proof.
  induction 1 as [|x L HL IH Hx]; simpl; [by right|]. destruct (lv_own s !! x) as [[[|v] t]|] eqn:E.
  2:{ left. exists x. rewrite {1}/own_level E. split; [by left|]. split; [done|]. split; [done|]. intros b [->|Hb] Hl; [rewrite /longer in Hl; lia|].
      eapply List.Forall_forall in Hx; [|exact Hb]. rewrite /longer in Hx Hl. lia. }
  all: assert (own_level s x = 0) as E0 by (by rewrite /own_level E).
  all: destruct IH as [(a & Ha & H1 & H2 & H3)|[H1 H2]]; [left; exists a; split; [by right|]; split; [done|]; split; [done|]; intros b [<-|Hb] Hl; [done|by apply H3]|].
  all: right; split; [done|]; intros b [<-|Hb]; [done|by apply H2].
Qed.

(** What the state says about the history. *)
Section history.
Context (early : dict nat).
Definition agrees (h : list lop) (s : levels) : Prop :=
  lv_root s = general h /\ forall n,
    match early !! n with
    | Some _ => lv_own s !! n = Some (particular early h n, false)
    | None => lv_own s !! n = Some (particular early h n, true) \/ lv_own s !! n = None /\ particular early h n = 0
    end.
Lemma agrees_import : agrees [] (import early).
Proof.
  split; [done|]. intros n. rewrite /import /reset. cbn [lv_own]. rewrite !lookup_fmap. simpl. destruct (early !! n) as [l|]; simpl; [done|by right].
Qed.
Lemma agrees_get n h s : agrees h s -> agrees (Get n :: h) (get_logger n s).
Proof.
  intros [R H]. rewrite /get_logger. destruct (lv_own s !! n) as [x|] eqn:E; [split; done|]. split; [done|]. intros m. specialize (H m). cbn [lv_own particular].
  destruct (decide (m = n)) as [->|Hm]; [|by rewrite lookup_insert_ne].
  rewrite lookup_insert E in H |- *. destruct (early !! n); [done|]. destruct H as [H|[_ H]]; [done|]. left. by rewrite H.
Qed.
Lemma agrees_step o h s : agrees h s -> agrees (o :: h) (lstep s o).
Proof.
  intros H. destruct o as [n|n l|l| |d]; cbn [lstep].
  - by apply agrees_get.
  - apply (agrees_get n) in H. rewrite /set_level. set (s1 := get_logger n s) in *. destruct H as [R H]. split; [done|]. intros m. specialize (H m). cbn [lv_own particular] in *.
    destruct (String.eqb_spec n m) as [->|Hm]; [|by rewrite lookup_alter_ne]. rewrite lookup_alter.
    assert (is_Some (lv_own s1 !! m)) as [x Hx].
    { rewrite /s1 /get_logger. destruct (lv_own s !! m) as [x|] eqn:E; [by rewrite E|]. cbn [lv_own]. rewrite lookup_insert. eauto. }
    rewrite Hx in H |- *. destruct (early !! m); [injection H as ->; done|]. destruct H as [[= ->]|[? _]]; [by left|done].
  - destruct H as [R H]. split; [done|exact H].
  - destruct H as [R H]. split; [done|]. intros m. specialize (H m). rewrite /reset. cbn [lv_own particular]. rewrite lookup_fmap.
    destruct (early !! m); [by rewrite H|]. destruct H as [-> |[-> _]]; [by left|by right].
  - destruct H as [R H]. split; [by destruct d|exact H].
Qed.
Lemma agrees_run h : agrees h (lrun early (rev h)).
Proof.
  induction h as [|o h IH]; [apply agrees_import|]. rewrite /lrun. cbn [rev]. rewrite fold_left_app. by apply agrees_step.
Qed.
Lemma own_agrees h s n : agrees h s -> own_level s n = particular early h n.
Proof. intros [_ H]. specialize (H n). rewrite /own_level. destruct (early !! n); [by rewrite H|]. by destruct H as [-> |[-> ->]]. Qed.
Lemma effective_counts h s n : agrees h s -> counts early h n (effective n s).
Proof.
  intros H. destruct (first_facts s _ (covers_sorted n)) as [(a & Ha & E1 & E2 & E3)|[E1 E2]].
  - left. exists a. split; [by apply covers_in|]. rewrite (own_agrees _ _ _ H) in E1. split; [done|]. split; [done|].
    intros b Hb Hl. rewrite -(own_agrees _ _ _ H). apply E3; [by apply covers_in|done].
  - right. split; [by rewrite -(proj1 H)|]. intros b Hb. rewrite -(own_agrees _ _ _ H). apply E2. by apply covers_in.
Qed.
Lemma covers_length a b n : covers a n -> covers b n -> String.length a = String.length b -> a = b.
Proof.
  intros Ha Hb E. assert (exists x y, n = (a ++ x)%string /\ n = (b ++ y)%string) as (x & y & -> & E').
  { assert (forall a, covers a n -> exists x, n = (a ++ x)%string) as C; [|destruct (C _ Ha) as [x ?], (C _ Hb) as [y ?]; eauto].
    intros ? [->|(_ & r & ->)]; [exists ""; by rewrite str_app_nil|eauto]. }
  by destruct (str_app_split _ _ _ _ E E') as [-> _].
Qed.
Lemma counts_unique h n l l' : counts early h n l -> counts early h n l' -> l = l'.
Proof.
  intros [(a & Ha & E1 & E2 & E3)|[E1 E2]] [(b & Hb & F1 & F2 & F3)|[F1 F2]].
  - destruct (Nat.lt_trichotomy (String.length a) (String.length b)) as [L|[L|L]].
    + rewrite (E3 b Hb L) in F1. congruence.
    + rewrite (covers_length _ _ _ Ha Hb L) in E1. congruence.
    + rewrite (F3 a Ha L) in E1. congruence.
  - rewrite (F2 a Ha) in E1. congruence.
  - rewrite (E2 b Hb) in F1. congruence.
  - congruence.
Qed.
Lemma enabled_iff h n lvl : enabled n lvl (lrun early (rev h)) = true <-> exists l, counts early h n l /\ (l <= lvl)%nat.
Proof.
  pose proof (effective_counts h _ n (agrees_run h)) as C. rewrite /enabled Nat.leb_le. split; [eauto|].
  intros (l & Hl & L). by rewrite (counts_unique _ _ _ _ C Hl).
Qed.
Lemma output_iff h name stderr : output_logged name stderr (lrun early (rev h)) = true <->
  exists l, counts early h (name ++ (if stderr then "-stderr" else "-stdout")) l /\ (l <= 20)%nat.
Proof.
  rewrite /output_logged. set (n := (name ++ _)%string). pose proof (effective_counts _ _ n (agrees_get n _ _ (agrees_run h))) as C.
  change (counts early (Get n :: h) n) with (counts early h n) in C. rewrite /enabled Nat.leb_le. split; [eauto|].
  intros (l & Hl & L). by rewrite (counts_unique _ _ _ _ C Hl).
Qed.
End history.
