(** C100: which messages are logged, after anything that was done about the levels of loggers. *)
From Coq Require Import ssreflect.
From Verif Require Import SpecLevels LevelFacts StrFacts.

(** C100: there is one level that counts for a logger, in terms of what the program did (last things
    first), and the logger passes on exactly the messages at that level and above. *)
Theorem C100_level early h n : exists l, counts early h n l /\ (forall l', counts early h n l' -> l' = l) /\
  forall lvl, enabled n lvl (lrun early (rev h)) = true <-> (l <= lvl)%nat.
Proof.
  pose proof (effective_counts early h _ n (agrees_run early h)) as C. eexists. split; [exact C|]. split.
  - intros l' H. exact (counts_unique early h n _ _ H C).
  - intros lvl. rewrite enabled_iff. split; [|eauto]. intros (l & H & L). by rewrite -(counts_unique early h n _ _ H C).
Qed.
Print Assumptions C100_level.
(** C100: what a process prints, to standard error as to standard output, is logged exactly if the level
    that counts for that logger is not above INFO. *)
Theorem C100_output early h name stderr : output_logged name stderr (lrun early (rev h)) = true <->
  exists l, counts early h (name ++ (if stderr then "-stderr" else "-stdout")) l /\ (l <= 20)%nat.
Proof. exact (output_iff early h name stderr). Qed.
Print Assumptions C100_output.

(** C100: making a launch service sets the level of every logger that has none of its own and is below none
    that has, whatever was set with launch_config.level before. *)
Theorem C100_service early h debug n : (forall a, covers a n -> particular early h a = 0) ->
  forall lvl, enabled n lvl (lrun early (rev (Service debug :: h))) = true <-> ((if debug then 10 else 20) <= lvl)%nat.
Proof.
  intros H lvl. rewrite enabled_iff. assert (counts early (Service debug :: h) n (if debug then 10 else 20)) as C by (right; split; [done|exact H]).
  split; [|eauto]. intros (l & Hl & L). by rewrite -(counts_unique _ _ _ _ _ Hl C).
Qed.
Print Assumptions C100_service.
(** C100: after a reset, messages from INFO on are logged again, for every logger with no older logger above it. *)
Theorem C100_reset early h n : (forall a, covers a n -> early !! a = None) ->
  forall lvl, enabled n lvl (lrun early (rev (Reset :: h))) = true <-> (20 <= lvl)%nat.
Proof.
  intros H lvl. rewrite enabled_iff. assert (counts early (Reset :: h) n 20) as C.
  { right. split; [done|]. intros b Hb. simpl. by rewrite (H b Hb). }
  split; [|eauto]. intros (l & Hl & L). by rewrite -(counts_unique _ _ _ _ _ Hl C).
Qed.
Print Assumptions C100_reset.
(** C100, finding: a reset does not undo the levels of loggers that are older than launch.logging. *)
Theorem C100_reset_refuted : exists early h n, particular early h n = 0 /\ n <> "" /\ early !! n = None /\
  enabled n 20 (lrun early (rev (Reset :: h))) = false.
Proof. exists {["launch" := 30]}, [], "launch.user". repeat split; vm_compute; done. Qed.
Print Assumptions C100_reset_refuted.
(** C100, finding: asking for warnings and worse silences the errors that processes print as well. *)
Theorem C100_output_refuted h name stderr : (forall a, particular ∅ h a = 0) ->
  output_logged name stderr (lrun ∅ (rev (SetRoot 30 :: h))) = false.
Proof.
  intros H. apply not_true_is_false. rewrite output_iff. intros (l & Hl & L). set (n := (name ++ _)%string) in *.
  assert (counts ∅ (SetRoot 30 :: h) n 30) as C. { right. split; [done|]. intros b _. exact (H b). }
  rewrite (counts_unique _ _ _ _ _ Hl C) in L. lia.
Qed.
Print Assumptions C100_output_refuted.
(** C100: setting the level of one logger leaves alone the loggers that it does not cover. *)
Theorem C100_others early h m l n lvl : ~ covers m n ->
  enabled n lvl (lrun early (rev (SetLogger m l :: h))) = enabled n lvl (lrun early (rev h)).
Proof.
  intros H. apply Bool.eq_iff_eq_true. rewrite !enabled_iff.
  assert (forall b, covers b n -> particular early (SetLogger m l :: h) b = particular early h b) as P.
  { intros b Hb. simpl. destruct (String.eqb_spec m b) as [E|]; [|done]. exfalso. apply H. by rewrite E. }
  assert (forall k, counts early (SetLogger m l :: h) n k <-> counts early h n k) as E; [|split; intros (k & Hk & L); exists k; split; [by apply E|done|by apply E|done]].
  intros k. split; (intros [(a & Ha & E1 & E2 & E3)|[E1 E2]]; [left; exists a; split; [done|]|right; split; [done|]]).
  - rewrite (P _ Ha) in E1. split; [done|]. split; [done|]. intros b Hb L. rewrite -(P _ Hb). by apply E3.
  - intros b Hb. rewrite -(P _ Hb). by apply E2.
  - rewrite (P _ Ha). split; [done|]. split; [done|]. intros b Hb L. rewrite (P _ Hb). by apply E3.
  - intros b Hb. rewrite (P _ Hb). by apply E2.
Qed.
Print Assumptions C100_others.
(** Asking twice for a logger, or for others, changes nothing about it. *)
Theorem C100_get early h m n lvl : enabled n lvl (lrun early (rev (Get m :: h))) = enabled n lvl (lrun early (rev h)).
Proof. apply Bool.eq_iff_eq_true. by rewrite !enabled_iff. Qed.
Print Assumptions C100_get.

Example C100_example :
  let h := [Service false; SetLogger "launch.user" 40; Get "launch"; SetRoot 10] in
  counts ∅ h "launch.user.talker" 40 /\ counts ∅ h "launch" 20 /\ counts ∅ h "launch.users" 20 /\
  enabled "launch.user.talker" 30 (lrun ∅ (rev h)) = false /\ enabled "launch.users" 20 (lrun ∅ (rev h)) = true /\
  enabled "launch.users" 10 (lrun ∅ (rev h)) = false /\ output_logged "talker-1" true (lrun ∅ (rev h)) = true.
Proof.
  intros h. assert (forall n l, effective n (lrun ∅ (rev h)) = l -> counts ∅ h n l) as C.
  { intros n l <-. exact (effective_counts ∅ h _ n (agrees_run ∅ h)). }
  repeat split; try (apply C); vm_compute; done.
Qed.
