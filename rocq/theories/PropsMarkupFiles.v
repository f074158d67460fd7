(** C86: markup launch files are read whole, closed again, and not bound to a format. *)
From Coq Require Import ssreflect.
From Verif Require Import SpecMarkupFiles FrontendFacts.

Lemma read_clean {R} (l : list (fparser R)) : clean_reads (read_each l 0 true).1.
Proof.
  induction l as [|p l IH]; [constructor|]. simpl. destruct (fp_load p 0) as [r|e|]; [constructor| |constructor].
  destruct (read_each l 0 true) as [a r]. by constructor.
Qed.
Lemma read_try {R} (l : list (fparser R)) pos : (read_each l pos true).2 = (try_each l pos).2.
Proof.
  revert pos. induction l as [|p l IH]; intros pos; [done|]. simpl. destruct (fp_load p pos) as [r|e|]; [done| |done].
  specialize (IH 0). destruct (read_each l 0 true) as [a r], (try_each l 0) as [a' r']. done.
Qed.
(** A file given by name is opened once, read only from its start by every parser, and closed at
    the end, whether it could be parsed or not. *)
Theorem C86_closed : forall R (ps : list (fparser R)) name, exists l, (base_load ps (ByName name true)).1 = FOpen :: l ++ [FClose] /\ clean_reads l.
Proof.
  intros R ps name. simpl. pose proof (read_clean (implementations ps name)) as H. destruct (read_each (implementations ps name) 0 true) as [a r]. exists a. done.
Qed.
(** A file object is neither opened nor closed. *)
Theorem C86_object : forall R (ps : list (fparser R)) name pos seekable, ~ In FOpen (base_load ps (ByObject name pos seekable)).1 /\ ~ In FClose (base_load ps (ByObject name pos seekable)).1.
Proof.
  intros R ps name pos seekable. simpl. generalize (implementations ps name) as l. intros l. revert pos. induction l as [|p l IH]; intros pos; [split; intros []|].
  simpl. destruct (fp_load p pos) as [r|e|]; try (split; by intros [?|[]]). destruct seekable; [|split; by intros [?|[]]].
  destruct (IH 0) as [H1 H2]. destruct (read_each l 0 true) as [a r]. split; intros [?|[?|?]]; done.
Qed.
(** The same holds for the load of one parser, and for launch files read with one: they are opened,
    read from the start, closed; what is read is described, exceptions are passed on. *)
Theorem C86_one_parser : forall R D (ps : list (fparser R)) (describe : R -> res D) p name pos seekable,
  (exists l, (frontend_description ps describe (Some p) (ByName name true)).1 = FOpen :: l ++ [FClose] /\ clean_reads l) /\
  (frontend_description ps describe (Some p) (ByObject name pos seekable)).1 = [FRead (fp_id p) pos] /\
  (frontend_description ps describe (Some p) (ByName name true)).2 = res_bind (fp_load p 0) describe /\
  (frontend_description ps describe (Some p) (ByObject name pos seekable)).2 = res_bind (fp_load p pos) describe.
Proof.
  intros R D ps describe p name pos seekable. rewrite /frontend_description /own_load. split; [exists [FRead (fp_id p) 0]; split; [done|constructor]|]. split; [done|].
  split; [by destruct (fp_load p 0)|by destruct (fp_load p pos)].
Qed.
Print Assumptions C86_one_parser.
Lemma order_unique {R} (ps o1 o2 : list (fparser R)) f : tried_order ps o1 f -> tried_order ps o2 f -> o1 = o2.
Proof.
  intros (b1 & m1 & n1 & -> & H1 & -> & ->) (b2 & m2 & n2 & -> & H2 & -> & ->). assert (forall p, b1 p = b2 p) as E.
  { intros p. specialize (H1 p). specialize (H2 p). rewrite -H2 in H1. destruct (b1 p), (b2 p); try done; [symmetry|]; by apply H1. }
  f_equal; apply List.filter_ext; intros p; by rewrite E.
Qed.
Lemma read_first {R} (l1 l2 : list (fparser R)) p r : Forall (fun q => fails q 0) l1 -> fp_load p 0 = Ok r -> (read_each (l1 ++ p :: l2) 0 true).2 = Ok r.
Proof.
  induction 1 as [|q l1 [e Hq] _ IH]; intros Hp; simpl; [by rewrite Hp|]. rewrite Hq. specialize (IH Hp). destruct (read_each (l1 ++ p :: l2) 0 true). done.
Qed.
(** What is loaded is what the first parser gives that accepts the whole file. *)
Theorem C86_first_fit : forall R (ps : list (fparser R)) name r, NoDup (map fp_id ps) ->
  ((base_load ps (ByName name true)).2 = Ok r <-> first_fit ps name r).
Proof.
  intros R ps name r Hnd. pose proof (implementations_order ps name Hnd) as Hi. split; intros H.
  - simpl in H. pose proof (read_try (implementations ps name) 0) as E. destruct (read_each (implementations ps name) 0 true) as [a r']. simpl in H, E. subst r'.
    destruct (try_each (implementations ps name) 0) as [att out] eqn:El. simpl in E. subst out.
    destruct (try_spec _ _ _ _ El) as (l1 & p & l2 & Eo & _ & Hf & Hp).
    assert (forall i, pos_at 0 i = 0) as H0 by (intros i; rewrite /pos_at; by destruct i).
    exists (implementations ps name), l1, p, l2. split; [done|]. split; [done|]. rewrite H0 in Hp. split; [|done].
    apply Forall_lookup. intros i q Hq. specialize (Hf i q Hq). by rewrite H0 in Hf.
  - destruct H as (order & l1 & p & l2 & Ho & -> & Hf & Hp). pose proof (order_unique _ _ _ _ Ho Hi) as E. simpl. pose proof (read_first l1 l2 p r Hf Hp) as Hr. rewrite E in Hr.
    destruct (read_each (implementations ps name) 0 true) as [a r']. done.
Qed.
Print Assumptions C86_closed. Print Assumptions C86_object. Print Assumptions C86_first_fit.

(** A finding: a file object that cannot be rewound, such as a pipe, is read by one parser only, and
    what is raised is not the error about the file. *)
Theorem C86_pipe_refuted : forall R (ps : list (fparser R)) name pos p l e, implementations ps name = p :: l -> fp_load p pos = Exn e ->
  base_load ps (ByObject name pos false) = ([FRead (fp_id p) pos], Exn XValue).
Proof. intros R ps name pos p l e E Hp. simpl. rewrite E /= Hp. done. Qed.
Print Assumptions C86_pipe_refuted.

(** The sources for XML and YAML give for every file what the source for any markup gives. *)
Theorem C86_sources : forall R D (ps : list (fparser R)) (describe : R -> res D) p path there,
  format_source ps describe p path there = frontend_description ps describe None (ByName path there).
Proof. done. Qed.
Print Assumptions C86_sources.
(** A finding: so they accept files of other formats, also those that the parser given to them
    rejects. *)
Definition xml_only : fparser string := FParser 0 ["launch.xml"; "xml"; "launch"] (fun _ => Exn XValue).
Definition yaml_ok : fparser string := FParser 1 ["launch.yaml"; "yaml"; "yml"] (fun _ => Ok "tree").
Theorem C86_format_refuted : exists R D (ps : list (fparser R)) (describe : R -> res D) p path d, In p ps /\ NoDup (map fp_id ps) /\
  (exists e, (frontend_description ps describe (Some p) (ByName path true)).2 = Exn e) /\ (format_source ps describe p path true).2 = Ok d.
Proof.
  exists string, string, [xml_only; yaml_ok], Ok, xml_only, "a.launch.xml"%string, "tree"%string. split; [by left|]. split.
  - repeat constructor; set_solver.
  - split; [by exists XValue|]. vm_compute. reflexivity.
Qed.
Print Assumptions C86_format_refuted.

(** ** A case *)
Example C86_ex : base_load [xml_only; yaml_ok] (ByName "a.launch" true) = ([FOpen; FRead 0 0; FSeek; FRead 1 0; FClose], Ok "tree"%string).
Proof. vm_compute. reflexivity. Qed.
Example C86_ex_hyp : NoDup (map fp_id [xml_only; yaml_ok]).
Proof. repeat constructor; set_solver. Qed.
