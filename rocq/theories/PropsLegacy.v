(** C71, C72: the legacy test service, and its output tests.  [lt_build adds ([], lt_init)] is
    what the calls of add_fixture_action, add_test_action and add_output_test leave;
    [lt_events pname re hs es st0] is what remains after the events [es], with the Shutdown
    events that were emitted; [lt_verdict rc st] is what run returns if the launch service
    returns [rc].  Names of processes and the patterns are arbitrary. *)
From Coq Require Import ssreflect.
From Verif Require Import SpecLegacy LegacyFacts.

(** The calls succeed iff the names of the tests are distinct and every output test is about a
    process and expects something. *)
Theorem C71_build adds : (exists hs st, lt_build adds ([], lt_init) = Some (hs, st)) <->
  NoDup (omap test_of adds) /\ forall a proc s o ps, In (AddOutput a proc s o ps) adds -> proc = true /\ existsb truthy ps = true.
Proof. exact (build_iff adds). Qed.
Print Assumptions C71_build.

Section c71.
Context (pname : nat -> nat) (re : nat -> string -> bool) (adds : list ladd) (hs : list lhandler) (st0 : lts) (es : list levent) (st : lts) (emitted : list shut).

(** The status of every test after any events is the one the specification says, and no other. *)
Theorem C71_status x t s : lt_build adds ([], lt_init) = Some (hs, st0) -> lt_events pname re hs es st0 = (st, emitted) ->
  In x adds -> test_of x = Some t -> (dget t (lt_tests st) = Some s <-> status_is re adds es x s).
Proof. intros HB HE. pose proof (status_iff pname re adds hs st0 HB es x t s) as H. rewrite /after HE in H. exact H. Qed.

(** A code of the launch service that is not 0 is what the run returns. *)
Theorem C71_service_code rc : rc <> 0%Z -> lt_verdict rc st = rc.
Proof. intros H. rewrite /lt_verdict. apply Z.eqb_neq in H. by rewrite H. Qed.

(** Otherwise, if some process left a return code: the last code of the process that left one
    first, and this is not 0. *)
Theorem C71_left : lt_build adds ([], lt_init) = Some (hs, st0) -> lt_events pname re hs es st0 = (st, emitted) ->
  (exists e p rc, In e es /\ leaves pname adds e p rc) -> first_left pname adds es (lt_verdict 0 st) /\ lt_verdict 0 st <> 0%Z.
Proof.
  intros HB HE HL. pose proof (verdict_left pname re adds hs st0 HB es HL) as H. rewrite /after HE in H. split; [exact H|].
  destruct H as (p & pre & e & post & rc0 & _ & _ & _ & pre' & e' & post' & _ & HL' & _). by eapply leaves_nz.
Qed.
(** Otherwise 1 if a test has failed, and 0 if none has. *)
Theorem C71_none_left : lt_build adds ([], lt_init) = Some (hs, st0) -> lt_events pname re hs es st0 = (st, emitted) ->
  (forall e p rc, In e es -> ~ leaves pname adds e p rc) ->
  lt_verdict 0 st = 1%Z /\ (exists x, In x adds /\ test_of x <> None /\ status_is re adds es x SFailed) \/
  lt_verdict 0 st = 0%Z /\ (forall x, In x adds -> test_of x <> None -> ~ status_is re adds es x SFailed).
Proof. intros HB HE HL. pose proof (verdict_none pname re adds hs st0 HB es HL) as H. rewrite /after HE in H. exact H. Qed.
(** So a test process that exits with an error, and a fixture process that exits when and as it
    may not, make the run fail whatever else happens. *)
Theorem C71_process_failed a code sd rc : lt_build adds ([], lt_init) = Some (hs, st0) -> lt_events pname re hs es st0 = (st, emitted) ->
  In (AddTest a true) adds -> In (EExit a code sd) es -> code <> 0%Z -> lt_verdict rc st <> 0%Z.
Proof.
  intros HB HE Hx He Hc. destruct (Z.eq_dec rc 0%Z) as [->|Hrc]; [|by rewrite C71_service_code]. eapply C71_left; try done. exists (EExit a code sd), (pname a), (if Z.eqb code 0 then 1%Z else code). split; [done|]. split; [done|]. split; [done|]. by left.
Qed.
Theorem C71_fixture_died a allowed code rc : lt_build adds ([], lt_init) = Some (hs, st0) -> lt_events pname re hs es st0 = (st, emitted) ->
  In (AddFixture a true allowed) adds -> In (EExit a code false) es -> ~ may_exit allowed code -> lt_verdict rc st <> 0%Z.
Proof.
  intros HB HE Hx He Hc. destruct (Z.eq_dec rc 0%Z) as [->|Hrc]; [|by rewrite C71_service_code]. eapply C71_left; try done. exists (EExit a code false), (pname a), (if Z.eqb code 0 then 1%Z else code). split; [done|]. split; [done|]. split; [done|]. right. by exists allowed.
Qed.

(** A Shutdown for the end of all tests is emitted only when no test is armed, and then none is
    armed any more. *)
Theorem C71_all_finished : lt_build adds ([], lt_init) = Some (hs, st0) -> lt_events pname re hs es st0 = (st, emitted) ->
  In AllFinished emitted -> forall x, In x adds -> test_of x <> None -> ~ status_is re adds es x SArmed.
Proof.
  intros HB HE. pose proof (run_all pname re hs st0 es) as H1. pose proof (none_iff pname re adds hs st0 HB es) as H2. rewrite /after HE in H1, H2. cbn in H1, H2. by rewrite H2 in H1.
Qed.
(** Once no test is armed some Shutdown has been emitted, unless a test was cancelled or the
    shutdown began by itself. *)
Theorem C71_ends : lt_build adds ([], lt_init) = Some (hs, st0) -> lt_events pname re hs es st0 = (st, emitted) ->
  (exists x, In x adds /\ test_of x <> None) -> Forall (fun e => e <> EShut /\ forall a, e <> EDone a FCancelled) es ->
  (forall x, In x adds -> test_of x <> None -> ~ status_is re adds es x SArmed) -> emitted <> [].
Proof.
  intros HB HE (x & Hx & Ht) HF HN Hem. pose proof (none_iff pname re adds hs st0 HB es) as H2. pose proof (run_quiet pname re adds hs st0 HB es) as H1. rewrite /after HE in H1, H2. cbn in H1, H2. rewrite (proj2 H2 HN) in H1.
  enough (true = false) by done. apply H1; [|done|done]. destruct (test_of x) as [t|] eqn:Et; [|done]. intros E. pose proof (test_in adds x t Hx Et) as Hi. by rewrite E in Hi.
Qed.
(** A Shutdown for the failure of a test is emitted iff that test failed, for the end of a fixture
    iff it exited as it may not. *)
Theorem C71_failed_shutdown t : lt_build adds ([], lt_init) = Some (hs, st0) -> lt_events pname re hs es st0 = (st, emitted) ->
  In (TestFailed t) emitted <-> exists x pre e post, In x adds /\ test_of x = Some t /\ es = pre ++ e :: post /\ e <> EShut /\ fails re x pre e.
Proof. intros HB HE. pose proof (run_failed pname re adds hs st0 HB es t) as H. rewrite /after HE in H. exact H. Qed.
Theorem C71_died_shutdown p : lt_build adds ([], lt_init) = Some (hs, st0) -> lt_events pname re hs es st0 = (st, emitted) ->
  In (FixtureDied p) emitted <-> exists a allowed code, In (AddFixture a true allowed) adds /\ In (EExit a code false) es /\ ~ may_exit allowed code /\ p = pname a.
Proof. intros HB HE. pose proof (run_died pname re adds hs st0 HB es p) as H. rewrite /after HE in H. setoid_rewrite exit_bad in H. exact H. Qed.
(** The side effect of an output test: a Shutdown when all that it expects has been seen, and
    not before. *)
Theorem C71_side_effect a proc s o ps pre text post : lt_build adds ([], lt_init) = Some (hs, st0) -> lt_events pname re hs es st0 = (st, emitted) ->
  In (AddOutput a proc s o ps) adds -> ot_side o = true -> es = pre ++ EOut a text :: post -> ~ missing re o ps (outputs a (pre ++ [EOut a text])) ->
  In AfterTest emitted \/ In AllFinished emitted.
Proof. intros HB HE. pose proof (run_side pname re adds hs st0 HB es a proc s o pre text post ps) as H. rewrite /after HE in H. exact H. Qed.
Theorem C71_side_effect_only : lt_build adds ([], lt_init) = Some (hs, st0) -> lt_events pname re hs es st0 = (st, emitted) -> In AfterTest emitted ->
  exists a proc s o ps pre text post, In (AddOutput a proc s o ps) adds /\ ot_side o = true /\ es = pre ++ EOut a text :: post /\ ~ missing re o ps (outputs a (pre ++ [EOut a text])).
Proof. intros HB HE. pose proof (run_side_only pname re adds hs st0 HB es) as H. rewrite /after HE in H. exact H. Qed.

(** Findings.  An output test never counts as failed (legacy/__init__.py:215-216): if the only
    tests are output tests and no fixture dies, the run succeeds whatever was output. *)
Theorem C71_output_never_fails : lt_build adds ([], lt_init) = Some (hs, st0) -> lt_events pname re hs es st0 = (st, emitted) ->
  (forall x, In x adds -> exists a proc s o ps, x = AddOutput a proc s o ps) -> lt_verdict 0 st = 0%Z.
Proof.
  intros HB HE HO. assert (forall e p rc, In e es -> ~ leaves pname adds e p rc) as Hno.
  { intros e p rc _ HL. destruct e; cbn in HL; try done. destruct HL as (_ & _ & [[Hi _]|(al & Hi & _)]); destruct (HO _ Hi) as (? & ? & ? & ? & ? & ?); done. }
  destruct (C71_none_left HB HE Hno) as [[_ (x & Hx & _ & Hs)]|[H _]]; [|exact H]. destruct (HO _ Hx) as (a & pr & s & o & ps & ->). by apply output_never in Hs.
Qed.
End c71.
Print Assumptions C71_status.
Print Assumptions C71_left.
Print Assumptions C71_none_left.
Print Assumptions C71_process_failed.
Print Assumptions C71_fixture_died.
Print Assumptions C71_all_finished.
Print Assumptions C71_ends.
Print Assumptions C71_failed_shutdown.
Print Assumptions C71_died_shutdown.
Print Assumptions C71_side_effect.
Print Assumptions C71_side_effect_only.
Print Assumptions C71_output_never_fails.

(** A service with a fixture process 0, a test process 1, a coroutine 2 and an output test of
    process 1. *)
Definition ex_o : otest := {| ot_lines := true; ot_filter := fun s => s; ot_side := true |}.
Definition ex_adds : list ladd := [AddFixture 0 true (AllowCodes [0%Z]); AddTest 1 true; AddTest 2 false; AddOutput 1 true 7 ex_o [PText "ok"]].
Definition ex_run (es : list levent) : option (lts * list shut) :=
  match lt_build ex_adds ([], lt_init) with Some (hs, st) => Some (lt_events (fun a => a) (fun _ _ => false) hs es st) | None => None end.
Definition ex_verdict (es : list levent) : option Z := (fun x => lt_verdict 0 (fst x)) <$> ex_run es.
Example C71_good : ex_verdict [EOut 1 "it is o"; EOut 1 ("k" ++ String nl ""); EExit 1 0 false; EDone 2 FResult; EExit 0 0 false] = Some 0%Z.
Proof. reflexivity. Qed.
Example C71_good_emitted : snd <$> ex_run [EOut 1 "it is o"; EOut 1 ("k" ++ String nl ""); EExit 1 0 false; EDone 2 FResult] = Some [AfterTest; AllFinished].
Proof. reflexivity. Qed.
Example C71_bad : ex_verdict [EDone 2 FRaised; EExit 0 5 true; EExit 1 0 false] = Some 1%Z.
Proof. reflexivity. Qed.
Example C71_first : ex_verdict [EExit 0 5 false; EExit 1 3 false] = Some 5%Z.
Proof. reflexivity. Qed.
Example C71_dropped : (fun x => lt_tests (fst x)) <$> ex_run [EExit 1 3 false] = Some [((1, None), SFailed); ((2, None), SDropped); ((1, Some 7), SFinished)].
Proof. reflexivity. Qed.
(** A run may end with no test armed and no Shutdown emitted, if the last test is cancelled. *)
Theorem C71_cancelled_refuted : ~ (forall pname re adds hs st0 es st emitted, lt_build adds ([], lt_init) = Some (hs, st0) -> lt_events pname re hs es st0 = (st, emitted) ->
  (exists x, In x adds /\ test_of x <> None) -> ~ In EShut es -> (forall x, In x adds -> test_of x <> None -> ~ status_is re adds es x SArmed) -> emitted <> []).
Proof.
  intros H. refine (H (fun a => a) (fun _ _ => false) [AddTest 2 false] _ _ [EDone 2 FCancelled] _ _ eq_refl eq_refl _ _ _ eq_refl).
  - exists (AddTest 2 false). split; [by left|done].
  - by intros [|[]].
  - intros x [<-|[]] _ Hs. assert (dget ((2, None) : tname) [((2, None), SDropped)] = Some SArmed) as HX; [|done].
    apply (C71_status (fun a => a) (fun _ _ => false) [AddTest 2 false] _ _ [EDone 2 FCancelled] _ _ (AddTest 2 false) (2, None) SArmed eq_refl eq_refl); [by left|done|done].
Qed.
Print Assumptions C71_cancelled_refuted.
(** The expected output never came, the process went on until the shutdown, and the run
    succeeds. *)
Example C71_unmatched_refuted : exists hs st0 st em, lt_build [AddOutput 1 true 7 ex_o [PText "ok"]] ([], lt_init) = Some (hs, st0) /\
  lt_events (fun a => a) (fun _ _ => false) hs [EOut 1 "no"; EShut; EExit 1 0 true] st0 = (st, em) /\ lt_verdict 0 st = 0%Z /\
  missing (fun _ _ => false) ex_o [PText "ok"] (outputs 1 [EOut 1 "no"; EShut; EExit 1 0 true]).
Proof.
  do 4 eexists. split; [reflexivity|]. split; [reflexivity|]. split; [reflexivity|]. exists (PText "ok"). split; [|done]. split; [by left|]. cbn. intros n Hn. assert (n = 1) as -> by lia. reflexivity.
Qed.

(** ** C72 *)
(** What a test of lines still misses: the lines, not empty, that hold a line end or do not occur
    in the output, filtered, in a row.  When it is satisfied does not depend on how the output
    was cut. *)
Theorem C72_lines re o ps texts : ot_lines o = true -> Forall (fun p => exists s, p = PText s) ps ->
  missing re o ps texts <-> exists s, In (PText s) ps /\ s <> "" /\ ~ (no_end s /\ occurs s (in_a_row (map (ot_filter o) texts))).
Proof. exact (missing_lines re o ps texts). Qed.
Print Assumptions C72_lines.
Theorem C72_cuts re o ps texts texts' : ot_lines o = true -> (forall s, ot_filter o s = s) -> Forall (fun p => exists s, p = PText s) ps ->
  in_a_row texts = in_a_row texts' -> (missing re o ps texts <-> missing re o ps texts').
Proof.
  intros Ho Hf HF E. rewrite !missing_lines //. assert (forall l, map (ot_filter o) l = l) as Hm. { intros l. rewrite -{2}(map_id l). by apply map_ext. } by rewrite !Hm E.
Qed.
Print Assumptions C72_cuts.
(** Finding: for patterns it does (output.py:107-109), since every output loses its last line
    end. *)
Definition ex_p : otest := {| ot_lines := false; ot_filter := fun s => s; ot_side := false |}.
Definition ex_re (r : nat) (s : string) : bool := contains (String "a" (String nl "b")) s.
Theorem C72_pattern_cuts_refuted : ~ (forall re o ps texts texts', (forall s, ot_filter o s = s) -> in_a_row texts = in_a_row texts' -> missing re o ps texts -> missing re o ps texts').
Proof.
  intros H. specialize (H ex_re ex_p [PRegex 0] [String "a" (String nl ""); String "b" (String nl "")] [String "a" (String nl (String "b" (String nl "")))] (fun _ => eq_refl) eq_refl).
  destruct H as (p & [[<-|[]] Hn] & _).
  - exists (PRegex 0). split; [|done]. split; [by left|]. intros [|[|[|n]]] Hn; cbn in Hn; try lia; reflexivity.
  - specialize (Hn 1 ltac:(cbn; lia)). discriminate Hn.
Qed.
Print Assumptions C72_pattern_cuts_refuted.
(** The filter without patterns: of the lines that are not empty exactly those remain that start
    with none of the prefixes. *)
Theorem C72_filter line_match prefixes out x : x <> "" ->
  In x (splitlines (fst (lines_filter line_match prefixes out []))) <-> In x (splitlines out) /\ existsb (fun p => starts_with p x) prefixes = false.
Proof. exact (filter_law line_match prefixes out x). Qed.
Print Assumptions C72_filter.
(** Finding: its patterns serve once.  After a line that none of them matches the filter works as
    if there were none (output.py:70-76). *)
Theorem C72_patterns_spent line_match prefixes line lines pats : existsb (fun p => starts_with p line) prefixes = false -> (forall r, In r pats -> line_match r line = false) ->
  filter_lines line_match prefixes (line :: lines) pats = filter_lines line_match prefixes (line :: lines) [].
Proof. exact (filter_spent line_match prefixes line lines pats). Qed.
Print Assumptions C72_patterns_spent.
Theorem C72_filter_patterns_refuted : ~ (forall line_match prefixes out pats r x, In r pats -> line_match r x = true -> ~ In x (splitlines (fst (lines_filter line_match prefixes out pats)))).
Proof. intros H. apply (H (fun _ s => starts_with "x" s) [] (String "y" (String nl "x")) [0] 0 "x"); [by left|done|]. cbn. right. by left. Qed.
Print Assumptions C72_filter_patterns_refuted.
(** Finding: output that ends with a line end gets a second one. *)
Theorem C72_filter_same_refuted : ~ (forall line_match out, fst (lines_filter line_match [] out []) = out).
Proof. intros H. discriminate (H (fun _ _ => false) (String "a" (String nl ""))). Qed.
Print Assumptions C72_filter_same_refuted.
Example C72_seen : ~ missing (fun _ _ => false) ex_o [PText "ok"; PText ""] ["it is o"; String "k" (String nl "")].
Proof.
  rewrite C72_lines //; [repeat constructor; by eexists|]. intros (s & [[= <-]|[[= <-]|[]]] & Hne & HX); [|done]. apply HX. split; [|by exists "it is ", (String nl "")].
  intros [|x [|y [|z a]]] b c E; try discriminate E; injection E as; subst; done.
Qed.
