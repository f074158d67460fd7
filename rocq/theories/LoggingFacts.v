(** Lemmas about logging. *)
From Coq Require Import ssreflect.
From Verif Require Import SpecLogging StrFacts.
#[local] Arguments String.append : simpl nomatch.

(** ** Normalisation *)
Lemma existsb_eqb x l : existsb (String.eqb x) l = true <-> In x l.
Proof.
  rewrite existsb_exists. split.
  - intros (y & Hy & E). apply String.eqb_eq in E. by subst.
  - intros H. exists x. split; [done|apply String.eqb_refl].
Qed.
Lemma wanted_iff d l : wanted d l = true <-> In d l.
Proof. apply existsb_eqb. Qed.
Lemma dests_iff d ds : In d (match ds with DOne x => [x] | DMany l => l end) <-> listed d ds.
Proof. destruct ds; simpl; [naive_solver|done]. Qed.

Definition dict_ok (l : list (string * odest)) : Prop :=
  forall k ds, In (k, ds) l -> In k ["stdout"; "stderr"; "both"] /\ forall d, listed d ds -> In d ["screen"; "log"; "own_log"].
Definition entry (l : list (string * odest)) (k : string) (old : list string) (d : string) : Prop :=
  (exists ds, In (k, ds) l /\ listed d ds) \/ ((forall ds, ~ In (k, ds) l) /\ In d old).

Lemma norm_dict_ok l : NoDup (map fst l) -> dict_ok l -> forall n, exists n', norm_dict l n = Ok n' /\
  (forall d, In d (nc_both n') <-> entry l "both" (nc_both n) d) /\
  (forall d, In d (nc_stdout n') <-> entry l "stdout" (nc_stdout n) d) /\
  (forall d, In d (nc_stderr n') <-> entry l "stderr" (nc_stderr n) d).
Proof.
  induction l as [|[k ds] l IH] => Hnd Hok n.
  { exists n. split; [done|]. unfold entry. repeat split; naive_solver. }
  simpl in Hnd. apply NoDup_cons in Hnd as [Hk Hnd].
  assert (dict_ok l) as Hok' by (intros k' ds' H; apply Hok; by right).
  destruct (Hok k ds (or_introl eq_refl)) as [Hin Hds].
  assert (forall ds', ~ In (k, ds') l) as Hno.
  { intros ds' H. apply Hk. apply elem_of_list_In. by apply (in_map fst) in H. }
  cbn [norm_dict].
  assert (existsb (String.eqb k) ["stdout"; "stderr"; "both"] = true) as -> by by apply existsb_eqb.
  cbn [negb].
  set (dl := match ds with DOne d => [d] | DMany ds0 => ds0 end).
  assert (forallb (fun d => existsb (String.eqb d) ["screen"; "log"; "own_log"]) dl = true) as ->.
  { apply forallb_forall. intros d Hd. apply existsb_eqb, Hds, dests_iff, Hd. }
  cbn [negb].
  match goal with |- context [norm_dict l ?m] => destruct (IH Hnd Hok' m) as (n' & E & Hb & Ho & He) end.
  exists n'. split; [done|].
  assert (forall k' old d, k' <> k -> entry ((k, ds) :: l) k' old d <-> entry l k' old d) as Hdiff.
  { intros k' old d Hne. unfold entry. simpl. split.
    - intros [(ds' & [E'|H] & L)|[H1 H2]]; [congruence|left; eauto|right; split; [|done]; intros ds' H; eapply H1; eauto].
    - intros [(ds' & H & L)|[H1 H2]]; [left; eauto|right; split; [|done]; intros ds' [E'|H]; [congruence|by eapply H1]]. }
  assert (forall old d, entry ((k, ds) :: l) k old d <-> entry l k dl d) as Hsame.
  { intros old d. unfold entry. simpl. split.
    - intros [(ds' & [E'|H] & L)|[H1 H2]].
      + injection E' as <-. right. split; [done|]. by apply dests_iff.
      + by destruct (Hno _ H).
      + destruct (H1 ds). by left.
    - intros [(ds' & H & L)|[H1 H2]]; [by destruct (Hno _ H)|]. left. exists ds. split; [by left|]. by apply dests_iff. }
  revert Hb Ho He. simpl in Hin. destruct Hin as [<-|[<-|[<-|[]]]]; cbn; intros Hb Ho He;
    (split; [|split]); intros d;
    first [rewrite Hb|rewrite Ho|rewrite He]; symmetry; first [apply Hdiff; done|apply Hsame].
Qed.

Lemma norm_dict_exn l : ~ dict_ok l -> forall n, norm_dict l n = Exn XValue.
Proof.
  induction l as [|[k ds] l IH] => Hok n.
  { destruct Hok. by intros k ds []. }
  cbn [norm_dict].
  destruct (existsb (String.eqb k) ["stdout"; "stderr"; "both"]) eqn:E1; [|done]. cbn [negb].
  destruct (forallb _ _) eqn:E2; [|done]. cbn [negb].
  apply IH. intros H. apply Hok. intros k' ds' [E|Hin]; [|by apply H].
  injection E as <- <-. split; [by apply existsb_eqb|].
  intros d Hd. rewrite forallb_forall in E2. apply existsb_eqb, E2, dests_iff, Hd.
Qed.

Lemma normalize_valid c : is_dict c -> (valid c -> exists n, normalize c = Ok n) /\ (~ valid c -> normalize c = Exn XValue).
Proof.
  intros Hd. split.
  - intros H. destruct H as [a H|l H].
    + simpl in H. destruct H as [<-|[<-|[<-|[<-|[<-|[]]]]]]; vm_compute; eauto.
    + destruct (norm_dict_ok l Hd H nc_empty) as (n' & E & _). eauto.
  - destruct c as [a|l|]; cbn [normalize]; [| |done].
    + intros H.
      repeat (match goal with |- context [String.eqb a ?x] =>
        destruct (String.eqb_spec a x) as [->|?]; [destruct H; constructor; simpl; auto 10|] end). done.
    + intros H. apply norm_dict_exn. intros H'. apply H. by constructor.
Qed.

Definition nc_of (s : source) (n : nconf) : list string := match s with Stdout => nc_stdout n | Stderr => nc_stderr n end.

Lemma normalize_routes c n s : is_dict c -> normalize c = Ok n ->
  (routes c s Screen <-> In "screen" (nc_both n ++ nc_of s n)) /\
  (routes c s LaunchLog <-> In "log" (nc_both n ++ nc_of s n)) /\
  (routes c s OwnLog <-> In "own_log" (nc_of s n)) /\
  (routes c s CombinedLog <-> In "own_log" (nc_both n)).
Proof.
  intros Hd. destruct c as [a|l|]; [| |done].
  - cbn [normalize].
    repeat (match goal with |- context [String.eqb a ?x] =>
      destruct (String.eqb_spec a x) as [->|?]; [intros [= <-]; destruct s; simpl;
        repeat split; intros H; first [by inversion H|by constructor|by simpl in *; naive_solver|by simpl in *; auto 10]|] end).
    done.
  - intros E. simpl in Hd, E.
    assert (dict_ok l) as Hok.
    { destruct (decide (Forall (fun kd => In (fst kd) ["stdout"; "stderr"; "both"] /\
          Forall (fun d => In d ["screen"; "log"; "own_log"]) (match snd kd with DOne d => [d] | DMany ds0 => ds0 end)) l)) as [H|H].
      - intros k ds Hin. rewrite Forall_forall in H. apply elem_of_list_In in Hin. destruct (H _ Hin) as [H1 H2].
        split; [done|]. intros d Hds. rewrite Forall_forall in H2. apply (H2 d). apply elem_of_list_In. by apply dests_iff.
      - exfalso. rewrite norm_dict_exn in E; [|done].
        intros H'. apply H. apply Forall_forall. intros [k ds] Hin. apply elem_of_list_In in Hin. destruct (H' _ _ Hin) as [H1 H2].
        split; [done|]. apply Forall_forall. intros d Hds. apply H2. apply dests_iff. by apply elem_of_list_In. }
    destruct (norm_dict_ok l Hd Hok nc_empty) as (n' & E' & Hb & Ho & He). rewrite E in E'. injection E' as <-.
    assert (forall d, In d (nc_both n) <-> exists ds, In ("both", ds) l /\ listed d ds) as Hb'.
    { intros d. rewrite Hb. unfold entry. simpl. naive_solver. }
    assert (forall d, In d (nc_of s n) <-> exists ds, In (src_name s, ds) l /\ listed d ds) as Hs'.
    { intros d. destruct s; simpl; [rewrite Ho|rewrite He]; unfold entry; simpl; naive_solver. }
    rewrite !in_app_iff !Hb' !Hs'.
    split; [|split; [|split]]; split.
    + intros H. inversion H as [| | | | | | | |l' k ds s' H1 [->| ->] H3|l' k ds s' H1 [->| ->] H3| |]; subst; eauto.
    + intros [(ds & H & L)|(ds & H & L)]; econstructor; eauto.
    + intros H. inversion H as [| | | | | | | |l' k ds s' H1 [->| ->] H3|l' k ds s' H1 [->| ->] H3| |]; subst; eauto.
    + intros [(ds & H & L)|(ds & H & L)]; econstructor; eauto.
    + intros H. inversion H; subst; eauto.
    + intros (ds & H & L). econstructor; eauto.
    + intros H. inversion H; subst; eauto.
    + intros (ds & H & L). econstructor; eauto.
Qed.

(** ** Well-formed states *)
Definition sink_at (st : lstate) (h : nat) : option sink := hd_sink <$> ls_handlers st !! h.
Definition wf (st : lstate) : Prop :=
  (forall h, ls_screen st = Some h -> sink_at st h = Some ToScreen) /\
  (forall n h, ls_files st !! n = Some h -> exists d, sink_at st h = Some (ToFile d n)) /\
  (forall n h x, ls_files st !! n = Some h -> n <> "launch.log" -> ls_handlers st !! h = Some x -> hd_for x = ∅) /\
  (forall lg h, In h (handlers_of st lg) -> ls_screen st = Some h \/ exists n, ls_files st !! n = Some h) /\
  (forall lg, NoDup (handlers_of st lg)).

(** What a logger's handlers write, and how. *)
Definition eff (lg : string) (x : hand) : sink * fmt := (hd_sink x, default (hd_fmt x) (hd_for x !! lg)).
Definition view (st : lstate) (lg : string) : list (sink * fmt) :=
  omap (fun h => eff lg <$> ls_handlers st !! h) (handlers_of st lg).

Lemma sinks_view st lg : sinks st lg = map fst (view st lg).
Proof.
  unfold sinks, view. induction (handlers_of st lg) as [|h l IH]; [done|].
  simpl. destruct (ls_handlers st !! h) eqn:E; simpl; [f_equal|]; exact IH.
Qed.
Lemma view_ext st st' lg : handlers_of st' lg = handlers_of st lg ->
  (forall h, In h (handlers_of st lg) -> eff lg <$> ls_handlers st' !! h = eff lg <$> ls_handlers st !! h) -> view st' lg = view st lg.
Proof.
  unfold view. intros ->. induction (handlers_of st lg) as [|h l IH]; intros H; [done|].
  assert (omap (fun h => eff lg <$> ls_handlers st' !! h) l = omap (fun h => eff lg <$> ls_handlers st !! h) l) as IH'
    by (apply IH; intros h' Hh; apply H; by right).
  simpl. rewrite (H h (or_introl eq_refl)). destruct (eff lg <$> _); [f_equal|]; exact IH'.
Qed.
Lemma wf_start : wf log_start.
Proof. repeat split; intros; try done; try (by rewrite lookup_empty in H). constructor. Qed.
Lemma wf_reset st : wf (log_reset st).
Proof. repeat split; intros; try done; try (by rewrite lookup_empty in H). constructor. Qed.

Lemma is_in_iff h l : is_in h l = true <-> In h l.
Proof.
  unfold is_in. rewrite existsb_exists. split.
  - intros (y & Hy & E). apply Nat.eqb_eq in E. by subst.
  - intros H. exists h. split; [done|apply Nat.eqb_refl].
Qed.
Lemma handlers_in st lg h k : wf st -> In h (handlers_of st lg) -> sink_at st h = Some k -> In k (sinks st lg).
Proof.
  intros _ Hin Hk. unfold sinks. apply elem_of_list_In, elem_of_list_omap. exists h. split; [by apply elem_of_list_In|done].
Qed.

(** Getting a handler adds it to the end, and changes nothing else. *)
Definition grows (st st' : lstate) : Prop :=
  ls_loggers st' = ls_loggers st /\ (exists xs, ls_handlers st' = ls_handlers st ++ xs) /\ ls_written st' = ls_written st.
Lemma grows_handlers st st' lg : grows st st' -> handlers_of st' lg = handlers_of st lg.
Proof. intros (E & _). unfold handlers_of. by rewrite E. Qed.
Lemma grows_lookup st st' h x : grows st st' -> ls_handlers st !! h = Some x -> ls_handlers st' !! h = Some x.
Proof. intros (_ & (xs & E) & _) H. rewrite E. by apply lookup_app_l_Some. Qed.
Lemma wf_lookup st lg h : wf st -> In h (handlers_of st lg) -> exists x, ls_handlers st !! h = Some x.
Proof.
  intros (W1 & W2 & W3 & W4 & W5) H. destruct (W4 _ _ H) as [E|[n E]].
  - apply W1 in E. unfold sink_at in E. destruct (ls_handlers st !! h); [eauto|done].
  - apply W2 in E as [d E]. unfold sink_at in E. destruct (ls_handlers st !! h); [eauto|done].
Qed.
Lemma grows_view st st' lg : wf st -> grows st st' -> view st' lg = view st lg.
Proof.
  intros W G. apply view_ext; [by apply grows_handlers|].
  intros h H. destruct (wf_lookup _ _ _ W H) as [x E]. by rewrite E (grows_lookup _ _ _ _ G E).
Qed.
Lemma grows_sink st st' h k : grows st st' -> sink_at st h = Some k -> sink_at st' h = Some k.
Proof.
  unfold sink_at. intros G. destruct (ls_handlers st !! h) eqn:E; [|done].
  by rewrite (grows_lookup _ _ _ _ G E).
Qed.

Lemma screen_get st : wf st ->
  let '(h, st') := get_screen_handler st in
  wf st' /\ grows st st' /\ ls_screen st' = Some h /\ sink_at st' h = Some ToScreen /\ ls_files st' = ls_files st /\ ls_dir st' = ls_dir st.
Proof.
  intros W. pose proof W as (W1 & W2 & W3 & W4 & W5). unfold get_screen_handler.
  destruct (ls_screen st) as [h|] eqn:E.
  { split; [done|]. split; [by repeat split; exists []; rewrite app_nil_r|]. split; [done|]. split; [by apply W1|done]. }
  match goal with |- wf ?s /\ _ => set (st' := s) end.
  assert (grows st st') as G by (repeat split; by eexists).
  assert (sink_at st' (length (ls_handlers st)) = Some ToScreen) as Hs.
  { unfold sink_at. simpl. by rewrite list_lookup_middle. }
  split; [|done].
  split; [|split; [|split; [|split]]].
  - intros h [= <-]. done.
  - intros n h H. destruct (W2 _ _ H) as [d Hd]. exists d. by eapply grows_sink.
  - intros n h x H Hn Hx. destruct (W2 _ _ H) as [d Hd]. unfold sink_at in Hd.
    destruct (ls_handlers st !! h) eqn:El; [|done]. rewrite (grows_lookup _ _ _ _ G El) in Hx. injection Hx as <-. by eapply W3.
  - intros lg h H. rewrite (grows_handlers _ _ _ G) in H. destruct (W4 _ _ H) as [E'|H']; [congruence|by right].
  - intros lg. rewrite (grows_handlers _ _ _ G). apply W5.
Qed.

Lemma file_get made n st : wf st ->
  let '(h, st') := get_log_file_handler made n st in
  wf st' /\ grows st st' /\ ls_files st' !! n = Some h /\ (exists d, sink_at st' h = Some (ToFile d n)) /\ ls_screen st' = ls_screen st.
Proof.
  intros W. pose proof W as (W1 & W2 & W3 & W4 & W5). unfold get_log_file_handler.
  destruct (ls_files st !! n) as [h|] eqn:E.
  { split; [done|]. split; [by repeat split; exists []; rewrite app_nil_r|]. split; [done|]. split; [by apply W2|done]. }
  match goal with |- wf ?s /\ _ => set (st' := s) end.
  assert (grows st st') as G by (repeat split; by eexists).
  assert (sink_at st' (length (ls_handlers st)) = Some (ToFile (log_dir made st) n)) as Hs.
  { unfold sink_at. simpl. by rewrite list_lookup_middle. }
  assert (ls_files st' !! n = Some (length (ls_handlers st))) as Hn by (simpl; apply lookup_insert).
  split; [|split; [done|]; split; [done|]; split; [eauto|done]].
  split; [|split; [|split; [|split]]].
  - intros h H. eapply grows_sink; [done|]. by apply W1.
  - intros n' h H. simpl in H. destruct (decide (n = n')) as [<-|Hne].
    + rewrite lookup_insert in H. injection H as <-. eauto.
    + rewrite lookup_insert_ne in H; [done|]. destruct (W2 _ _ H) as [d Hd]. exists d. by eapply grows_sink.
  - intros n' h x H Hn' Hx. simpl in H. destruct (decide (n = n')) as [<-|Hne].
    + rewrite lookup_insert in H. injection H as <-. simpl in Hx. rewrite list_lookup_middle in Hx; [done|]. by injection Hx as <-.
    + rewrite lookup_insert_ne in H; [done|]. destruct (W2 _ _ H) as [d Hd]. unfold sink_at in Hd.
      destruct (ls_handlers st !! h) eqn:El; [|done]. rewrite (grows_lookup _ _ _ _ G El) in Hx. injection Hx as <-. by eapply W3.
  - intros lg h H. rewrite (grows_handlers _ _ _ G) in H. destruct (W4 _ _ H) as [E'|[n' H']]; [by left|].
    right. exists n'. simpl. rewrite lookup_insert_ne; [congruence|done].
  - intros lg. rewrite (grows_handlers _ _ _ G). apply W5.
Qed.

(** Attaching a handler. *)
Lemma handlers_add st lg h lg' : handlers_of (add_handler lg h st) lg' = if bool_decide (lg' = lg) then handlers_of st lg ++ [h] else handlers_of st lg'.
Proof.
  unfold handlers_of, add_handler, with_loggers. simpl. case_bool_decide.
  - subst. by rewrite lookup_insert.
  - rewrite lookup_insert_ne; done.
Qed.
Lemma wf_add st lg h : wf st -> (ls_screen st = Some h \/ exists n, ls_files st !! n = Some h) -> ~ In h (handlers_of st lg) -> wf (add_handler lg h st).
Proof.
  intros (W1 & W2 & W3 & W4 & W5) Hh Hno. split; [done|]. split; [done|]. split; [done|]. split.
  - intros lg' h'. rewrite handlers_add. case_bool_decide; [|apply W4].
    rewrite in_app_iff. intros [H'|[<-|[]]]; [by eapply W4|done].
  - intros lg'. rewrite handlers_add. case_bool_decide; [|apply W5].
    apply NoDup_app. split; [apply W5|]. split; [|apply NoDup_singleton].
    intros x Hx Hx'. apply elem_of_list_singleton in Hx'. subst. apply Hno. by apply elem_of_list_In.
Qed.
Lemma view_add st lg h x lg' : ls_handlers st !! h = Some x ->
  view (add_handler lg h st) lg' = if bool_decide (lg' = lg) then view st lg ++ [eff lg x] else view st lg'.
Proof.
  intros E. unfold view. rewrite handlers_add. case_bool_decide; [|done]. subst.
  rewrite omap_app. simpl. by rewrite E.
Qed.

(** Changing formatters. *)
Lemma sink_alter st g h h' : (forall x, hd_sink (g x) = hd_sink x) -> sink_at (with_handlers (alter g h) st) h' = sink_at st h'.
Proof.
  intros Hg. unfold sink_at. simpl. destruct (decide (h' = h)) as [->|Hne].
  - rewrite list_lookup_alter. destruct (ls_handlers st !! h); simpl; [by rewrite Hg|done].
  - rewrite list_lookup_alter_ne; done.
Qed.
Lemma wf_alter st g h : wf st -> (forall x, hd_sink (g x) = hd_sink x) ->
  (forall n x, ls_files st !! n = Some h -> n <> "launch.log" -> hd_for (g x) = hd_for x) -> wf (with_handlers (alter g h) st).
Proof.
  intros (W1 & W2 & W3 & W4 & W5) Hg Hf. split; [|split; [|split; [|split]]].
  - intros h' E. rewrite sink_alter; [done|]. by apply W1.
  - intros n h' E. rewrite sink_alter; [done|]. by apply W2.
  - intros n h' x E Hn Hx. simpl in Hx, E. destruct (decide (h' = h)) as [->|Hne].
    + rewrite list_lookup_alter in Hx. destruct (ls_handlers st !! h) as [y|] eqn:Ey; [|done]. injection Hx as <-.
      rewrite (Hf n y E Hn). by eapply W3.
    + rewrite list_lookup_alter_ne in Hx; [done|]. by eapply W3.
  - apply W4.
  - apply W5.
Qed.
Lemma view_alter st g h lg : (forall x, ls_handlers st !! h = Some x -> In h (handlers_of st lg) -> eff lg (g x) = eff lg x) ->
  view (with_handlers (alter g h) st) lg = view st lg.
Proof.
  intros H. apply view_ext; [done|]. intros h' Hin. simpl. destruct (decide (h' = h)) as [->|Hne].
  - rewrite list_lookup_alter. destruct (ls_handlers st !! h) as [x|] eqn:E; [|done]. simpl. by rewrite H.
  - by rewrite list_lookup_alter_ne.
Qed.

(** ** Attaching the handlers of one logger *)
(** [touch lg st st']: only the handlers of [lg] may have changed, and sinks are kept. *)
Definition touch (lg : string) (st st' : lstate) : Prop :=
  wf st' /\ (forall lg', lg' <> lg -> handlers_of st' lg' = handlers_of st lg') /\
  (forall h k, sink_at st h = Some k -> sink_at st' h = Some k) /\ ls_written st' = ls_written st.
Lemma touch_refl lg st : wf st -> touch lg st st.
Proof. intros W. split; [done|]. by repeat split. Qed.
Lemma touch_trans lg s1 s2 s3 : touch lg s1 s2 -> touch lg s2 s3 -> touch lg s1 s3.
Proof.
  intros (A1 & A2 & A3 & A4) (B1 & B2 & B3 & B4). split; [done|]. split; [|split].
  - intros lg' H. by rewrite B2 // A2.
  - intros h k H. by apply B3, A3.
  - congruence.
Qed.
Lemma touch_grows lg st st' : wf st' -> grows st st' -> touch lg st st'.
Proof.
  intros W G. split; [done|]. split; [intros; by apply grows_handlers|]. split; [intros h k; by apply grows_sink|apply G].
Qed.
Lemma touch_add lg st h : wf st -> (ls_screen st = Some h \/ exists n, ls_files st !! n = Some h) -> ~ In h (handlers_of st lg) -> touch lg st (add_handler lg h st).
Proof.
  intros W Hh Hn. split; [by apply wf_add|]. split; [|done].
  intros lg' Hne. rewrite handlers_add. by case_bool_decide.
Qed.
Lemma touch_alter lg st g h : wf st -> (forall x, hd_sink (g x) = hd_sink x) ->
  (forall n x, ls_files st !! n = Some h -> n <> "launch.log" -> hd_for (g x) = hd_for x) -> touch lg st (with_handlers (alter g h) st).
Proof.
  intros W Hg Hf. split; [by apply wf_alter|]. split; [done|]. split; [|done].
  intros h' k. by rewrite sink_alter.
Qed.

Lemma in_is_in h l : is_in h l = false -> ~ In h l.
Proof. intros E H. apply is_in_iff in H. congruence. Qed.
Lemma screen_not_file st h n : wf st -> sink_at st h = Some ToScreen -> ls_files st !! n = Some h -> False.
Proof. intros (W1 & W2 & _) H1 H2. apply W2 in H2 as [d H2]. congruence. Qed.

Lemma out_screen_touch lg st : wf st -> touch lg st (out_screen lg st) /\ ls_files (out_screen lg st) = ls_files st.
Proof.
  intros W. unfold out_screen. pose proof (screen_get st W) as H. destruct (get_screen_handler st) as [h st1].
  destruct H as (W1 & G & E1 & E2 & E3 & _).
  destruct (is_in h (handlers_of st1 lg)) eqn:E; [split; [by apply touch_grows|done]|].
  split; [|done]. eapply touch_trans; [by apply touch_grows|].
  eapply touch_trans; [apply touch_alter|apply touch_add]; try done.
  - intros n x Hn. by destruct (screen_not_file st1 h n W1 E2 Hn).
  - apply wf_alter; [done|done|]. intros n x Hn. by destruct (screen_not_file st1 h n W1 E2 Hn).
  - by left.
  - by apply in_is_in.
Qed.
Lemma out_screen_view lg st : wf st -> ~ In ToScreen (sinks st lg) ->
  view (out_screen lg st) lg = view st lg ++ [(ToScreen, FMsg)] /\
  forall lg', lg' <> lg -> view (out_screen lg st) lg' = view st lg'.
Proof.
  intros W Hno. unfold out_screen. pose proof (screen_get st W) as H. destruct (get_screen_handler st) as [h st1].
  destruct H as (W1 & G & E1 & E2 & E3 & _).
  assert (is_in h (handlers_of st1 lg) = false) as E.
  { destruct (is_in h (handlers_of st1 lg)) eqn:E; [|done]. apply is_in_iff in E. destruct Hno.
    rewrite (sinks_view st) -(grows_view st st1 lg W G) -sinks_view. by eapply handlers_in. }
  rewrite E. unfold sink_at in E2. destruct (ls_handlers st1 !! h) as [x|] eqn:Ex; [|done]. injection E2 as E2.
  unfold set_fmt_for. set (g := fun _ : hand => _).
  assert (ls_handlers (with_handlers (alter g h) st1) !! h = Some (g x)) as Eg by (simpl; by rewrite list_lookup_alter Ex).
  split.
  - rewrite (view_add _ _ _ _ _ Eg). rewrite bool_decide_true //.
    rewrite view_alter; [|rewrite (grows_view st st1 lg W G); f_equal; unfold eff, g; simpl; by rewrite E2 lookup_insert].
    intros y _ Hin. exfalso. by apply (in_is_in _ _ E).
  - intros lg' Hne. rewrite (view_add _ _ _ _ _ Eg). rewrite bool_decide_false //.
    rewrite view_alter; [|by apply grows_view].
    intros y _ _. unfold eff, g. simpl. by rewrite lookup_insert_ne.
Qed.

Lemma out_launch_touch made lg st : wf st -> touch lg st (out_launch made lg st).
Proof.
  intros W. unfold out_launch. pose proof (file_get made "launch.log" st W) as H. destruct (get_log_file_handler made "launch.log" st) as [h st1].
  destruct H as (W1 & G & E1 & (d & E2) & E3).
  destruct (is_in h (handlers_of st1 lg)) eqn:E; [by apply touch_grows|].
  assert (forall n, ls_files st1 !! n = Some h -> n = "launch.log") as Hinj.
  { intros n Hn. destruct W1 as (_ & W2 & _). destruct (W2 _ _ Hn) as [d' Hd]. congruence. }
  eapply touch_trans; [by apply touch_grows|].
  eapply touch_trans; [apply touch_alter|apply touch_add]; try done.
  - intros n x Hn Hne. by apply Hinj in Hn.
  - apply wf_alter; [done|done|]. intros n x Hn Hne. by apply Hinj in Hn.
  - right. by eexists.
  - by apply in_is_in.
Qed.
Lemma out_launch_view made lg st : wf st -> (forall d, ~ In (ToFile d "launch.log") (sinks st lg)) ->
  (exists d, view (out_launch made lg st) lg = view st lg ++ [(ToFile d "launch.log", FStampMsg)]) /\
  forall lg', lg' <> lg -> view (out_launch made lg st) lg' = view st lg'.
Proof.
  intros W Hno. unfold out_launch. pose proof (file_get made "launch.log" st W) as H. destruct (get_log_file_handler made "launch.log" st) as [h st1].
  destruct H as (W1 & G & E1 & (d & E2) & E3).
  assert (is_in h (handlers_of st1 lg) = false) as E.
  { destruct (is_in h (handlers_of st1 lg)) eqn:E; [|done]. apply is_in_iff in E. destruct (Hno d).
    rewrite (sinks_view st) -(grows_view st st1 lg W G) -sinks_view. by eapply handlers_in. }
  rewrite E. unfold sink_at in E2. destruct (ls_handlers st1 !! h) as [x|] eqn:Ex; [|done]. injection E2 as E2.
  unfold set_fmt_for. set (g := fun _ : hand => _).
  assert (ls_handlers (with_handlers (alter g h) st1) !! h = Some (g x)) as Eg by (simpl; by rewrite list_lookup_alter Ex).
  split.
  - exists d. rewrite (view_add _ _ _ _ _ Eg). rewrite bool_decide_true //.
    rewrite view_alter; [|rewrite (grows_view st st1 lg W G); f_equal; unfold eff, g; simpl; by rewrite E2 lookup_insert].
    intros y _ Hin. exfalso. by apply (in_is_in _ _ E).
  - intros lg' Hne. rewrite (view_add _ _ _ _ _ Eg). rewrite bool_decide_false //.
    rewrite view_alter; [|by apply grows_view].
    intros y _ _. unfold eff, g. simpl. by rewrite lookup_insert_ne.
Qed.

Lemma out_file_touch made lg n st : wf st -> touch lg st (out_file made lg n st).
Proof.
  intros W. unfold out_file. pose proof (file_get made n st W) as H. destruct (get_log_file_handler made n st) as [h st1].
  destruct H as (W1 & G & E1 & (d & E2) & E3).
  assert (touch lg st (set_fmt FMsg h st1)) as T.
  { eapply touch_trans; [by apply touch_grows|]. by apply touch_alter. }
  destruct (is_in h (handlers_of (set_fmt FMsg h st1) lg)) eqn:E; [done|].
  eapply touch_trans; [done|]. apply touch_add.
  - apply T.
  - right. by exists n.
  - by apply in_is_in.
Qed.
Lemma out_file_view made lg n st : wf st -> n <> "launch.log" -> (forall d, ~ In (ToFile d n) (sinks st lg)) ->
  (exists d, view (out_file made lg n st) lg = view st lg ++ [(ToFile d n, FMsg)]) /\
  forall lg', lg' <> lg -> (forall d f, In (ToFile d n, f) (view st lg') -> f = FMsg) -> view (out_file made lg n st) lg' = view st lg'.
Proof.
  intros W Hn Hno. unfold out_file. pose proof (file_get made n st W) as H. destruct (get_log_file_handler made n st) as [h st1].
  destruct H as (W1 & G & E1 & (d & E2) & E3).
  assert (is_in h (handlers_of st1 lg) = false) as E.
  { destruct (is_in h (handlers_of st1 lg)) eqn:E; [|done]. apply is_in_iff in E. destruct (Hno d).
    rewrite (sinks_view st) -(grows_view st st1 lg W G) -sinks_view. by eapply handlers_in. }
  unfold set_fmt. set (g := fun _ : hand => _).
  change (handlers_of (with_handlers (alter g h) st1) lg) with (handlers_of st1 lg). rewrite E.
  unfold sink_at in E2. destruct (ls_handlers st1 !! h) as [x|] eqn:Ex; [|done]. injection E2 as E2.
  assert (hd_for x = ∅) as Hfor by (by eapply W1).
  assert (ls_handlers (with_handlers (alter g h) st1) !! h = Some (g x)) as Eg by (simpl; by rewrite list_lookup_alter Ex).
  split.
  - exists d. rewrite (view_add _ _ _ _ _ Eg). rewrite bool_decide_true //.
    rewrite view_alter; [|rewrite (grows_view st st1 lg W G); f_equal; unfold eff, g; simpl; by rewrite E2 Hfor lookup_empty].
    intros y _ Hin. exfalso. by apply (in_is_in _ _ E).
  - intros lg' Hne Hf. rewrite (view_add _ _ _ _ _ Eg). rewrite bool_decide_false //.
    rewrite view_alter; [|by apply grows_view].
    intros y Hy Hin. rewrite Ex in Hy. injection Hy as <-. unfold eff, g. simpl. rewrite Hfor lookup_empty. simpl. f_equal.
    symmetry. apply (Hf d). rewrite -(grows_view st st1 lg' W G). unfold view. apply elem_of_list_In, elem_of_list_omap.
    exists h. split; [by apply elem_of_list_In|]. rewrite Ex. simpl. unfold eff. by rewrite E2 Hfor lookup_empty.
Qed.

(** ** The handlers of one source *)
Definition vif (b : bool) (x : sink * fmt) : list (sink * fmt) := if b then [x] else [].
Definition steady (names : list string) (v : list (sink * fmt)) : Prop :=
  forall d n f, In n names -> In (ToFile d n, f) v -> f = FMsg.

Lemma opt_screen b lg st : wf st -> ~ In ToScreen (sinks st lg) ->
  let st' := if b then out_screen lg st else st in
  touch lg st st' /\ view st' lg = view st lg ++ vif b (ToScreen, FMsg) /\ forall lg', lg' <> lg -> view st' lg' = view st lg'.
Proof.
  intros W H. destruct b; simpl.
  - split; [by apply out_screen_touch|]. by apply out_screen_view.
  - split; [by apply touch_refl|]. by rewrite app_nil_r.
Qed.
Lemma opt_launch b made lg st : wf st -> (forall d, ~ In (ToFile d "launch.log") (sinks st lg)) ->
  let st' := if b then out_launch made lg st else st in
  touch lg st st' /\ (exists d, view st' lg = view st lg ++ vif b (ToFile d "launch.log", FStampMsg)) /\ forall lg', lg' <> lg -> view st' lg' = view st lg'.
Proof.
  intros W H. destruct b; simpl.
  - split; [by apply out_launch_touch|]. by apply out_launch_view.
  - split; [by apply touch_refl|]. split; [exists ""; by rewrite app_nil_r|done].
Qed.
Lemma opt_file b made lg n st : wf st -> n <> "launch.log" -> (forall d, ~ In (ToFile d n) (sinks st lg)) ->
  let st' := if b then out_file made lg n st else st in
  touch lg st st' /\ (exists d, view st' lg = view st lg ++ vif b (ToFile d n, FMsg)) /\
  forall lg' names, lg' <> lg -> In n names -> steady names (view st lg') -> view st' lg' = view st lg'.
Proof.
  intros W Hn H. destruct b; simpl.
  - split; [by apply out_file_touch|]. destruct (out_file_view made lg n st W Hn H) as [H1 H2]. split; [done|].
    intros lg' names Hne Hin Hs. apply H2; [done|]. intros d f. by apply Hs.
  - split; [by apply touch_refl|]. split; [exists ""; by rewrite app_nil_r|done].
Qed.

Lemma own_not_launch p s : (p ++ "-" ++ src_name s ++ ".log")%string <> "launch.log".
Proof. intros H. apply (f_equal String.length) in H. rewrite str_app_length in H. destruct s; simpl in H; lia. Qed.
Lemma comb_not_launch p : p <> "launch" -> (p ++ ".log")%string <> "launch.log".
Proof. intros Hp H. apply Hp. by apply (str_app_inv_r p "launch" ".log"). Qed.
Lemma own_not_comb p s : (p ++ "-" ++ src_name s ++ ".log")%string <> (p ++ ".log")%string.
Proof. intros H. by apply str_app_inv_l in H. Qed.

Definition own_file (p : string) (s : source) : string := (p ++ "-" ++ src_name s ++ ".log")%string.
Definition comb_file (p : string) : string := (p ++ ".log")%string.

Lemma sinks_vif (st : lstate) lg v : view st lg = v -> sinks st lg = map fst v.
Proof. intros <-. apply sinks_view. Qed.

Lemma out_source_view made p s both own st : wf st -> p <> "launch" -> view st (logger_of p s) = [] ->
  let st' := out_source made p (src_name s) both own st in
  touch (logger_of p s) st st' /\
  (exists d2 d3 d4, view st' (logger_of p s) =
    vif (wanted "screen" (both ++ own)) (ToScreen, FMsg) ++ vif (wanted "log" (both ++ own)) (ToFile d2 "launch.log", FStampMsg) ++
    vif (wanted "own_log" own) (ToFile d3 (own_file p s), FMsg) ++ vif (wanted "own_log" both) (ToFile d4 (comb_file p), FMsg)) /\
  forall lg', lg' <> logger_of p s -> steady [own_file p s; comb_file p] (view st lg') -> view st' lg' = view st lg'.
Proof.
  intros W Hp Hv. unfold out_source. fold (logger_of p s). set (lg := logger_of p s) in *.
  set (b1 := wanted "screen" (both ++ own)). set (b2 := wanted "log" (both ++ own)).
  set (b3 := wanted "own_log" own). set (b4 := wanted "own_log" both).
  assert (~ In ToScreen (sinks st lg)) as Hs0 by (rewrite (sinks_vif _ _ _ Hv); simpl; tauto).
  destruct (opt_screen b1 lg st W Hs0) as (T1 & V1 & O1). set (st1 := if b1 then _ else _) in *.
  rewrite Hv in V1. simpl in V1.
  assert (forall d, ~ In (ToFile d "launch.log") (sinks st1 lg)) as Hs1.
  { intros d. rewrite (sinks_vif _ _ _ V1). destruct b1; simpl; [|tauto]. intros [?|[]]; done. }
  destruct (opt_launch b2 made lg st1 (proj1 T1) Hs1) as (T2 & (d2 & V2) & O2). set (st2 := if b2 then _ else _) in *.
  rewrite V1 in V2.
  assert (forall d, ~ In (ToFile d (own_file p s)) (sinks st2 lg)) as Hs2.
  { intros d. rewrite (sinks_vif _ _ _ V2) map_app in_app_iff. intros [H|H].
    - destruct b1; simpl in H; [destruct H as [?|[]]|]; done.
    - destruct b2; simpl in H; [destruct H as [H|[]]|done]. injection H as _ H. by apply (own_not_launch p s). }
  destruct (opt_file b3 made lg (own_file p s) st2 (proj1 T2) (own_not_launch p s) Hs2) as (T3 & (d3 & V3) & O3). set (st3 := if b3 then _ else _) in *.
  rewrite V2 in V3.
  assert (forall d, ~ In (ToFile d (comb_file p)) (sinks st3 lg)) as Hs3.
  { intros d. rewrite (sinks_vif _ _ _ V3) !map_app !in_app_iff. intros [[H|H]|H].
    - destruct b1; simpl in H; [destruct H as [?|[]]|]; done.
    - destruct b2; simpl in H; [destruct H as [H|[]]|done]. injection H as _ H. by apply (comb_not_launch p Hp).
    - destruct b3; simpl in H; [destruct H as [H|[]]|done]. injection H as _ H. by apply (own_not_comb p s). }
  destruct (opt_file b4 made lg (comb_file p) st3 (proj1 T3) (comb_not_launch p Hp) Hs3) as (T4 & (d4 & V4) & O4). set (st4 := if b4 then _ else _) in *.
  rewrite V3 in V4. cbv zeta.
  change (if b4 then out_file made lg (p ++ ".log") st3 else st3) with st4.
  split; [by eapply touch_trans; [|eapply touch_trans; [|eapply touch_trans]]|].
  split; [exists d2, d3, d4; by rewrite V4 -!app_assoc|].
  intros lg' Hne Hst.
  assert (view st2 lg' = view st lg') as E2 by (by rewrite O2 // O1).
  assert (view st3 lg' = view st lg') as E3.
  { rewrite (O3 lg' [own_file p s; comb_file p]); [done|by left|by rewrite E2|done]. }
  rewrite (O4 lg' [own_file p s; comb_file p]); [done|by right; left|by rewrite E3|done].
Qed.

Lemma out_source_touch made p s both own st : wf st -> touch (logger_of p s) st (out_source made p (src_name s) both own st).
Proof.
  intros W. unfold out_source. fold (logger_of p s). set (lg := logger_of p s).
  assert (forall (b : bool) (f : lstate -> lstate) s1, (forall s2, wf s2 -> touch lg s2 (f s2)) -> touch lg st s1 -> touch lg st (if b then f s1 else s1)) as Hstep.
  { intros b f s1 Hf T. destruct b; [|done]. eapply touch_trans; [done|]. apply Hf, T. }
  cbv zeta.
  apply (Hstep _ (out_file made lg _)); [intros; by apply out_file_touch|].
  apply (Hstep _ (out_file made lg _)); [intros; by apply out_file_touch|].
  apply (Hstep _ (out_launch made lg)); [intros; by apply out_launch_touch|].
  apply (Hstep _ (out_screen lg)); [intros; by apply out_screen_touch|].
  by apply touch_refl.
Qed.
Lemma get_logger_touch made lg st : wf st -> touch lg st (get_logger made lg st).
Proof.
  intros W. unfold get_logger. pose proof (screen_get st W) as H. destruct (get_screen_handler st) as [h st1].
  destruct H as (W1 & G & E1 & E2 & E3 & _).
  assert (touch lg st (if is_in h (handlers_of st1 lg) then st1 else add_handler lg h st1)) as T.
  { destruct (is_in h (handlers_of st1 lg)) eqn:E; [by apply touch_grows|].
    eapply touch_trans; [by apply touch_grows|]. apply touch_add; [done|by left|by apply in_is_in]. }
  set (st2 := if is_in h _ then _ else _) in *.
  pose proof (file_get made "launch.log" st2 (proj1 T)) as H. destruct (get_log_file_handler made "launch.log" st2) as [h' st3].
  destruct H as (W3 & G3 & E4 & _).
  destruct (is_in h' (handlers_of st3 lg)) eqn:E; (eapply touch_trans; [done|]); [by apply touch_grows|].
  eapply touch_trans; [by apply touch_grows|]. apply touch_add; [done|right; by eexists|by apply in_is_in].
Qed.
Lemma set_fmt_touch lg f h st : wf st -> touch lg st (set_fmt f h st).
Proof. intros W. by apply touch_alter. Qed.
Lemma set_fmts_touch lg f l st : wf st -> touch lg st (fold_left (fun st h => set_fmt f h st) l st).
Proof.
  revert st. induction l as [|h l IH]; intros st W; simpl; [by apply touch_refl|].
  eapply touch_trans; [by apply set_fmt_touch|]. apply IH. by apply (set_fmt_touch lg f h st).
Qed.
Lemma wf_same st st' : ls_screen st' = ls_screen st -> ls_files st' = ls_files st -> ls_handlers st' = ls_handlers st -> ls_loggers st' = ls_loggers st -> wf st -> wf st'.
Proof.
  unfold wf, sink_at, handlers_of. intros E1 E2 E3 E4. by rewrite E1 E2 E3 E4.
Qed.

Lemma lstep_keeps other made o st lg : wf st -> not_about lg o -> wf (lstep other made o st) /\
  handlers_of (lstep other made o st) lg = handlers_of st lg /\ forall h k, sink_at st h = Some k -> sink_at (lstep other made o st) h = Some k.
Proof.
  intros W. destruct o as [n|p c|r|d|f|f|]; cbn [not_about lstep].
  - intros H. destruct (get_logger_touch made n st W) as (A & B & C & _). split; [done|]. split; [by apply B|done].
  - intros [H1 H2]. unfold get_output_loggers. destruct (normalize c) as [n|e|]; [|done|done].
    pose proof (out_source_touch made p Stdout (nc_both n) (nc_stdout n) st W) as (A1 & B1 & C1 & _).
    pose proof (out_source_touch made p Stderr (nc_both n) (nc_stderr n) _ A1) as (A2 & B2 & C2 & _).
    split; [done|]. split; [|intros h k Hk; by apply C2, C1].
    rewrite B2; [done|]. by rewrite B1.
  - intros _. split; [by apply (wf_same st)|]. done.
  - intros _. split; [by apply (wf_same st)|]. done.
  - intros _. unfold set_screen_format. cbv zeta. match goal with |- context [match ls_screen ?s with _ => _ end] => set (st1 := s) end.
    assert (wf st1) as W1 by by apply (wf_same st). destruct (ls_screen st1) as [h|]; [|done].
    destruct (set_fmt_touch ("x" ++ lg) f h st1 W1) as (A & B & C & _). done.
  - intros _. unfold set_log_format. cbv zeta. match goal with |- context [ls_files ?s] => set (st1 := s) end.
    assert (wf st1) as W1 by by apply (wf_same st). 
    destruct (set_fmts_touch ("x" ++ lg) f (map snd (map_to_list (ls_files st1))) st1 W1) as (A & B & C & _).
    split; [done|]. split; [|done]. apply (B lg). clear. intros H. apply (f_equal String.length) in H. simpl in H. lia.
  - done.
Qed.
Lemma lstep_wf other made o st : wf st -> wf (lstep other made o st).
Proof.
  intros W. destruct o as [n|p c|r|d|f|f|]; cbn [lstep].
  - by apply get_logger_touch.
  - unfold get_output_loggers. destruct (normalize c) as [n|e|]; [|done|done].
    pose proof (out_source_touch made p Stdout (nc_both n) (nc_stdout n) st W) as (A1 & _).
    by pose proof (out_source_touch made p Stderr (nc_both n) (nc_stderr n) _ A1) as (A2 & _).
  - by apply (wf_same st).
  - by apply (wf_same st).
  - by apply (lstep_keeps other made (LScreenFormat f) st "").
  - by apply (lstep_keeps other made (LLogFormat f) st "").
  - apply wf_reset.
Qed.
Lemma lrun_wf other l st : wf st -> wf (lrun other l st).
Proof. revert st. induction l as [|[m o] l IH]; intros st W; [done|]. apply IH. by apply lstep_wf. Qed.

Lemma sinks_keep st st' lg : wf st -> handlers_of st' lg = handlers_of st lg -> (forall h k, sink_at st h = Some k -> sink_at st' h = Some k) -> sinks st' lg = sinks st lg.
Proof.
  intros W E H. rewrite !sinks_view. unfold sinks, view. 
  assert (forall h, In h (handlers_of st lg) -> hd_sink <$> ls_handlers st' !! h = hd_sink <$> ls_handlers st !! h) as Heq.
  { intros h Hin. destruct (wf_lookup _ _ _ W Hin) as [x Ex]. fold (sink_at st' h). fold (sink_at st h).
    assert (sink_at st h = Some (hd_sink x)) as Hx by (unfold sink_at; by rewrite Ex). rewrite Hx. by apply H. }
  rewrite E. clear E H. induction (handlers_of st lg) as [|h l IH]; [done|].
  assert (map fst (omap (fun h => eff lg <$> ls_handlers st' !! h) l) = map fst (omap (fun h => eff lg <$> ls_handlers st !! h) l)) as IH'
    by (apply IH; intros h' Hh; apply Heq; by right).
  pose proof (Heq h (or_introl eq_refl)) as Hh. simpl.
  destruct (ls_handlers st' !! h) as [x|], (ls_handlers st !! h) as [y|]; simpl in *; try done.
  injection Hh as Hh. rewrite Hh. f_equal. exact IH'.
Qed.

Lemma stays other l st lg : wf st -> Forall (fun mo => not_about lg (snd mo)) l -> sinks (lrun other l st) lg = sinks st lg.
Proof.
  revert st. induction l as [|[m o] l IH]; intros st W H; [done|].
  apply Forall_cons in H as [H1 H2]. simpl. destruct (lstep_keeps other m o st lg W H1) as (A & B & C).
  rewrite (IH _ A H2). by apply sinks_keep.
Qed.

(** ** Lines *)
Lemma info_view other r st : ls_written (log_info other r st) = ls_written st ++ map (fun kf => (fst kf, render other (snd kf) r)) (view st (lr_name r)).
Proof.
  unfold log_info, view. simpl. f_equal. induction (handlers_of st (lr_name r)) as [|h l IH]; [done|].
  simpl. destruct (ls_handlers st !! h) as [x|]; simpl; [f_equal|]; exact IH.
Qed.
Lemma view_nil st lg : handlers_of st lg = [] -> view st lg = [].
Proof. unfold view. by intros ->. Qed.

Definition place_fmt (p : place) : fmt := match p with LaunchLog => FStampMsg | _ => FMsg end.
Lemma place_render other p r : render other (place_fmt p) r = place_text p r.
Proof. by destruct p. Qed.

Lemma routing_view made pname c st st' s : wf st -> pname <> "launch" -> is_dict c ->
  (forall s, handlers_of st (logger_of pname s) = []) -> get_output_loggers made pname c st = Ok st' ->
  exists (dir : place -> string) ps, NoDup ps /\ (forall p, In p ps <-> routes c s p) /\
    view st' (logger_of pname s) = map (fun p => (place_sink (dir p) pname s p, place_fmt p)) ps.
Proof.
  intros W Hp Hd Hfresh E. unfold get_output_loggers in E. destruct (normalize c) as [n|e|] eqn:En; [|done|done]. injection E as <-.
  destruct (out_source_view made pname Stdout (nc_both n) (nc_stdout n) st W Hp (view_nil _ _ (Hfresh Stdout))) as (T1 & (d2 & d3 & d4 & V1) & O1).
  set (st1 := out_source made pname (src_name Stdout) _ _ st) in *.
  assert (view st1 (logger_of pname Stderr) = []) as Hv1.
  { rewrite O1; [intros H; by apply str_app_inv_l in H| |by apply view_nil, Hfresh]. rewrite (view_nil _ _ (Hfresh Stderr)). by intros ? ? ? ? []. }
  destruct (out_source_view made pname Stderr (nc_both n) (nc_stderr n) st1 (proj1 T1) Hp Hv1) as (T2 & (e2 & e3 & e4 & V2) & O2).
  change "stdout" with (src_name Stdout). change "stderr" with (src_name Stderr). fold st1.
  destruct (normalize_routes c n s Hd En) as (R1 & R2 & R3 & R4).
  set (ps := (if wanted "screen" (nc_both n ++ nc_of s n) then [Screen] else []) ++ (if wanted "log" (nc_both n ++ nc_of s n) then [LaunchLog] else []) ++
             (if wanted "own_log" (nc_of s n) then [OwnLog] else []) ++ (if wanted "own_log" (nc_both n) then [CombinedLog] else [])).
  assert (exists x2 x3 x4, view (out_source made pname (src_name Stderr) (nc_both n) (nc_stderr n) st1) (logger_of pname s) =
     vif (wanted "screen" (nc_both n ++ nc_of s n)) (ToScreen, FMsg) ++ vif (wanted "log" (nc_both n ++ nc_of s n)) (ToFile x2 "launch.log", FStampMsg) ++
     vif (wanted "own_log" (nc_of s n)) (ToFile x3 (own_file pname s), FMsg) ++ vif (wanted "own_log" (nc_both n)) (ToFile x4 (comb_file pname), FMsg)) as (x2 & x3 & x4 & V).
  { destruct s; [|eauto]. exists d2, d3, d4. rewrite O2; [intros H; by apply str_app_inv_l in H| |done].
    rewrite V1. intros d m f Hm. unfold vif. rewrite !in_app_iff.
    intros [H|[H|[H|H]]]; repeat case_match; simpl in H; try done; destruct H as [H|[]]; try done; injection H as _ H1 H2; subst; try done.
    simpl in Hm. destruct Hm as [Hm|[Hm|[]]].
    - by destruct (own_not_launch pname Stderr).
    - by destruct (comb_not_launch pname Hp). }
  exists (fun p => match p with Screen => "" | LaunchLog => x2 | OwnLog => x3 | CombinedLog => x4 end), ps.
  split; [|split].
  - subst ps. repeat case_match; repeat constructor; set_solver.
  - subst ps. pose proof (wanted_iff "screen" (nc_both n ++ nc_of s n)). pose proof (wanted_iff "log" (nc_both n ++ nc_of s n)).
    pose proof (wanted_iff "own_log" (nc_of s n)). pose proof (wanted_iff "own_log" (nc_both n)).
    intros p. rewrite !in_app_iff.
    destruct p; [rewrite R1|rewrite R2|rewrite R3|rewrite R4]; repeat case_match; simpl; split; intros;
      repeat match goal with H : _ \/ _ |- _ => destruct H end; try done; try tauto; try (by exfalso; naive_solver).
  - rewrite V. subst ps. unfold vif. repeat case_match; done.
Qed.
