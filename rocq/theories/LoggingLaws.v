(** Laws about logging and log directories. *)
From Coq Require Import ssreflect.
From Verif Require Import SpecLogging StrFacts LoggingFacts.
#[local] Arguments String.append : simpl nomatch.

Lemma lines_law other l made pname c st' s r :
  let st := lrun other l log_start in
  (forall s, handlers_of st (logger_of pname s) = []) -> pname <> "launch" -> is_dict c ->
  get_output_loggers made pname c st = Ok st' -> lr_name r = logger_of pname s ->
  exists (dir : place -> string) ps, NoDup ps /\ (forall p, In p ps <-> routes c s p) /\
    ls_written (log_info other r st') = ls_written st' ++ map (fun p => (place_sink (dir p) pname s p, place_text p r)) ps.
Proof.
  intros st Hf Hp Hd E Hr. assert (wf st) as W by apply lrun_wf, wf_start.
  destruct (routing_view made pname c st st' s W Hp Hd Hf E) as (dir & ps & H1 & H2 & H3).
  exists dir, ps. split; [done|]. split; [done|]. rewrite info_view Hr H3 map_map. f_equal. apply map_ext. intros p. simpl. by rewrite place_render.
Qed.

Lemma routing_law other l made pname c st' s :
  let st := lrun other l log_start in
  (forall s, handlers_of st (logger_of pname s) = []) -> pname <> "launch" -> is_dict c ->
  get_output_loggers made pname c st = Ok st' ->
  forall l', Forall (fun mo => not_about (logger_of pname s) (snd mo)) l' ->
  exists (dir : place -> string) ps, NoDup ps /\ (forall p, In p ps <-> routes c s p) /\
    sinks (lrun other l' st') (logger_of pname s) = map (fun p => place_sink (dir p) pname s p) ps.
Proof.
  intros st Hf Hp Hd E l' Hl. assert (wf st) as W by apply lrun_wf, wf_start.
  destruct (routing_view made pname c st st' s W Hp Hd Hf E) as (dir & ps & H1 & H2 & H3).
  exists dir, ps. split; [done|]. split; [done|].
  rewrite stays; [|done|].
  - pose proof (lstep_wf other made (LOutput pname c) st W) as W'. simpl in W'. by rewrite E in W'.
  - rewrite sinks_view H3 map_map. by apply map_ext.
Qed.

Lemma isolated_law other l made pname c lg :
  let st := lrun other l log_start in
  (forall s, logger_of pname s <> lg) -> sinks (lstep other made (LOutput pname c) st) lg = sinks st lg.
Proof.
  intros st H. assert (wf st) as W by apply lrun_wf, wf_start.
  destruct (lstep_keeps other made (LOutput pname c) st lg W) as (A & B & C); [split; apply H|]. by apply sinks_keep.
Qed.

Lemma invalid_law made pname c st : is_dict c ->
  (valid c -> exists st', get_output_loggers made pname c st = Ok st') /\ (~ valid c -> get_output_loggers made pname c st = Exn XValue).
Proof.
  intros Hd. destruct (normalize_valid c Hd) as [H1 H2]. unfold get_output_loggers. split.
  - intros H. destruct (H1 H) as [n ->]. eauto.
  - intros H. by rewrite (H2 H).
Qed.

(** ** No sink twice *)
Lemma omap_NoDup {A B} (f : A -> option B) (l : list A) : NoDup l -> (forall x y k, In x l -> In y l -> f x = Some k -> f y = Some k -> x = y) -> NoDup (omap f l).
Proof.
  induction 1 as [|x l Hx Hl IH]; intros Hinj; [constructor|]. simpl.
  assert (NoDup (omap f l)) as IH' by (apply IH; intros; eapply Hinj; eauto; by right).
  destruct (f x) as [k|] eqn:E; [|exact IH']. apply NoDup_cons. split; [|exact IH'].
  intros Hin. apply elem_of_list_omap in Hin as (y & Hy & Ey). apply Hx.
  rewrite (Hinj x y k); [by left|right; by apply elem_of_list_In|done|done|done].
Qed.
Lemma once_law other l lg : NoDup (sinks (lrun other l log_start) lg).
Proof.
  assert (wf (lrun other l log_start)) as (W1 & W2 & W3 & W4 & W5) by apply lrun_wf, wf_start.
  apply omap_NoDup; [apply W5|]. intros x y k Hx Hy Ex Ey.
  destruct (W4 _ _ Hx) as [Sx|[nx Fx]], (W4 _ _ Hy) as [Sy|[ny Fy]].
  - congruence.
  - apply W1 in Sx. apply W2 in Fy as [d Fy]. unfold sink_at in *. congruence.
  - apply W1 in Sy. apply W2 in Fx as [d Fx]. unfold sink_at in *. congruence.
  - destruct (W2 _ _ Fx) as [d Dx], (W2 _ _ Fy) as [d' Dy]. unfold sink_at in *.
    assert (nx = ny) as -> by congruence. congruence.
Qed.

(** ** The directory of the files *)
Definition wd (ms : list string) (st : lstate) : Prop :=
  (forall d, ls_dir st = Some d -> In d ms) /\ (forall n h, ls_files st !! n = Some h -> exists d, ls_dir st = Some d /\ sink_at st h = Some (ToFile d n)).
Lemma wd_more ms ms' st : (forall d, In d ms -> In d ms') -> wd ms st -> wd ms' st.
Proof. intros H [A B]. split; [intros d Hd; by apply H, A|done]. Qed.
Lemma wd_ext ms st st' : ls_dir st' = ls_dir st -> ls_files st' = ls_files st -> (forall h k, sink_at st h = Some k -> sink_at st' h = Some k) -> wd ms st -> wd ms st'.
Proof.
  intros E1 E2 H [A B]. split; [intros d; rewrite E1; apply A|].
  intros n h. rewrite E2 E1. intros Hn. destruct (B _ _ Hn) as (d & Hd & Hs). exists d. split; [done|by apply H].
Qed.
Lemma sink_grow (st st' : lstate) xs : ls_handlers st' = ls_handlers st ++ xs -> forall h k, sink_at st h = Some k -> sink_at st' h = Some k.
Proof.
  intros E h k. unfold sink_at. rewrite E. destruct (ls_handlers st !! h) eqn:El; [|done]. by rewrite (lookup_app_l_Some _ _ _ _ El).
Qed.
Lemma wd_screen ms st : wd ms st -> wd ms (snd (get_screen_handler st)).
Proof.
  unfold get_screen_handler. destruct (ls_screen st); [done|]. apply wd_ext; [done|done|]. by eapply sink_grow.
Qed.
Lemma wd_file made n ms st : In made ms -> wd ms st -> wd ms (snd (get_log_file_handler made n st)).
Proof.
  unfold get_log_file_handler. intros Hm [A B]. destruct (ls_files st !! n) eqn:E; [by split|]. simpl. split; simpl.
  - intros d [= <-]. unfold log_dir. destruct (ls_dir st) eqn:Ed; simpl; [by apply A|done].
  - intros n' h. destruct (decide (n = n')) as [<-|Hne].
    + rewrite lookup_insert. intros [= <-]. eexists. split; [done|]. unfold sink_at. simpl. by rewrite list_lookup_middle.
    + rewrite lookup_insert_ne; [done|]. intros Hn. destruct (B _ _ Hn) as (d & Hd & Hs). exists d. unfold log_dir. rewrite Hd. split; [done|].
      eapply sink_grow; [simpl; reflexivity|done].
Qed.
Lemma wd_add ms lg h st : wd ms st -> wd ms (add_handler lg h st).
Proof. by apply wd_ext. Qed.
Lemma wd_alter ms g h st : (forall x, hd_sink (g x) = hd_sink x) -> wd ms st -> wd ms (with_handlers (alter g h) st).
Proof. intros Hg. apply wd_ext; [done|done|]. intros h' k. by rewrite sink_alter. Qed.
Lemma wd_out_screen ms lg st : wd ms st -> wd ms (out_screen lg st).
Proof.
  intros W. unfold out_screen. apply wd_screen in W. destruct (get_screen_handler st) as [h st1]. simpl in W.
  destruct (is_in _ _); [done|]. by apply wd_add, wd_alter.
Qed.
Lemma wd_out_launch made ms lg st : In made ms -> wd ms st -> wd ms (out_launch made lg st).
Proof.
  intros Hm W. unfold out_launch. apply (wd_file made "launch.log") in W; [|done]. destruct (get_log_file_handler made _ st) as [h st1]. simpl in W.
  destruct (is_in _ _); [done|]. by apply wd_add, wd_alter.
Qed.
Lemma wd_out_file made ms lg n st : In made ms -> wd ms st -> wd ms (out_file made lg n st).
Proof.
  intros Hm W. unfold out_file. apply (wd_file made n) in W; [|done]. destruct (get_log_file_handler made _ st) as [h st1]. simpl in W.
  destruct (is_in _ _); [|apply wd_add]; by apply wd_alter.
Qed.
Lemma wd_source made ms p s b o st : In made ms -> wd ms st -> wd ms (out_source made p s b o st).
Proof.
  intros Hm W. unfold out_source.
  assert (forall (b : bool) (f : lstate -> lstate) s1, (wd ms s1 -> wd ms (f s1)) -> wd ms s1 -> wd ms (if b then f s1 else s1)) as Hstep.
  { intros b' f s1 Hf T. destruct b'; [by apply Hf|done]. }
  cbv zeta. apply (Hstep _ (out_file made _ _)); [by apply wd_out_file|].
  apply (Hstep _ (out_file made _ _)); [by apply wd_out_file|].
  apply (Hstep _ (out_launch made _)); [by apply wd_out_launch|].
  by apply (Hstep _ (out_screen _)); [apply wd_out_screen|].
Qed.
Lemma wd_step other made ms o st : In made ms -> keeps_dir o -> wd ms st -> wd ms (lstep other made o st).
Proof.
  intros Hm Hk W. destruct o as [n|p c|r|d|f|f|]; cbn [lstep].
  - unfold get_logger. apply wd_screen in W. destruct (get_screen_handler st) as [h st1]. simpl in W.
    assert (wd ms (if is_in h (handlers_of st1 n) then st1 else add_handler n h st1)) as W2 by (destruct (is_in _ _); [done|by apply wd_add]).
    apply (wd_file made "launch.log") in W2; [|done]. destruct (get_log_file_handler made _ _) as [h' st3]. simpl in W2.
    destruct (is_in _ _); [done|by apply wd_add].
  - unfold get_output_loggers. destruct (normalize c); [|done|done]. apply wd_source; [done|by apply wd_source].
  - by apply (wd_ext ms st).
  - done.
  - unfold set_screen_format. cbv zeta. match goal with |- context [match ls_screen ?s with _ => _ end] => set (st1 := s) end.
    assert (wd ms st1) as W1 by by apply (wd_ext ms st). destruct (ls_screen st1); [|done]. by apply wd_alter.
  - unfold set_log_format. cbv zeta. match goal with |- context [ls_files ?s] => set (st1 := s) end.
    assert (wd ms st1) as W1 by by apply (wd_ext ms st). revert W1. generalize (map snd (map_to_list (ls_files st1))). generalize st1.
    intros s0 l0. revert s0. induction l0 as [|h l0 IH]; intros s0 W0; simpl; [done|]. apply IH. by apply wd_alter.
  - split; [done|]. intros n h. simpl. by rewrite lookup_empty.
Qed.
Lemma wd_run other l : forall ms st, Forall (fun mo => keeps_dir (snd mo)) l -> wd ms st -> wd (ms ++ map fst l) (lrun other l st).
Proof.
  induction l as [|[m o] l IH]; intros ms st Hl W; simpl; [by rewrite app_nil_r|].
  apply Forall_cons in Hl as [H1 H2]. 
  assert (wd (ms ++ [m]) (lstep other m o st)) as W'.
  { apply wd_step; [rewrite in_app_iff; by right; left|done|]. eapply wd_more; [|done]. intros d Hd. rewrite in_app_iff. by left. }
  pose proof (IH _ _ H2 W') as W''. by rewrite -app_assoc in W''.
Qed.
Lemma directory_law other l lg d n : Forall (fun mo => keeps_dir (snd mo)) l ->
  In (ToFile d n) (sinks (lrun other l log_start) lg) -> ls_dir (lrun other l log_start) = Some d /\ In d (map fst l).
Proof.
  intros Hl Hin. assert (wd [] log_start) as W0 by (split; [done|]; intros ? ?; simpl; by rewrite lookup_empty).
  pose proof (wd_run other l [] log_start Hl W0) as [A B]. simpl in A.
  assert (wf (lrun other l log_start)) as (W1 & W2 & W3 & W4 & W5) by apply lrun_wf, wf_start.
  apply elem_of_list_In, elem_of_list_omap in Hin as (h & Hh & Es). apply elem_of_list_In in Hh.
  destruct (W4 _ _ Hh) as [S|[m F]].
  - apply W1 in S. unfold sink_at in S. congruence.
  - destruct (B _ _ F) as (d' & Hd & Hs). unfold sink_at in Hs. rewrite Hs in Es. injection Es as -> ->. split; [done|by apply A].
Qed.

(** ** Files of different processes *)
Definition shared (p : place) : bool := match p with Screen | LaunchLog => true | _ => false end.
Lemma not_numbered q s : ~ numbered (q ++ "-" ++ src_name s)%string.
Proof.
  intros (a & c & E & Hc).
  assert (exists b, (q ++ "-" ++ src_name s)%string = (b ++ String (match s with Stdout => "t" | Stderr => "r" end) "")%string) as [b Eb].
  { exists (q ++ "-" ++ match s with Stdout => "stdou" | Stderr => "stder" end)%string. rewrite !str_app_assoc. by destruct s. }
  rewrite Eb in E. apply str_app_split_r in E as [_ E]; [|done]. injection E as <-.
  destruct s; simpl in Hc; repeat (destruct Hc as [Hc|Hc]; [done|]); done.
Qed.
Lemma separate_law d p s x d' q s' y : numbered p -> numbered q -> shared x = false -> place_sink d p s x = place_sink d' q s' y -> p = q.
Proof.
  intros Hp Hq Hx E.
  assert (forall a b : string, (a ++ ".log" = b ++ ".log")%string -> a = b) as Hlog by (intros a b; apply str_app_inv_r).
  assert (forall p s, (p ++ "-" ++ src_name s ++ ".log" = (p ++ "-" ++ src_name s) ++ ".log")%string) as Hre by (intros; by rewrite !str_app_assoc).
  assert (~ numbered "launch") as Hla.
  { intros (a & c & E' & Hc). change "launch" with ("launc" ++ "h")%string in E'. apply str_app_split_r in E' as [_ E']; [|done]. injection E' as <-.
    simpl in Hc. repeat (destruct Hc as [Hc|Hc]; [done|]); done. }
  destruct x, y; simpl in *; try done; injection E as _ E; rewrite ?Hre in E.
  - by destruct (own_not_launch p s); rewrite Hre.
  - apply Hlog in E. destruct s, s'; try (by apply (str_app_inv_r _ _ ("-" ++ src_name Stdout)%string)); try (by apply (str_app_inv_r _ _ ("-" ++ src_name Stderr)%string));
      apply str_app_split_r in E as [-> _]; done.
  - apply Hlog in E. subst q. by destruct (not_numbered p s).
  - apply (Hlog p "launch") in E. by subst p.
  - apply Hlog in E. subst p. by destruct (not_numbered q s').
  - by apply Hlog in E.
Qed.

(** ** Unique log directories *)
Lemma time_slash t x : is_time t -> starts_with "/" (t ++ x)%string = false.
Proof. intros [Hl Hs]. destruct t as [|c t]; [done|]. simpl in *. destruct (Ascii.eqb "/" c); [|done]. by destruct t. Qed.
Lemma join_inj base a b : starts_with "/" a = false -> starts_with "/" b = false -> path_join base a = path_join base b -> a = b.
Proof.
  unfold path_join. intros -> ->. destruct (String.eqb base "" || ends_with "/" base).
  - apply str_app_inv_l.
  - intros H. by do 2 apply str_app_inv_l in H.
Qed.
Lemma candidate_inj m m' t t' : is_time t -> is_time t' -> mk_base m = mk_base m' -> mk_host m = mk_host m' ->
  candidate m t = candidate m' t' -> mk_pid m = mk_pid m' /\ t = t'.
Proof.
  intros Ht Ht' Hb Hh E. unfold candidate in E. rewrite Hb in E. apply join_inj in E; [|by apply time_slash|by apply time_slash].
  unfold log_dirname in E. rewrite Hh in E. apply str_app_split in E as [-> E]; [|destruct Ht, Ht'; congruence].
  split; [|done]. do 3 apply str_app_inv_l in E. done.
Qed.

Definition minv (fs0 : fsys) (base host : string) (s : msys) : Prop :=
  (forall k c, ms_calls s !! k = Some c -> mk_base (mc_maker c) = base /\ mk_host (mc_maker c) = host /\
     match mc_pc c with MTest p | MMake p | MReturned p => exists t, is_time t /\ p = candidate (mc_maker c) t | MFailed => True end) /\
  (forall j k c c', ms_calls s !! j = Some c -> ms_calls s !! k = Some c' -> at_work c = true -> at_work c' = true ->
     mk_pid (mc_maker c) = mk_pid (mc_maker c') -> j = k) /\
  (forall k c p, ms_calls s !! k = Some c -> mc_pc c = MMake p -> is_dir (ms_fs s) p = false) /\
  (forall k c p, ms_calls s !! k = Some c -> mc_pc c = MReturned p -> ms_fs s !! p = Some FDir /\ fs0 !! p = None) /\
  (forall j k c c' p, ms_calls s !! j = Some c -> ms_calls s !! k = Some c' -> mc_pc c = MReturned p -> mc_pc c' = MReturned p -> j = k) /\
  (forall p e, fs0 !! p = Some e -> ms_fs s !! p = Some e) /\
  (forall p t, log_name base host p -> ms_fs s !! p <> Some (FLink t)).

Lemma cand_name m t base host : mk_base m = base -> mk_host m = host -> is_time t -> log_name base host (candidate m t).
Proof. destruct m as [b h p]. simpl. intros -> -> Ht. by exists p, t. Qed.
Lemma call_split s k c pc fs j c' : ms_calls s !! k = Some c -> ms_calls (set_call k c pc s fs) !! j = Some c' ->
  (j = k /\ c' = {| mc_maker := mc_maker c; mc_pc := pc |}) \/ (j <> k /\ ms_calls s !! j = Some c').
Proof.
  simpl. intros Hk. destruct (decide (j = k)) as [->|Hne].
  - rewrite list_lookup_insert; [by apply lookup_lt_Some in Hk|]. intros [= <-]. by left.
  - rewrite list_lookup_insert_ne; [done|]. by right.
Qed.

(** One call goes on; the others stay where they are. *)
Lemma minv_call fs0 base host s k c pc fs : minv fs0 base host s -> ms_calls s !! k = Some c -> at_work c = true ->
  match pc with MTest p | MMake p | MReturned p => exists t, is_time t /\ p = candidate (mc_maker c) t | MFailed => True end ->
  (forall j c' p, j <> k -> ms_calls s !! j = Some c' -> mc_pc c' = MMake p -> is_dir fs p = false) ->
  match pc with MMake p => is_dir fs p = false | _ => True end ->
  match pc with MReturned p => fs !! p = Some FDir /\ fs0 !! p = None /\ (forall j c', ms_calls s !! j = Some c' -> mc_pc c' <> MReturned p) | _ => True end ->
  (forall p, ms_fs s !! p = Some FDir -> fs !! p = Some FDir) ->
  (forall p e, fs0 !! p = Some e -> fs !! p = Some e) ->
  (forall p t, log_name base host p -> fs !! p <> Some (FLink t)) ->
  minv fs0 base host (set_call k c pc s fs).
Proof.
  intros (I1 & I2 & I3 & I4 & I5 & I6 & I7) Hk Hw Hpc Hmk Hmk' Hret Hdir Hfs Hlink.
  assert (forall j c', ms_calls (set_call k c pc s fs) !! j = Some c' ->
    (j = k /\ c' = {| mc_maker := mc_maker c; mc_pc := pc |}) \/ (j <> k /\ ms_calls s !! j = Some c')) as Hs.
  { intros j c'. by apply call_split. }
  split; [|split; [|split; [|split; [|split; [|split]]]]].
  - intros j c' Hj. destruct (Hs _ _ Hj) as [[-> ->]|[Hne Hj']]; [|by eapply I1].
    simpl. destruct (I1 _ _ Hk) as (A & B & _). done.
  - intros j j' c1 c2 Hj Hj' W1 W2 Hp. destruct (Hs _ _ Hj) as [[-> ->]|[Hne1 H1]], (Hs _ _ Hj') as [[-> ->]|[Hne2 H2]]; [done| | |by eapply I2].
    + by destruct (I2 k j' c c2 Hk H2 Hw W2 Hp).
    + by destruct (I2 j k c1 c H1 Hk W1 Hw Hp).
  - intros j c' p Hj E. destruct (Hs _ _ Hj) as [[-> ->]|[Hne Hj']]; [|by eapply Hmk].
    simpl in E. subst pc. done.
  - intros j c' p Hj E. destruct (Hs _ _ Hj) as [[-> ->]|[Hne Hj']].
    + simpl in E. subst pc. destruct Hret as (A & B & _). done.
    + destruct (I4 _ _ _ Hj' E) as [A B]. split; [by apply Hdir|done].
  - intros j j' c1 c2 p Hj Hj' E1 E2. destruct (Hs _ _ Hj) as [[-> ->]|[Hne1 H1]], (Hs _ _ Hj') as [[-> ->]|[Hne2 H2]]; [done| | |by eapply I5].
    + simpl in E1. subst pc. destruct Hret as (_ & _ & H). by destruct (H _ _ H2).
    + simpl in E2. subst pc. destruct Hret as (_ & _ & H). by destruct (H _ _ H1).
  - done.
  - done.
Qed.

Lemma minv_step fs0 base host s o : minv fs0 base host s -> allowed base host s o -> minv fs0 base host (mstep s o).
Proof.
  intros I. pose proof I as (I1 & I2 & I3 & I4 & I5 & I6 & I7). destruct o as [m t|k t|p e]; simpl.
  - intros (Ht & Hb & Hh & Hfree).
    assert (forall j c, (ms_calls s ++ [{| mc_maker := m; mc_pc := MTest (candidate m t) |}]) !! j = Some c ->
      (ms_calls s !! j = Some c) \/ (j = length (ms_calls s) /\ c = {| mc_maker := m; mc_pc := MTest (candidate m t) |})) as Hs.
    { intros j c Hj. apply lookup_app_Some in Hj as [Hj|[Hl Hj]]; [by left|]. right.
      apply list_lookup_singleton_Some in Hj as [Hj <-]. split; [lia|done]. }
    split; [|split; [|split; [|split; [|split; [|split]]]]]; simpl.
    + intros j c Hj. destruct (Hs _ _ Hj) as [Hj'|[-> ->]]; [by eapply I1|]. simpl. eauto.
    + intros j j' c c' Hj Hj' W W' Hp. destruct (Hs _ _ Hj) as [H1|[-> ->]], (Hs _ _ Hj') as [H2|[-> ->]]; [by eapply I2| | |done].
      * simpl in Hp. by rewrite (Hfree _ _ H1 Hp) in W.
      * simpl in Hp. symmetry in Hp. by rewrite (Hfree _ _ H2 Hp) in W'.
    + intros j c p Hj E. destruct (Hs _ _ Hj) as [H1|[-> ->]]; [by eapply I3|done].
    + intros j c p Hj E. destruct (Hs _ _ Hj) as [H1|[-> ->]]; [by eapply I4|done].
    + intros j j' c c' p Hj Hj' E E'. destruct (Hs _ _ Hj) as [H1|[-> ->]], (Hs _ _ Hj') as [H2|[-> ->]]; try done. by eapply I5.
    + done.
    + done.
  - intros Ht. destruct (ms_calls s !! k) as [c|] eqn:Hk; [|done].
    destruct (I1 _ _ Hk) as (Hb & Hh & Hpc).
    destruct (mc_pc c) as [p|p|p|] eqn:Epc; try done.
    + destruct (is_dir (ms_fs s) p) eqn:Ed; (apply minv_call; [done|done|by rewrite /at_work Epc| | | | | | |]); try done; try (by eauto).
    + unfold makedirs. rewrite (I3 _ _ _ Hk Epc).
      destruct Hpc as (t0 & Ht0 & ->).
      destruct (ms_fs s !! candidate (mc_maker c) t0) as [e|] eqn:Ef.
      * apply minv_call; [done|done|by rewrite /at_work Epc|done| |done|done|done|done|done]. by eauto.
      * apply minv_call; [done|done|by rewrite /at_work Epc|by eauto| |done| | | |].
        -- intros j c' q Hne Hj E. destruct (I1 _ _ Hj) as (Hb' & Hh' & Hpc'). rewrite E in Hpc'. destruct Hpc' as (t1 & Ht1 & ->).
           pose proof (I3 _ _ _ Hj E) as Hd. unfold is_dir in *.
           rewrite lookup_insert_ne.
           { intros Heq. apply candidate_inj in Heq as [Hp _]; [|done|done|congruence|congruence].
             apply Hne. symmetry. eapply I2; [exact Hk|exact Hj| | |done]; by rewrite /at_work ?Epc ?E. }
           destruct (ms_fs s !! candidate (mc_maker c') t1) as [[]|] eqn:E1; try done.
           by destruct (I7 _ target (cand_name _ t1 _ _ Hb' Hh' Ht1)).
        -- split; [by rewrite lookup_insert|]. split.
           ++ destruct (fs0 !! candidate (mc_maker c) t0) eqn:E0; [|done]. apply I6 in E0. congruence.
           ++ intros j c' Hj E. destruct (I4 _ _ _ Hj E) as [A _]. congruence.
        -- intros p Hp. rewrite lookup_insert_ne; [congruence|done].
        -- intros p e Hp. rewrite lookup_insert_ne; [apply I6 in Hp; congruence|by apply I6].
        -- intros p e Hp. destruct (decide (candidate (mc_maker c) t0 = p)) as [<-|Hne]; [by rewrite lookup_insert|].
           rewrite lookup_insert_ne; [done|]. by apply I7.
  - intros Hp. destruct (ms_fs s !! p) as [e'|] eqn:Ef; [done|].
    split; [|split; [|split; [|split; [|split; [|split]]]]]; simpl; [done|done| | |done| |].
    + intros k c q Hk E. pose proof (I3 _ _ _ Hk E) as Hd. destruct (I1 _ _ Hk) as (Hb & Hh & Hpc). rewrite E in Hpc. destruct Hpc as (t1 & Ht1 & ->).
      assert (log_name base host (candidate (mc_maker c) t1)) as Hn by by apply cand_name.
      unfold is_dir in *. rewrite lookup_insert_ne; [intros ->; done|].
      destruct (ms_fs s !! candidate (mc_maker c) t1) as [[]|] eqn:E1; try done. by destruct (I7 _ target Hn).
    + intros k c q Hk E. destruct (I4 _ _ _ Hk E) as [A B]. split; [|done]. rewrite lookup_insert_ne; [congruence|done].
    + intros q e'' Hq. apply I6 in Hq. rewrite lookup_insert_ne; [congruence|done].
    + intros q t Hq. rewrite lookup_insert_ne; [congruence|]. by apply I7.
Qed.
Lemma minv_run fs0 base host l : forall s, minv fs0 base host s -> all_allowed base host s l -> minv fs0 base host (mrun s l).
Proof.
  induction l as [|o l IH]; intros s I H; [done|]. destruct H as [H1 H2]. simpl. apply IH; [by apply minv_step|done].
Qed.
Lemma unique_law fs0 base host l :
  (forall p t, log_name base host p -> fs0 !! p <> Some (FLink t)) ->
  all_allowed base host {| ms_fs := fs0; ms_calls := [] |} l ->
  let s := mrun {| ms_fs := fs0; ms_calls := [] |} l in
  forall k p, returned s k p -> fs0 !! p = None /\ ms_fs s !! p = Some FDir /\ forall j, returned s j p -> j = k.
Proof.
  intros Hl Ha s k p (c & Hk & E).
  assert (minv fs0 base host s) as (I1 & I2 & I3 & I4 & I5 & I6 & I7).
  { apply minv_run; [|done]. by repeat split. }
  destruct (I4 _ _ _ Hk E) as [A B]. split; [done|]. split; [done|]. intros j (c' & Hj & E'). by eapply I5.
Qed.

Lemma single_law fuel m clock : forall k fs r, make_unique fuel m clock k fs = r ->
  (forall p fs', r = Ok (p, fs') -> exists j, k <= j /\ p = candidate m (clock j) /\ fs !! p = None /\ fs' = <[p := FDir]> fs /\
     forall i, k <= i < j -> is_dir fs (candidate m (clock i)) = true) /\
  (forall j, k <= j < k + fuel -> is_dir fs (candidate m (clock j)) = false -> r <> OutOfFuel).
Proof.
  induction fuel as [|fuel IH]; intros k fs r E; simpl in E.
  { subst r. split; [done|]. intros j Hj. lia. }
  destruct (is_dir fs (candidate m (clock k))) eqn:Ed.
  - destruct (IH _ _ _ E) as [A B]. split.
    + intros p fs' Hr. destruct (A _ _ Hr) as (j & Hj & H1 & H2 & H3 & H4). exists j. repeat split; try done; [lia|].
      intros i Hi. destruct (decide (i = k)) as [->|]; [done|]. apply H4. lia.
    + intros j Hj Hn. destruct (decide (j = k)) as [->|]; [congruence|]. apply (B j); [lia|done].
  - unfold makedirs in E. rewrite Ed in E. split.
    + intros p fs' ->. destruct (fs !! candidate m (clock k)) eqn:El; [done|]. injection E as <- <-.
      exists k. repeat split; try done. intros i Hi. lia.
    + intros _ _ _ ->. by destruct (fs !! candidate m (clock k)).
Qed.

Lemma latest_law base dir fs ok fs' : renew_latest base dir fs = (ok, fs') ->
  (forall p, p <> path_join base "latest" -> fs' !! p = fs !! p) /\
  (ok = true <-> fs' !! path_join base "latest" = Some (FLink dir) /\ fs !! path_join base "latest" <> Some FDir /\ fs !! path_join base "latest" <> Some FFile) /\
  (ok = false -> fs' = fs).
Proof.
  unfold renew_latest. destruct (fs !! path_join base "latest") as [[]|] eqn:E; intros [= <- <-].
  - split; [done|]. split; [|done]. split; [done|]. by intros (_ & ? & _).
  - split; [done|]. split; [|done]. split; [done|]. by intros (_ & _ & ?).
  - split; [intros p Hp; by rewrite lookup_insert_ne // lookup_delete_ne|]. split; [|done]. by rewrite lookup_insert.
  - split; [intros p Hp; by rewrite lookup_insert_ne|]. split; [|done]. by rewrite lookup_insert.
Qed.

Lemma where_law normal env :
  (forall d, env !! "ROS_LOG_DIR" = Some d -> d <> "" -> logging_directory normal env = normal d) /\
  (forall h, (env !! "ROS_LOG_DIR" = None \/ env !! "ROS_LOG_DIR" = Some "") -> env !! "ROS_HOME" = Some h -> h <> "" ->
     logging_directory normal env = normal (path_join h "log")) /\
  ((env !! "ROS_LOG_DIR" = None \/ env !! "ROS_LOG_DIR" = Some "") -> (env !! "ROS_HOME" = None \/ env !! "ROS_HOME" = Some "") ->
     logging_directory normal env = normal "~/.ros/log").
Proof.
  unfold logging_directory. cbv zeta. split; [|split].
  - intros d -> Hd. apply String.eqb_neq in Hd. by rewrite Hd.
  - intros h [->| ->] -> Hh; apply String.eqb_neq in Hh; simpl; by rewrite Hh.
  - intros [->| ->] [->| ->]; done.
Qed.
