(** Proofs about the output of processes. *)
From Coq Require Import ssreflect.
From Verif Require Import SubstFacts SpecOutput ExWorld ExecFacts VisitFacts HandleFacts StepFacts MicroSteps OwnFacts ProcFacts LifeFacts.

(** ** Strings *)
#[local] Arguments String.append : simpl nomatch.
Lemma sapp_assoc (a b c : string) : ((a ++ b) ++ c = a ++ (b ++ c))%string.
Proof. induction a as [|x a IH]; [done|]. simpl. by rewrite IH. Qed.
Lemma sapp_nil (a : string) : (a ++ "" = a)%string.
Proof. induction a as [|x a IH]; [done|]. simpl. by rewrite IH. Qed.
Lemma pieces_ne s : pieces s <> [].
Proof. destruct s as [|c s]; [done|]. simpl. destruct (Ascii.eqb c nl); [done|]. by destruct (pieces s). Qed.
Lemma complete_nil : complete "" = []. Proof. done. Qed.
Lemma rest_nil : rest "" = "". Proof. done. Qed.
Lemma complete_nl s : complete (String nl s) = "" :: complete s.
Proof. rewrite /complete /=. destruct (pieces s) eqn:E; [by destruct (pieces_ne s)|done]. Qed.
Lemma rest_nl s : rest (String nl s) = rest s.
Proof. rewrite /rest /=. destruct (pieces s) eqn:E; [by destruct (pieces_ne s)|done]. Qed.
Definition add_first (c : ascii) (ls : list string) : list string := match ls with l :: r => String c l :: r | [] => [] end.
Lemma complete_cons c s : Ascii.eqb c nl = false -> complete (String c s) = add_first c (complete s).
Proof. intros H. rewrite /complete /= H. destruct (pieces s) as [|p [|q l]] eqn:E; [by destruct (pieces_ne s)|done|done]. Qed.
Lemma rest_cons c s : Ascii.eqb c nl = false -> rest (String c s) = match complete s with [] => String c (rest s) | _ => rest s end.
Proof. intros H. rewrite /rest /complete /= H. destruct (pieces s) as [|p [|q l]] eqn:E; [by destruct (pieces_ne s)|done|done]. Qed.
Lemma lines_of_spec t : lines_of t (complete t) (rest t).
Proof.
  induction t as [|c t (E & HL & HR)].
  - split; [done|]. split; [constructor|]. by intros [].
  - destruct (Ascii.eqb_spec c nl) as [->|Hne].
    + rewrite complete_nl rest_nl. split; [by rewrite {1}E|]. split; [|done]. constructor; [by intros []|done].
    + assert (Ascii.eqb c nl = false) as Hc by (by apply Ascii.eqb_neq). rewrite complete_cons // rest_cons //.
      destruct (complete t) as [|l ls] eqn:El.
      * split; [by rewrite {1}E|]. split; [constructor|]. intros [H|H]; [done|]. by destruct HR.
      * split; [by rewrite {1}E|]. inversion HL; subst. split; [|done]. constructor; [|done].
        intros [Hq|Hq]; [done|]. match goal with H : no_nl l |- _ => by destruct H end.
Qed.
Lemma no_nl_app a b : list_ascii_of_string (a ++ b)%string = list_ascii_of_string a ++ list_ascii_of_string b.
Proof. induction a as [|c a IH]; [done|]. simpl. by rewrite IH. Qed.
Lemma complete_none r : no_nl r -> complete r = [] /\ rest r = r.
Proof.
  induction r as [|c r IH]; [done|]. intros H. destruct IH as [I1 I2]; [by intros Hin; apply H; right|].
  assert (Ascii.eqb c nl = false) as Hc. { apply Ascii.eqb_neq. intros ->. apply H. by left. }
  by rewrite complete_cons // rest_cons // I1 I2.
Qed.
Lemma complete_line l t : no_nl l -> complete (l ++ String nl t)%string = l :: complete t /\ rest (l ++ String nl t)%string = rest t.
Proof.
  induction l as [|c l IH]; intros H; [by rewrite /= complete_nl rest_nl|]. destruct IH as [I1 I2]; [by intros Hin; apply H; right|].
  assert (Ascii.eqb c nl = false) as Hc. { apply Ascii.eqb_neq. intros ->. apply H. by left. }
  simpl. by rewrite complete_cons // rest_cons // I1 I2.
Qed.
Lemma lines_of_unique t ls r : lines_of t ls r -> ls = complete t /\ r = rest t.
Proof.
  intros (-> & HL & HR). induction HL as [|l ls Hl _ [I1 I2]].
  - destruct (complete_none r HR) as [E1 E2]. change (unlines [] ++ r)%string with r. by rewrite E1 E2.
  - simpl. destruct (complete_line l (unlines ls ++ r)%string Hl) as [E1 E2]. rewrite sapp_assoc /= E1 E2. by rewrite -I1 -I2.
Qed.
Lemma complete_app t u : complete (t ++ u)%string = complete t ++ complete (rest t ++ u)%string /\ rest (t ++ u)%string = rest (rest t ++ u)%string.
Proof.
  induction t as [|c t [I1 I2]]; [done|]. simpl. destruct (Ascii.eqb_spec c nl) as [->|Hne].
  - by rewrite !complete_nl !rest_nl I1 I2.
  - assert (Ascii.eqb c nl = false) as Hc by (by apply Ascii.eqb_neq). rewrite !complete_cons // !rest_cons // I1.
    destruct (complete t) as [|l ls] eqn:El; simpl; [|by rewrite I2].
    rewrite complete_cons // rest_cons //. split; [done|]. by rewrite I2.
Qed.
Lemma rest_rest t : complete (rest t) = [] /\ rest (rest t) = rest t.
Proof. apply complete_none. apply lines_of_spec. Qed.
(** The model's iteration over a StringIO. *)
Lemma split_lines_eq cur t : no_nl cur -> split_lines cur t = (complete (cur ++ t)%string, rest (cur ++ t)%string).
Proof.
  revert cur. induction t as [|c t IH]; intros cur H; simpl.
  - rewrite sapp_nil. by destruct (complete_none cur H) as [-> ->].
  - destruct (Ascii.eqb_spec c nl) as [->|Hne].
    + rewrite IH; [by intros []|]. destruct (complete_line cur t H) as [-> ->]. done.
    + rewrite IH; [|by rewrite sapp_assoc]. rewrite /no_nl no_nl_app. intros [Hin|[->|[]]]%in_app_or; [by apply H|done].
Qed.
Lemma split_lines_eq0 t : split_lines "" t = (complete t, rest t).
Proof. rewrite split_lines_eq //. by intros []. Qed.
Lemma drop_app n s t : (n <= String.length s)%nat -> drop_str n (s ++ t)%string = (drop_str n s ++ t)%string.
Proof. revert s. induction n as [|n IH]; intros s H; [done|]. destruct s as [|c s]; simpl in *; [lia|]. apply IH. lia. Qed.
Lemma slen_app (a b : string) : String.length (a ++ b)%string = (String.length a + String.length b)%nat.
Proof. induction a as [|c a IH]; [done|]. simpl. by rewrite IH. Qed.
Lemma drop_all s t : drop_str (String.length s) (s ++ t)%string = t.
Proof. induction s as [|c s IH]; [done|]. apply IH. Qed.
Lemma drop_suffix n s : exists p, s = (p ++ drop_str n s)%string.
Proof.
  revert s. induction n as [|n IH]; intros s; [by exists ""|]. destruct s as [|c s]; [by exists ""|].
  destruct (IH s) as [p E]. exists (String c p). simpl. by rewrite -E.
Qed.

(** ** What is expected *)
Fixpoint after (text : string) (closed : bool) (l : list input) : string * bool :=
  match l with
  | [] => (text, closed)
  | InText t :: l' => if closed then after text closed l' else after (text ++ t)%string closed l'
  | InExit c :: l' => after "" c l'
  end.
Lemma after_app o c l1 l2 : after o c (l1 ++ l2) = after (after o c l1).1 (after o c l1).2 l2.
Proof. revert o c. induction l1 as [|[t|c'] l1 IH]; intros o c; [done| |by apply IH]. simpl. destruct c; apply IH. Qed.
Lemma expected_app o c l i : (c = true -> o = "") ->
  expected o c (l ++ [i]) = expected o c l ++
    match i with
    | InText t => if (after o c l).2 then [t] else complete (rest (after o c l).1 ++ t)%string
    | InExit _ => if String.eqb (rest (after o c l).1) "" then [] else [rest (after o c l).1]
    end.
Proof.
  revert o c. induction l as [|j l IH]; intros o c Hc; simpl.
  - destruct i as [t|c']; simpl.
    + destruct c; simpl; [by rewrite Hc|]. by rewrite (proj1 (complete_app o t)).
    + by rewrite app_nil_r.
  - destruct j as [t|c']; simpl.
    + destruct c; [simpl; by rewrite IH|by apply IH].
    + by rewrite IH // !app_assoc.
Qed.
Lemma after_closed o c l : (c = true -> o = "") -> (after o c l).2 = true -> (after o c l).1 = "".
Proof. revert o c. induction l as [|[t|c'] l IH]; intros o c Hc; simpl; [done| |by apply IH]. destruct c; by apply IH. Qed.
Lemma after_snoc o c l i : after o c (l ++ [i]) =
  match i with
  | InText t => if (after o c l).2 then after o c l else (((after o c l).1 ++ t)%string, false)
  | InExit c' => ("", c')
  end.
Proof. rewrite after_app. destruct (after o c l) as [o' c'], i; simpl; [|done]. by destruct c'. Qed.
Lemma expected_chunks o c l1 t u l2 : (after o c l1).2 = false ->
  expected o c (l1 ++ InText t :: InText u :: l2) = expected o c (l1 ++ InText (t ++ u)%string :: l2).
Proof.
  revert o c. induction l1 as [|[x|c'] l1 IH]; intros o c; simpl.
  - intros ->. by rewrite sapp_assoc.
  - destruct c; intros H; [f_equal|]; by apply IH.
  - intros H. by rewrite IH.
Qed.
Lemma received_app l1 l2 : received (l1 ++ l2) = (received l1 ++ received l2)%string.
Proof. induction l1 as [|[t|c] l1 IH]; [done| |done]. simpl. by rewrite IH sapp_assoc. Qed.

(** ** The invariant *)
Definition io (o : obs) : bool := match o with OLine _ _ _ | OChunk _ _ _ | OFlush _ _ => true | _ => false end.
Definition noio (l : list obs) : Prop := Forall (fun o => io o = false) l.
Lemma inputs_app a fd l1 l2 : inputs a fd (l1 ++ l2) = inputs a fd l1 ++ inputs a fd l2.
Proof. apply omap_app. Qed.
Lemma logged_app a fd l1 l2 : logged a fd (l1 ++ l2) = logged a fd l1 ++ logged a fd l2.
Proof. apply omap_app. Qed.
Lemma inputs_cons a fd o l : inputs a fd (o :: l) = inputs a fd [o] ++ inputs a fd l.
Proof. apply (omap_app _ [o]). Qed.
Lemma logged_cons a fd o l : logged a fd (o :: l) = logged a fd [o] ++ logged a fd l.
Proof. apply (omap_app _ [o]). Qed.
Lemma inputs_chunk a fd b fd' t : inputs a fd [OChunk b fd' t] = if bool_decide (b = a /\ fd' = fd) then [InText t] else [].
Proof. rewrite /inputs /=. by destruct (bool_decide _). Qed.
Lemma inputs_flush a fd b c : inputs a fd [OFlush b c] = if bool_decide (b = a) then [InExit c] else [].
Proof. rewrite /inputs /=. by destruct (bool_decide _). Qed.
Lemma noio_in a fd l : noio l -> inputs a fd (rev l) = [] /\ logged a fd (rev l) = [].
Proof.
  induction 1 as [|o l H _ [I1 I2]]; [done|]. simpl. rewrite inputs_app logged_app I1 I2. by destruct o.
Qed.
Record buf_ok (cached : bool) (b : buf) (l : list input) (x : list string) : Prop := {
  bo_lines : x = expected "" false l;
  bo_closed : b_closed b = (after "" false l).2;
  bo_plain : cached = false -> b_closed b = false -> b_text b = rest (after "" false l).1;
  bo_open : cached = true -> b_closed b = false;
  bo_text : cached = true -> b_text b = received l;
  bo_cur : cached = true -> (b_cur b <= String.length (b_text b))%nat /\ drop_str (b_cur b) (b_text b) = rest (after "" false l).1 }.
Definition buf_of (fd : stream) (p : pobj) : buf := match fd with Stdout => x_out p | Stderr => x_err p end.
Definition outs (s : st) : Prop := forall a,
  match procs s !! a with
  | Some p => (forall fd, buf_ok (p_cached (x_cfg p)) (buf_of fd p) (inputs a fd (hist s)) (logged a fd (hist s))) /\
              b_closed (x_out p) = b_closed (x_err p)
  | None => forall fd, inputs a fd (hist s) = [] /\ logged a fd (hist s) = []
  end.
Lemma buf_new c : buf_ok c emptyBuf [] [].
Proof. by constructor. Qed.
(** Steps that do not touch the buffers. *)
Lemma outs_frame s s' l : outs s -> log s' = l ++ log s -> noio l ->
  (forall a, match procs s' !! a with
             | Some p' => (exists p, procs s !! a = Some p /\ x_cfg p' = x_cfg p /\ x_out p' = x_out p /\ x_err p' = x_err p) \/
                          (procs s !! a = None /\ x_out p' = emptyBuf /\ x_err p' = emptyBuf)
             | None => procs s !! a = None
             end) -> outs s'.
Proof.
  intros HO El Hl HP a. specialize (HO a). specialize (HP a).
  assert (forall fd, inputs a fd (hist s') = inputs a fd (hist s) /\ logged a fd (hist s') = logged a fd (hist s)) as HE.
  { intros fd. rewrite /hist El rev_app_distr inputs_app logged_app.
    destruct (noio_in a fd l Hl) as [-> ->]. by rewrite !app_nil_r. }
  destruct (procs s' !! a) as [p'|].
  - destruct HP as [(p & E & E1 & E2 & E3)|(E & E2 & E3)].
    + rewrite E in HO. destruct HO as [HO HC]. rewrite E2 E3. split; [|done]. intros fd. destruct (HE fd) as [-> ->].
      specialize (HO fd). destruct fd; simpl; by rewrite E1 ?E2 ?E3.
    + rewrite E in HO. rewrite E2 E3. split; [|done]. intros fd. destruct (HE fd) as [-> ->]. destruct (HO fd) as [-> ->].
      destruct fd; simpl; rewrite ?E2 ?E3; apply buf_new.
  - rewrite HP in HO. intros fd. destruct (HE fd) as [-> ->]. apply HO.
Qed.
Lemma outs_same s s' l : outs s -> log s' = l ++ log s -> noio l -> procs s' = procs s -> outs s'.
Proof.
  intros HO El Hl E. apply (outs_frame s s' l); try done. intros a. rewrite E. destruct (procs s !! a) as [p|]; [left; by exists p|done].
Qed.
Lemma outs_upd s s' l b g : outs s -> log s' = l ++ log s -> noio l -> procs s' = alter g b (procs s) ->
  (forall p, procs s !! b = Some p -> x_cfg (g p) = x_cfg p /\ x_out (g p) = x_out p /\ x_err (g p) = x_err p) -> outs s'.
Proof.
  intros HO El Hl E Hg. apply (outs_frame s s' l); try done. intros a. rewrite E. destruct (decide (b = a)) as [->|Hne].
  - rewrite lookup_alter. destruct (procs s !! a) as [p|]; [|done]. left. by exists p; split; [|apply Hg].
  - rewrite lookup_alter_ne //. destruct (procs s !! a) as [p|]; [left; by exists p|done].
Qed.

(** ** Steps that touch the buffers *)
Lemma inputs_lines a fd b fd' x : inputs a fd (map (OLine b fd') x) = [].
Proof. by induction x. Qed.
Lemma logged_lines a fd x : logged a fd (map (OLine a fd) x) = x.
Proof. induction x as [|y x IH]; [done|]. rewrite /logged /= bool_decide_true //. f_equal. apply IH. Qed.
Lemma logged_others a fd b fd' x : ~ (b = a /\ fd' = fd) -> logged a fd (map (OLine b fd') x) = [].
Proof. intros H. induction x as [|y x IH]; [done|]. by rewrite /logged /= bool_decide_false. Qed.

(** One chunk. *)
Definition text_step (c : bool) (t : string) (b : buf) : buf * list string :=
  if c then (b <| b_text := (b_text b ++ t)%string |>
               <| b_cur := (String.length (b_text b ++ t) - String.length (rest (drop_str (b_cur b) (b_text b ++ t))))%nat |>,
             complete (drop_str (b_cur b) (b_text b ++ t)))
  else if b_closed b then (b, [t])
  else (b <| b_text := rest (b_text b ++ t)%string |>, complete (b_text b ++ t)).
Lemma text_step_eq (c : bool) a fd t b s :
  (if c then on_output_cached else on_output) a fd t b s = ((text_step c t b).1, log_lines a fd (text_step c t b).2 s).
Proof.
  destruct c; rewrite /on_output_cached /on_output /text_step.
  - by rewrite split_lines_eq0.
  - destruct (b_closed b); [done|]. by rewrite split_lines_eq0.
Qed.
Lemma rest_suffix t : exists p, t = (p ++ rest t)%string.
Proof. destruct (lines_of_spec t) as (E & _). by exists (unlines (complete t)). Qed.
Lemma buf_text c b l x t : buf_ok c b l x ->
  buf_ok c (text_step c t b).1 (l ++ [InText t]) (x ++ (text_step c t b).2) /\ b_closed (text_step c t b).1 = b_closed b.
Proof.
  intros [B1 B2 B3 B4 B5 B6]. rewrite /text_step. destruct c.
  - destruct B6 as [C1 C2]; [done|]. specialize (B4 eq_refl). specialize (B5 eq_refl). rewrite B4 in B2.
    rewrite drop_app // C2. simpl. split; [|done]. constructor; simpl; try done.
    + rewrite expected_app // -B2 B1 //.
    + by rewrite after_snoc -B2.
    + intros _. rewrite received_app -B5 /= sapp_nil //.
    + intros _. rewrite after_snoc -B2 /= (proj2 (complete_app (after "" false l).1 t)). split; [lia|].
      set (r := rest (rest (after "" false l).1 ++ t)%string).
      destruct (drop_suffix (b_cur b) (b_text b)) as [q Eq]. rewrite C2 in Eq.
      destruct (rest_suffix (rest (after "" false l).1 ++ t)%string) as [q' Eq']. fold r in Eq'.
      clearbody r. assert (b_text b ++ t = (q ++ q') ++ r)%string as Et by (by rewrite {1}Eq sapp_assoc Eq' -sapp_assoc).
      rewrite Et slen_app Nat.add_sub. apply drop_all.
  - destruct (b_closed b) eqn:Ec; simpl; (split; [|done]); constructor; simpl; try done.
    + by rewrite expected_app // -B2 B1.
    + by rewrite after_snoc -B2 Ec.
    + by rewrite Ec.
    + rewrite expected_app // -B2 B1 B3 //.
    + by rewrite after_snoc -B2 Ec.
    + intros _ _. rewrite after_snoc -B2 /= B3 //. symmetry. apply complete_app.
Qed.
(** An exit. *)
Definition flush_step (c : bool) (b : buf) : list string :=
  let r := if c then drop_str (b_cur b) (b_text b) else b_text b in if String.eqb r "" then [] else [r].
Lemma flush_one_eq a fd b s : flush_one a fd b s = log_lines a fd (flush_step false b) s.
Proof. rewrite /flush_one /flush_step. by destruct (String.eqb _ _). Qed.
Lemma flush_cached_eq a fd b l x s : buf_ok true b l x ->
  flush_cached_one a fd b s = (b <| b_cur := String.length (b_text b) |>, log_lines a fd (flush_step true b) s).
Proof.
  intros [B1 B2 B3 B4 B5 B6]. rewrite /flush_cached_one /flush_step split_lines_eq0. destruct B6 as [C1 C2]; [done|].
  rewrite C2. by destruct (rest_rest (after "" false l).1) as [-> ->].
Qed.
Lemma buf_exit_cached b l x : buf_ok true b l x ->
  buf_ok true (b <| b_cur := String.length (b_text b) |>) (l ++ [InExit false]) (x ++ flush_step true b).
Proof.
  intros [B1 B2 B3 B4 B5 B6]. destruct B6 as [C1 C2]; [done|]. constructor; simpl; try done.
  - rewrite expected_app // B1 /flush_step C2 //.
  - rewrite after_snoc /=. by apply B4.
  - intros _. rewrite received_app sapp_nil. by apply B5.
  - intros _. rewrite after_snoc. split; [done|]. rewrite -{2}(sapp_nil (b_text b)). apply drop_all.
Qed.
Lemma buf_exit b l x (c : bool) : buf_ok false b l x -> b_closed b = false ->
  buf_ok false (if c then mkBuf "" 0 true else emptyBuf) (l ++ [InExit c]) (x ++ flush_step false b).
Proof.
  intros [B1 B2 B3 B4 B5 B6] Hc. constructor; simpl; try done.
  - rewrite expected_app // B1 /flush_step B3 //.
  - rewrite after_snoc. by destruct c.
  - rewrite after_snoc. by destruct c.
Qed.
Lemma outs_io a e s : outs s -> outs (proc_io a e s).1.
Proof.
  intros HO. rewrite /proc_io. destruct e; try done. pose proof (HO a) as Ha. destruct (procs s !! a) as [p|] eqn:Ep; [|done].
  rewrite text_step_eq log_lines_eq. destruct Ha as [Ha Hc].
  change (match fd with Stdout => x_out p | Stderr => x_err p end) with (buf_of fd p).
  destruct (buf_text _ _ _ _ text (Ha fd)) as [Hb Hbc]. set (b' := (text_step _ text _).1) in *. set (y := (text_step _ text _).2) in *.
  clearbody b' y. cbn [fst]. match goal with |- outs ?x => set (s' := x) end.
  assert (hist s' = hist s ++ OChunk a fd text :: map (OLine a fd) y) as EH.
  { rewrite /hist /s' /=. by rewrite rev_app_distr /= rev_involutive -app_assoc. }
  intros b. rewrite EH. destruct (decide (a = b)) as [->|Hne].
  - rewrite /s' /= lookup_alter Ep /=. split.
    + intros fd'. destruct (decide (fd' = fd)) as [->|Hf].
      * rewrite inputs_app logged_app. 
        replace (inputs b fd (OChunk b fd text :: map (OLine b fd) y)) with [InText text].
        2: { by rewrite inputs_cons inputs_lines app_nil_r inputs_chunk bool_decide_true. }
        replace (logged b fd (OChunk b fd text :: map (OLine b fd) y)) with y.
        2: { symmetry. apply (logged_lines b fd y). }
        by destruct fd.
      * rewrite inputs_app logged_app.
        replace (inputs b fd' (OChunk b fd text :: map (OLine b fd) y)) with (@nil input).
        2: { rewrite inputs_cons inputs_lines app_nil_r inputs_chunk bool_decide_false //. by intros [_ ->]. }
        replace (logged b fd' (OChunk b fd text :: map (OLine b fd) y)) with (@nil string).
        2: { symmetry. apply (logged_others b fd' b fd y). by intros [_ ->]. }
        rewrite !app_nil_r. specialize (Ha fd'). by destruct fd, fd'.
    + by destruct fd; simpl in *; congruence.
  - rewrite /s' /= lookup_alter_ne //. specialize (HO b).
    assert (forall fd', inputs b fd' (hist s ++ OChunk a fd text :: map (OLine a fd) y) = inputs b fd' (hist s) /\
                        logged b fd' (hist s ++ OChunk a fd text :: map (OLine a fd) y) = logged b fd' (hist s)) as HE.
    { intros fd'. rewrite inputs_app logged_app. rewrite inputs_cons logged_cons inputs_chunk inputs_lines bool_decide_false; [by intros [-> _]|].
      rewrite logged_others; [by intros [-> _]|by rewrite !app_nil_r]. }
    destruct (procs s !! b) as [q|].
    + destruct HO as [HO HC]. split; [|done]. intros fd'. destruct (HE fd') as [-> ->]. apply HO.
    + intros fd'. destruct (HE fd') as [-> ->]. apply HO.
Qed.
Lemma outs_flushed a s s' p p' c y z : outs s -> procs s !! a = Some p ->
  log s' = rev (map (OLine a Stderr) z) ++ rev (map (OLine a Stdout) y) ++ OFlush a c :: log s -> procs s' = alter (fun _ => p') a (procs s) ->
  x_cfg p' = x_cfg p -> b_closed (x_out p') = b_closed (x_err p') ->
  buf_ok (p_cached (x_cfg p)) (x_out p') (inputs a Stdout (hist s) ++ [InExit c]) (logged a Stdout (hist s) ++ y) ->
  buf_ok (p_cached (x_cfg p)) (x_err p') (inputs a Stderr (hist s) ++ [InExit c]) (logged a Stderr (hist s) ++ z) -> outs s'.
Proof.
  intros HO Ep El EP Ec Hcl H1 H2 b.
  assert (hist s' = hist s ++ OFlush a c :: map (OLine a Stdout) y ++ map (OLine a Stderr) z) as EH.
  { rewrite /hist El !rev_app_distr /= !rev_involutive -!app_assoc //. }
  assert (forall fd', inputs b fd' (hist s') = inputs b fd' (hist s) ++ (if bool_decide (a = b) then [InExit c] else []) /\
    logged b fd' (hist s') = logged b fd' (hist s) ++ (if bool_decide (a = b) then (match fd' with Stdout => y | Stderr => z end) else [])) as HE.
  { intros fd'. rewrite EH inputs_app logged_app. destruct (decide (a = b)) as [->|Hne].
    - rewrite bool_decide_true // inputs_cons logged_cons inputs_flush bool_decide_true // inputs_app logged_app !inputs_lines. split; [done|].
      f_equal. destruct fd'; rewrite logged_lines; [rewrite logged_others; [by intros []|by rewrite app_nil_r]|].
      rewrite logged_others; [by intros []|done].
    - rewrite bool_decide_false // inputs_cons logged_cons inputs_flush bool_decide_false // inputs_app logged_app !inputs_lines. split; [done|].
      rewrite !logged_others; [by intros []|by intros []|done]. }
  rewrite EP. destruct (decide (a = b)) as [->|Hne].
  - rewrite lookup_alter Ep /=. split; [|done]. intros fd'. destruct (HE fd') as [-> ->]. rewrite bool_decide_true // Ec. by destruct fd'.
  - rewrite lookup_alter_ne //. specialize (HO b). destruct (procs s !! b) as [q|].
    + destruct HO as [HO HC]. split; [|done]. intros fd'. destruct (HE fd') as [-> ->]. rewrite bool_decide_false // !app_nil_r. apply HO.
    + intros fd'. destruct (HE fd') as [-> ->]. rewrite bool_decide_false // !app_nil_r. apply HO.
Qed.
Lemma alter_const (g : pobj -> pobj) (m : gmap aid pobj) a p : m !! a = Some p -> alter g a m = alter (fun _ => g p) a m.
Proof.
  intros E. apply map_eq. intros b. destruct (decide (a = b)) as [->|Hne]; [by rewrite !lookup_alter E|by rewrite !lookup_alter_ne].
Qed.
Lemma outs_flush a s : outs s -> outs (proc_flush a s).1.
Proof.
  intros HO. rewrite /proc_flush. pose proof (HO a) as Ha. destruct (procs s !! a) as [p|] eqn:Ep; [|done]. destruct Ha as [Ha Hc].
  pose proof (Ha Stdout) as H1. pose proof (Ha Stderr) as H2. simpl in H1, H2. destruct (p_cached (x_cfg p)) eqn:Eca.
  - rewrite (flush_cached_eq _ _ _ _ _ _ H1) (flush_cached_eq _ _ _ _ _ _ H2) !log_lines_eq.
    eapply (outs_flushed a s _ p _ false); [done|done|done| | | | |]; [by simpl; apply alter_const|done|done| |].
    + rewrite Eca. by apply buf_exit_cached.
    + rewrite Eca. by apply buf_exit_cached.
  - destruct (b_closed (x_out p)) eqn:Ecl; [done|].
    set (dn := match x_shutdown p with None => true | Some f => _ end). clearbody dn. cbn [fst].
    rewrite !flush_one_eq !log_lines_eq.
    eapply (outs_flushed a s _ p _ dn); [done|done|done| | | | |]; [by simpl; apply alter_const|done|done| |].
    + rewrite Eca. by apply buf_exit.
    + rewrite Eca. by apply buf_exit.
Qed.

(** ** All steps *)
Section outs.
Context (w : world).
Ltac nio := repeat constructor.
Lemma task_res_procs i r : procs (task_res i r) = procs r.1.
Proof. by destruct r as [s [| |]]. Qed.
Lemma on_ctx_only {A} (m : ctx -> ctx * res A) s s' r : on_ctx m s = (s', r) -> log s' = log s /\ procs s' = procs s.
Proof. rewrite /on_ctx. destruct (m (cx s)). by intros [= <- <-]. Qed.
Lemma outs_cleanup i a s : own s -> outs s -> outs (task_res i (cleanup a s)).
Proof.
  intros Ho HO. destruct (cleanup_spec a s Ho) as ((P1 & _ & P2 & _) & _). apply (outs_same s _ []); [done| |constructor|].
  - by rewrite task_res_log P2.
  - by rewrite task_res_procs P1.
Qed.
Lemma outs_task i s s' : own s -> task_step w i s = Some s' -> outs s -> outs s'.
Proof.
  intros Ho H HO. revert H. rewrite /task_step. destruct (tasks s !! i) as [[]|]; try done.
  - rewrite /timer_init. destruct (timers s !! a); [|done].
    destruct (on_ctx _ s) as [s1 r] eqn:E. apply on_ctx_only in E as [E1 E2].
    destruct (t_canceled_fut t), r; try done; intros [= <-].
    + eapply (outs_same s _ [_]); [done|by rewrite /= E1|nio|done].
    + by apply (outs_same s _ []); [| |constructor|].
    + by apply (outs_same s _ []); [| |constructor|].
  - rewrite /timer_wake. destruct (_ || _); [|done]. destruct (timers s !! a); [|done].
    destruct (t_canceled_fut t) as [fx|], (t_completed t) as [fc|]; try done. intros [= <-].
    destruct (f_is_done fx s).
    + apply (outs_same s _ []); [done| |constructor|]; rewrite ?task_res_log ?task_res_procs; by rewrite set_result_only.
    + apply (outs_same s _ [OEmit (EvTimer a); OFire a (now s)]); [done| |nio|]; rewrite ?task_res_log ?task_res_procs; by rewrite set_result_only.
  - rewrite /proc_init. destruct (procs s !! a); [|done]. destruct (x_det p); [|by intros [= <-]; apply (outs_same s _ []); [| |constructor|]].
    set (x := match lc (cx s) !! _ with Some _ => _ | None => _ end). assert (log x.1 = log s /\ procs x.1 = procs s) as [E1 E2].
    { rewrite /x. destruct (lc (cx s) !! _); [|done]. destruct (on_ctx _ _) eqn:E. by apply on_ctx_only in E. }
    destruct x as [s1 []]; simpl in E1, E2; intros [= <-]; by apply (outs_same s _ []); [| |constructor|].
  - intros [= <-]. eapply (outs_upd s _ [_; _] a); [done|done|nio|done|done].
  - destruct rc as [rc|]; [|done]. rewrite /proc_exited. destruct (procs s !! a) as [p|]; [|done].
    set (s0 := emit _ _). assert (own s0) as Ho0 by (by apply own_emit, own_obs).
    assert (outs s0) as HO0 by (by eapply (outs_same s _ [_; _]); [| |nio|]).
    match goal with |- (if ?b then _ else _) = _ -> _ => destruct b end.
    + set (s1 := upd_proc _ _ s0). assert (outs s1) as HO1 by (by eapply (outs_upd s0 _ [] a); [| |constructor| |]).
      assert (outs (proc_again i a s1)) as HA. { rewrite /proc_again. destruct (loop_set _); by apply (outs_same s1 _ []); [| |constructor|]. }
      destruct (p_delay _); [destruct (Qle_bool _ _)|]; intros [= <-]; done.
    + intros [= <-]. by apply outs_cleanup.
  - rewrite /proc_delay. destruct (procs s !! a); [|done]. destruct (match x_shutdown p with Some _ => _ | None => _ end).
    + intros [= <-]. by apply outs_cleanup.
    + destruct (Qle_bool _ _); [|done]. intros [= <-]. rewrite /proc_again. destruct (loop_set _); by apply (outs_same s _ []); [| |constructor|].
Qed.
Lemma aside_noio l : Forall (fun o => aside o = true) l -> noio l.
Proof. intros H. eapply Forall_impl; [done|]. by intros []. Qed.
Lemma outs_micro s s' : own s -> micro w s s' -> outs s -> outs s'.
Proof.
  intros Ho H HO. destruct H; forget_handlers.
  - destruct (ut_log _ _ H) as (l & E & Hl). apply (outs_same s s' l); [done|done|by apply aside_noio|by apply H].
  - destruct (timer_cancel_sameP a s) as (P1 & _ & P2 & _). by apply (outs_same s _ []); [| |constructor|].
  - by apply (outs_same s _ [OTimer a]); [| |nio|].
  - by apply (outs_same s _ []); [| |constructor|].
  - apply (outs_frame s _ []); [done|done|constructor|]. intros b. simpl. destruct (decide (a = b)) as [->|Hne].
    + rewrite lookup_insert /get_proc. destruct (procs s !! b) as [p|]; [left; by exists p|by right].
    + rewrite lookup_insert_ne //. destruct (procs s !! b) as [p|]; [left; by exists p|done].
  - destruct (O_prepare_executable w _ _ _ _ H0) as (c & n & pc & _ & _ & _ & _ & ->). by eapply (outs_upd s _ [] a); [| |constructor| |].
  - by eapply (outs_upd s _ [] a); [| |constructor| |].
  - by eapply (outs_upd s _ [] a); [| |constructor| |].
  - apply (outs_frame s _ []); [done|done|constructor|]. intros b. simpl. destruct (decide (a = b)) as [->|Hne].
    + rewrite lookup_insert. left. by exists p.
    + rewrite lookup_insert_ne //. destruct (procs s !! b) as [q|]; [left; by exists q|done].
  - destruct (shutdown_process_case a sg s Ho) as [? ->|p sf ???? ->| |].
    + by apply (outs_same s _ [OAsked a]); [| |nio|].
    + by apply (outs_same s _ [OAsked a]); [| |nio|].
    + match goal with H : log (shutdown_process _ _ _).1 = _ |- _ => rename H into El end.
      match goal with H : procs (shutdown_process _ _ _).1 = _ |- _ => rename H into EP end.
      eapply (outs_frame s _ [_; _]); [done|exact El|nio|]. intros b. rewrite EP. destruct (decide (a = b)) as [->|Hne].
      * rewrite lookup_insert. left. by exists p.
      * rewrite lookup_insert_ne //. destruct (procs s !! b) as [q|]; [left; by exists q|done].
    + match goal with H : untouched _ _ |- _ => pose proof (ut_procs _ _ H) as EP; destruct (ut_log _ _ H) as (l & El & Hl) end.
      apply (outs_same s _ (l ++ [OAsked a])); [done|by rewrite El -app_assoc| |done]. apply Forall_app_2; [by apply aside_noio|nio].
  - by apply (outs_same s _ [OSignal a sg]); [| |nio|].
  - by apply outs_io.
  - by apply outs_flush.
  - by eapply outs_task.
  - revert H. rewrite /spawn_ok. destruct (tasks s !! i) as [[]|]; try done. intros [= <-].
    eapply (outs_upd s _ [OSpawn a pid] a); [done|done|nio|reflexivity|]. intros p _. simpl. destruct (x_det p) as [d0|]; [|done]. by destruct (String.eqb _ _).
  - revert H. rewrite /spawn_fail. destruct (tasks s !! i) as [[]|]; try done. intros [= <-]. by apply outs_cleanup.
  - revert H. rewrite /proc_exit. destruct (tasks s !! i) as [[| | | |b f d [|]|b f d [|]| |]|]; try done; intros [= <-];
    (apply (outs_same s _ [OReap b rc]); [done| |nio|]); by rewrite /= set_result_only.
Qed.
Lemma outs_reachable s : reachable w s -> outs s.
Proof.
  intros H. apply (micro_reachable w (fun s => own s /\ outs s)) in H; [by destruct H| |].
  - intros n e. split; [apply own_init|]. intros a. by rewrite /= lookup_empty.
  - intros s1 s2 Hm [Ho Hf]. split; [by eapply own_micro|by eapply outs_micro].
Qed.

(** ** The properties *)
Lemma logged_expected a fd s : reachable w s -> logged a fd (hist s) = expected "" false (inputs a fd (hist s)).
Proof.
  intros H. specialize (outs_reachable s H a). destruct (procs s !! a) as [p|].
  - intros [HB _]. apply (HB fd).
  - intros HB. by destruct (HB fd) as [-> ->].
Qed.
Lemma cached_output a fd s : reachable w s -> is_cached a s -> get_output fd a s = Ok (received (inputs a fd (hist s))).
Proof.
  intros H (p & Ep & Ec). specialize (outs_reachable s H a). rewrite Ep. intros [HB _]. specialize (HB fd). destruct HB as [B1 B2 B3 B4 B5 B6].
  rewrite /get_output Ep Ec -/(buf_of fd p) B5 //.
Qed.
Lemma plain_output a fd s p : procs s !! a = Some p -> p_cached (x_cfg p) = false -> get_output fd a s = Exn XRuntime.
Proof. intros Ep Ec. by rewrite /get_output Ep Ec. Qed.
(** Without an exit nothing was lost: the lines and the rest are the text. *)
Lemma expected_text l : Forall (fun i => match i with InText _ => True | InExit _ => False end) l -> forall o,
  expected o false l = complete (o ++ received l)%string.
Proof. induction 1 as [|[t|c] l H _ IH]; intros o; simpl; [by rewrite sapp_nil| |done]. by rewrite IH sapp_assoc. Qed.
Lemma whole_text a fd s : reachable w s -> Forall (fun i => match i with InText _ => True | InExit _ => False end) (inputs a fd (hist s)) ->
  exists r, lines_of (received (inputs a fd (hist s))) (logged a fd (hist s)) r.
Proof. intros H HF. rewrite logged_expected // expected_text //. eexists. apply lines_of_spec. Qed.
Lemma whole_text_exit a fd s l c : reachable w s -> inputs a fd (hist s) = l ++ [InExit c] ->
  Forall (fun i => match i with InText _ => True | InExit _ => False end) l ->
  exists ls r, lines_of (received l) ls r /\ logged a fd (hist s) = ls ++ (if String.eqb r "" then [] else [r]).
Proof.
  intros H E HF. rewrite logged_expected // E expected_app // expected_text //.
  exists (complete (received l)), (rest (received l)). split; [apply lines_of_spec|].
  assert (forall o, after o false l = ((o ++ received l)%string, false)) as HA.
  { clear -HF. induction HF as [|[t|c] l H _ IH]; intros o; simpl; [by rewrite sapp_nil| |done]. by rewrite IH sapp_assoc. }
  by rewrite HA.
Qed.
End outs.
