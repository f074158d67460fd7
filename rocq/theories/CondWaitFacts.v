(** Lemmas for waiting on condition variables. *)
From Coq Require Import ssreflect.
From Verif Require Import SpecCondWait TestingFacts.

Section facts.
Context {D U : Type} (calls : list (ccall D)) (upd : U -> D -> D) (d0 : D) (clock : Z).
Notation run := (cs_run calls upd d0 clock).
Notation nxt := (cs_do calls upd).

Lemma run_snoc l o : run (l ++ [o]) = nxt (run l) o.
Proof. by rewrite /cs_run fold_left_app. Qed.

(** ** What is recorded *)
Lemma step_data k d st : cs_data (cs_step calls k d st) = cs_data st.
Proof.
  rewrite /cs_step. destruct (calls !! k) as [c|]; [|done]. destruct (cs_pcs st !! k) as [[|u|u| |r]|]; try done.
  - cbv zeta. cbn. destruct (cl_pred c (cs_data st)) as [[|]|]; done.
  - destruct (cl_pred c (cs_data st)) as [[|]|]; try done. cbv zeta. destruct u as [u|]; [|done]. by case_match.
Qed.
Lemma notify_data (st : cst D) : cs_data (cs_notify st) = cs_data st.
Proof. rewrite /cs_notify. by case_match. Qed.
Lemma timeout_data k (st : cst D) : cs_data (cs_timeout k st) = cs_data st.
Proof. rewrite /cs_timeout. destruct (cs_pcs st !! k) as [[|[u|]|u| |r]|]; try done. by case_match. Qed.
Lemma data_law l : cs_data (run l) = fold_left (fun d u => upd u d) (recorded_all l) d0.
Proof.
  induction l as [|o l IH] using rev_ind; [done|]. rewrite run_snoc /recorded_all omap_app fold_left_app. fold (recorded_all l). rewrite -IH.
  destruct o; cbn [cs_do omap list_omap fold_left]; [by rewrite step_data|by rewrite timeout_data|done|by rewrite notify_data|done].
Qed.

(** ** The calls *)
(** The call [k] only moves by its own steps, when notified, or by its timeout. *)
Definition pcs_len (st : cst D) := length (cs_pcs st) = length calls /\ length (cs_starts st) = length calls.
Lemma do_len st o : pcs_len st -> pcs_len (nxt st o).
Proof.
  rewrite /pcs_len. intros [H1 H2]. destruct o as [k d|k|d|u|u]; cbn [cs_do]; [| |done| |done].
  - rewrite /cs_step. destruct (calls !! k) as [c|]; [|done]. destruct (cs_pcs st !! k) as [[|v|v| |r]|]; try done.
    + cbv zeta. cbn. destruct (cl_pred c (cs_data st)) as [[|]|]; cbn; by rewrite ?insert_length.
    + destruct (cl_pred c (cs_data st)) as [[|]|]; cbn; rewrite ?insert_length; try done. destruct v as [v|]; [|cbn; by rewrite insert_length]. case_match; cbn; by rewrite insert_length.
    + cbn. by rewrite insert_length.
  - rewrite /cs_timeout. destruct (cs_pcs st !! k) as [[|[v|]|v| |r]|]; try done. case_match; [|done]. cbn. by rewrite insert_length.
  - rewrite /cs_notify. case_match; [done|]. cbn. case_match; [|done]. case_match; try done. by rewrite insert_length.
Qed.
Lemma run_len l : pcs_len (run l).
Proof. induction l as [|o l IH] using rev_ind; [by rewrite /pcs_len /= !map_length|]. rewrite run_snoc. by apply do_len. Qed.

(** What one step does to call [k]. *)
Inductive moved (k : nat) (c : ccall D) (st : cst D) (o : cop U) : cpc -> cpc -> Prop :=
| mv_same pc : cs_pcs (nxt st o) !! k = Some pc -> moved k c st o pc pc
| mv_true d pc : o = CStep k d -> pc = CNew \/ (exists u, pc = CAwake u) -> cl_pred c (cs_data st) = CBool true -> moved k c st o pc (CEnd (CBool true))
| mv_raise d pc e : o = CStep k d -> pc = CNew \/ (exists u, pc = CAwake u) -> cl_pred c (cs_data st) = CRaise e -> moved k c st o pc (CEnd (CRaise e))
| mv_first d : o = CStep k d -> cl_pred c (cs_data st) = CBool false ->
    cs_starts (nxt st o) !! k = Some (cs_clock st) -> cs_clock (nxt st o) = (cs_clock st + Z.of_nat d)%Z ->
    moved k c st o CNew (CAsleep ((fun t => cs_clock st + Z.of_nat d + t)%Z <$> cl_timeout c))
| mv_again d u : o = CStep k d -> cl_pred c (cs_data st) = CBool false -> moved k c st o (CAwake u) (CAsleep u)
| mv_after d u : o = CStep k d -> cl_pred c (cs_data st) = CBool false -> (u <= cs_clock (nxt st o))%Z -> moved k c st o (CAwake (Some u)) CAfter
| mv_end d : o = CStep k d -> moved k c st o CAfter (CEnd (cl_after c (cs_data st)))
| mv_woken u : (exists x, o = CRecord x) \/ (exists v, u = Some v /\ o = CTimeout k /\ (v <= cs_clock st)%Z) -> moved k c st o (CAsleep u) (CAwake u).

Lemma do_moved k c st o pc : pcs_len st -> calls !! k = Some c -> cs_pcs st !! k = Some pc ->
  exists pc', cs_pcs (nxt st o) !! k = Some pc' /\ moved k c st o pc pc' /\
    (pc <> CNew -> cs_starts (nxt st o) !! k = cs_starts st !! k).
Proof.
  intros [HL HS] Hc Hpc. assert (k < length (cs_pcs st)) as Hk by by eapply lookup_lt_Some.
  assert (k < length (cs_starts st)) as Hk' by lia.
  assert (forall pc', cs_pcs (nxt st o) !! k = Some pc' -> pc' = pc -> cs_starts (nxt st o) !! k = cs_starts st !! k ->
    exists pc', cs_pcs (nxt st o) !! k = Some pc' /\ moved k c st o pc pc' /\ (pc <> CNew -> cs_starts (nxt st o) !! k = cs_starts st !! k)) as Hsame.
  { intros pc' H -> Hs. exists pc. split; [done|]. split; [by constructor|done]. }
  destruct o as [j d|j|d|x|x]; [| |by eapply Hsame| |by eapply Hsame].
  - destruct (decide (j = k)) as [->|Hjk].
    + cbn [cs_do]. rewrite /cs_step Hc Hpc. destruct pc as [|u|u| |r].
      * cbv zeta. cbn [cs_start cs_data]. destruct (cl_pred c (cs_data st)) as [[|]|e] eqn:E; cbn; rewrite list_lookup_insert //; eexists; (split; [done|]); (split; [|done]).
        -- by eapply mv_true; eauto.
        -- eapply mv_first; eauto; cbn; rewrite /cs_step Hc Hpc; cbn; rewrite E; cbn; by rewrite ?list_lookup_insert.
        -- by eapply mv_raise; eauto.
      * eexists; split; [done|]. split; [|done]. constructor. cbn [cs_do]. by rewrite /cs_step Hc Hpc.
      * destruct (cl_pred c (cs_data st)) as [[|]|e] eqn:E; cbn.
        -- rewrite list_lookup_insert //. eexists; split; [done|]. split; [|done]. eapply mv_true; eauto.
        -- destruct u as [u|]; cbn.
           ++ destruct (Z.leb_spec u (cs_clock st + Z.of_nat d)); cbn; rewrite list_lookup_insert //; eexists; (split; [done|]); (split; [|done]).
              ** eapply mv_after; eauto. cbn. rewrite /cs_step Hc Hpc E. cbn. by destruct (Z.leb_spec u (cs_clock st + Z.of_nat d)); [|lia].
              ** by eapply mv_again.
           ++ rewrite list_lookup_insert //; eexists; (split; [done|]); (split; [|done]). by eapply mv_again.
        -- rewrite list_lookup_insert //. eexists; split; [done|]. split; [|done]. eapply mv_raise; eauto.
      * cbn. rewrite list_lookup_insert //. eexists; split; [done|]. split; [|done]. by eapply mv_end.
      * eexists; split; [done|]. split; [|done]. constructor. cbn [cs_do]. by rewrite /cs_step Hc Hpc.
    + assert (cs_pcs (nxt st (CStep j d)) !! k = Some pc /\ cs_starts (nxt st (CStep j d)) !! k = cs_starts st !! k) as [H1 H2]; [|by eapply Hsame].
      cbn [cs_do]. rewrite /cs_step. destruct (calls !! j) as [c'|]; [|done]. destruct (cs_pcs st !! j) as [[|u|u| |r]|]; try done; cbv zeta; cbn.
      * destruct (cl_pred c' (cs_data st)) as [[|]|e]; cbn; by rewrite !list_lookup_insert_ne.
      * destruct (cl_pred c' (cs_data st)) as [[|]|e]; cbn; rewrite ?list_lookup_insert_ne //. destruct u as [u|]; [case_match|]; cbn; by rewrite list_lookup_insert_ne.
      * by rewrite list_lookup_insert_ne.
  - cbn [cs_do] in *. destruct (decide (j = k)) as [->|Hjk].
    + rewrite /cs_timeout Hpc. destruct pc as [|[u|]|u| |r]; try (by rewrite /cs_timeout Hpc in Hsame; eapply Hsame).
      destruct (Z.leb_spec u (cs_clock st)).
      * cbn. rewrite list_lookup_insert //. eexists; split; [done|]. split; [|done]. apply mv_woken. right. by exists u.
      * rewrite /cs_timeout Hpc in Hsame. destruct (Z.leb_spec u (cs_clock st)); [lia|by eapply Hsame].
    + assert (cs_pcs (cs_timeout j st) !! k = Some pc /\ cs_starts (cs_timeout j st) = cs_starts st) as [H1 H2].
      { rewrite /cs_timeout; destruct (cs_pcs st !! j) as [[|[u|]|u| |r]|]; try done; case_match; cbn; rewrite ?list_lookup_insert_ne //. }
      eapply Hsame; [done|done|by rewrite H2].
  - cbn [cs_do] in *. rewrite /cs_notify in Hsame |- *. cbn in *. destruct (cs_queue st) as [|j q]; [by eapply Hsame|]. cbn in *.
    destruct (decide (j = k)) as [->|Hjk].
    + rewrite Hpc in Hsame |- *. destruct pc as [|u|u| |r]; try by eapply Hsame.
      rewrite list_lookup_insert //. eexists; split; [done|]. split; [|done]. apply mv_woken. left. by exists x.
    + eapply (Hsame _); [|done|done]. case_match; [|done]. case_match; rewrite ?list_lookup_insert_ne //.
Qed.

(** ** How calls end *)
Notation looked := (looked calls upd d0 clock).
Notation too_late := (too_late calls upd d0 clock).
Definition how (k : nat) (c : ccall D) (l : list (cop U)) (pc : cpc) : Prop :=
  match pc with
  | CNew => True
  | CAsleep u | CAwake u => exists s, cs_starts (run l) !! k = Some s /\ match cl_timeout c with None => u = None | Some t => exists v, u = Some v /\ (s + t <= v)%Z end
  | CAfter => exists l0, looked k c (CBool false) l0 l /\ too_late k c l0 l
  | CEnd r => exists l1, (looked k c r l1 l /\ r <> CBool false) \/
      exists d l2 l0, l = l1 ++ CStep k d :: l2 /\ looked k c (CBool false) l0 l1 /\ too_late k c l0 l1 /\ r = cl_after c (cs_data (run l1))
  end.
Lemma looked_more k c r l1 l o : looked k c r l1 l -> looked k c r l1 (l ++ [o]).
Proof. intros (d & l2 & -> & H). exists d, (l2 ++ [o]). by rewrite -app_assoc. Qed.
Lemma too_late_more k c l1 l o : cs_starts (run (l ++ [o])) !! k = cs_starts (run l) !! k -> too_late k c l1 l -> too_late k c l1 (l ++ [o]).
Proof. intros E (t & s & d & l2 & H1 & H2 & -> & H3). exists t, s, d, (l2 ++ [o]). rewrite E. by rewrite -app_assoc. Qed.
Lemma how_law k c l : calls !! k = Some c -> exists pc, cs_pcs (run l) !! k = Some pc /\ how k c l pc.
Proof.
  intros Hc. induction l as [|o l (pc & Hpc & IH)] using rev_ind.
  { exists CNew. split; [|done]. by rewrite /= list_lookup_fmap Hc. }
  destruct (do_moved k c (run l) o pc (run_len l) Hc Hpc) as (pc' & Hpc' & HM & HS). rewrite -run_snoc in Hpc', HS.
  exists pc'. split; [done|]. destruct HM as [pc _|d pc -> Hn Hp|d pc e -> Hn Hp|d -> Hp Hs Hcl|d u -> Hp|d u -> Hp Hu|d ->|u Hw].
  - destruct pc as [|u|u| |r]; [done| | | |]; cbn in IH |- *.
    + by rewrite HS.
    + by rewrite HS.
    + destruct IH as (l0 & H1 & H2). exists l0. split; [by apply looked_more|]. apply too_late_more; [by apply HS|done].
    + destruct IH as (l1 & [[H1 H2]|(d & l2 & l0 & -> & H)]); exists l1; [left; split; [by apply looked_more|done]|].
      right. exists d, (l2 ++ [o]), l0. by rewrite -app_assoc.
  - exists l. left. split; [|done]. exists d, []. split; [done|]. split; [|done]. intros r' E. rewrite /ended Hpc in E. naive_solver.
  - exists l. left. split; [|done]. exists d, []. split; [done|]. split; [|done]. intros r' E. rewrite /ended Hpc in E. naive_solver.
  - cbn. rewrite -run_snoc in Hs. exists (cs_clock (run l)). split; [done|]. destruct (cl_timeout c) as [t|]; [|done]. eexists. split; [done|]. lia.
  - cbn in IH |- *. by rewrite HS.
  - cbn in IH |- *. destruct IH as (s & Hs & IH). exists l. split.
    + exists d, []. split; [done|]. split; [|done]. intros r' E. by rewrite /ended Hpc in E.
    + rewrite -run_snoc in Hu. destruct (cl_timeout c) as [t|] eqn:Et; [|done]. destruct IH as (v & [= <-] & Hv). exists t, s, d, []. rewrite HS //. repeat split; try done. lia.
  - destruct IH as (l0 & H1 & H2). exists l. right. by exists d, [], l0.
  - cbn in IH |- *. by rewrite HS.
Qed.
Lemma end_law k c l r : calls !! k = Some c -> ended calls upd d0 clock k r l ->
  (exists l1, looked k c r l1 l /\ r <> CBool false) \/
  exists l0 l1 d l2, l = l1 ++ CStep k d :: l2 /\ looked k c (CBool false) l0 l1 /\ too_late k c l0 l1 /\ r = cl_after c (cs_data (run l1)).
Proof.
  intros Hc H. destruct (how_law k c l Hc) as (pc & Hpc & HH). rewrite H in Hpc. injection Hpc as <-. cbn in HH.
  destruct HH as (l1 & [H1|(d & l2 & l0 & H1)]); [left; by exists l1|right; by exists l0, l1, d, l2].
Qed.
(** Once ended, a call stays as it is. *)
Lemma ended_more k r l l' : ended calls upd d0 clock k r l -> ended calls upd d0 clock k r (l ++ l').
Proof.
  intros H. induction l' as [|o l' IH] using rev_ind; [by rewrite app_nil_r|]. rewrite app_assoc. rewrite /ended in IH |- *.
  destruct (calls !! k) as [c|] eqn:Hc.
  - destruct (do_moved k c _ o _ (run_len (l ++ l')) Hc IH) as (pc' & Hpc' & HM & _). rewrite run_snoc Hpc'. inversion HM; subst; try done; naive_solver.
  - exfalso. apply lookup_ge_None in Hc. apply lookup_lt_Some in IH. destruct (run_len (l ++ l')). lia.
Qed.
(** ** At the deadline *)
Lemma deadline_law k c l u : calls !! k = Some c -> cs_pcs (run l) !! k = Some (CAsleep (Some u)) -> (u <= cs_clock (run l))%Z ->
  cs_pcs (run (l ++ [CTimeout k; CStep k 0])) !! k =
  Some match cl_pred c (cs_data (run l)) with CBool false => CAfter | r => CEnd r end.
Proof.
  intros Hc H Hu. rewrite (app_assoc l [_] [_]) run_snoc run_snoc. cbn [cs_do]. rewrite {1}/cs_timeout H.
  destruct (Z.leb_spec u (cs_clock (run l))); [|lia]. assert (k < length (cs_pcs (run l))) by by eapply lookup_lt_Some.
  rewrite /cs_step Hc. cbn. rewrite list_lookup_insert //. destruct (cl_pred c (cs_data (run l))) as [[|]|e]; cbn -[Z.of_nat].
  - rewrite list_lookup_insert // insert_length //.
  - destruct (Z.leb_spec u (cs_clock (run l) + Z.of_nat 0)); [|lia]. cbn. rewrite list_lookup_insert // insert_length //.
  - rewrite list_lookup_insert // insert_length //.
Qed.
(** ** A single call *)
Lemma alone_law c l : calls = [c] -> (forall u d, In (CElsewhere u) l -> cl_pred c (upd u d) = cl_pred c d) ->
  match cs_pcs (run l) !! 0 with
  | Some (CAsleep _) => cs_queue (run l) = [0] /\ cl_pred c (cs_data (run l)) = CBool false
  | _ => cs_queue (run l) = []
  end.
Proof.
  intros Hc. induction l as [|o l IH] using rev_ind; intros HE.
  { by rewrite Hc. }
  assert (forall u d, In (CElsewhere u) l -> cl_pred c (upd u d) = cl_pred c d) as HE' by (intros u d Hu; apply HE; apply in_app_iff; by left).
  specialize (IH HE'). rewrite run_snoc. destruct (run_len l) as [HL _].
  assert (length calls = 1 /\ calls !! 0 = Some c /\ forall k, calls !! S k = None) as (H1 & H0 & HSk) by by rewrite Hc. rewrite H1 in HL.
  destruct (cs_pcs (run l)) as [|pc [|]] eqn:E; try done. cbn in IH. destruct o as [k d|k|d|u|u]; cbn [cs_do].
  - destruct k as [|k]; [|by rewrite /cs_step HSk E].
    rewrite /cs_step H0 E. cbn [lookup list_lookup]. destruct pc as [|v|v| |r]; cbn; rewrite ?E; try done.
    + destruct (cl_pred c (cs_data (run l))) as [[|]|e] eqn:Ep; cbn; rewrite E /= ?IH //.
    + destruct (cl_pred c (cs_data (run l))) as [[|]|e] eqn:Ep; cbn; rewrite ?E /= ?IH //.
      destruct v as [v|]; [destruct (Z.leb v _)|]; cbn; rewrite E /= ?IH //.
  - destruct k as [|k]; [|by rewrite /cs_timeout E /= E]. rewrite /cs_timeout E /=. destruct pc as [|[v|]|v| |r]; cbn; rewrite ?E //.
    destruct (Z.leb v _); cbn; rewrite ?E //=. destruct IH as [-> _]. done.
  - cbn. by rewrite E.
  - rewrite /cs_notify. cbn. destruct pc as [|v|v| |r]; try (rewrite IH; cbn; by rewrite E).
    destruct IH as [-> _]. rewrite E /=. done.
  - cbn. rewrite E /=. destruct pc as [|v|v| |r]; try done. destruct IH as [? IH]. split; [done|]. rewrite HE; [apply in_app_iff; right; by left|done].
Qed.
Lemma alert_law c l : calls = [c] -> (forall u d, In (CElsewhere u) l -> cl_pred c (upd u d) = cl_pred c d) ->
  asleep calls upd d0 clock 0 l -> cl_pred c (cs_data (run l)) = CBool false.
Proof. intros Hc HE [u Hu]. move: (alone_law c l Hc HE). rewrite Hu. by intros [_ ?]. Qed.
(** Woken when the predicate has come to hold, it returns True. *)
Lemma wake_law c u l : calls = [c] -> (forall u d, In (CElsewhere u) l -> cl_pred c (upd u d) = cl_pred c d) ->
  asleep calls upd d0 clock 0 l -> cl_pred c (upd u (cs_data (run l))) = CBool true ->
  ended calls upd d0 clock 0 (CBool true) (l ++ [CRecord u; CStep 0 0]).
Proof.
  intros Hc HE [v Hv] Hp. move: (alone_law c l Hc HE). rewrite Hv. intros [HQ _]. destruct (run_len l) as [HL _].
  assert (length calls = 1 /\ calls !! 0 = Some c) as (H1 & H0) by by rewrite Hc. rewrite H1 in HL.
  rewrite /ended (app_assoc l [_] [_]) run_snoc run_snoc. cbn [cs_do]. rewrite /cs_notify. cbn. rewrite HQ.
  destruct (cs_pcs (run l)) as [|pc [|]] eqn:E; try done. injection Hv as ->. cbn. by rewrite /cs_step H0 /= Hp.
Qed.
End facts.

(** ** The calls of tests *)
Lemma only_here_app {U} (l1 l2 : list (cop U)) : only_here (l1 ++ l2) -> only_here l1.
Proof. intros H u Hu. apply (H u). apply in_app_iff. by left. Qed.
Lemma recorded_here {U} (l : list (cop U)) : only_here l -> recorded_all l = recorded l.
Proof.
  intros H. rewrite /recorded_all /recorded. induction l as [|o l IH]; [done|]. assert (only_here l) as H' by (intros u Hu; apply (H u); by right).
  destruct o; cbn [omap list_omap]; rewrite ?IH //. exfalso. by apply (H u); left.
Qed.
Lemma io_data calls clock l : only_here l -> cs_data (cs_run calls io_upd ih_init clock l) = ih_run (recorded l).
Proof. intros H. by rewrite data_law (recorded_here l H). Qed.
Lemma info_data calls clock l : only_here l -> cs_data (cs_run calls info_upd [] clock l) = pi_run (recorded l).
Proof. intros H. by rewrite data_law (recorded_here l H). Qed.

Section io.
Context (search rematch : nat -> string -> nat -> option (nat * nat)) (strip_ansi : string -> string) (det : nat -> details).
Notation ais := (assert_in_stream search rematch strip_ansi det).
Lemma io_true_law calls clock l k e q args strict filter strip stream t :
  let asserted l1 := ais (ih_run (recorded l1)) e q args filter strict strip stream in
  only_here l -> calls !! k = Some (io_wait_for search rematch strip_ansi det e q args strict filter strip stream t) ->
  ended calls io_upd ih_init clock k (CBool true) l ->
  exists l1 d l2, l = l1 ++ CStep k d :: l2 /\ asserted l1 = APasses.
Proof.
  intros asserted HO Hc HE. destruct (end_law _ _ _ _ _ _ _ _ Hc HE) as [(l1 & (d & l2 & -> & _ & H) & _)|(l0 & l1 & d & l2 & _ & _ & _ & H)].
  - exists l1, d, l2. split; [done|]. cbn in H. rewrite io_data in H; [by eapply only_here_app|]. rewrite /asserted. move: H. rewrite /msg_found. case_match; try done. by case_match.
  - move: H. cbn. rewrite /io_after. by case_match.
Qed.
Lemma io_false_law calls clock l k e q args strict filter strip stream t :
  let asserted l1 := ais (ih_run (recorded l1)) e q args filter strict strip stream in
  only_here l -> calls !! k = Some (io_wait_for search rematch strip_ansi det e q args strict filter strip stream t) ->
  ended calls io_upd ih_init clock k (CBool false) l ->
  exists l0 l1 d l2, l = l1 ++ CStep k d :: l2 /\
    looked calls io_upd ih_init clock k (io_wait_for search rematch strip_ansi det e q args strict filter strip stream t) (CBool false) l0 l1 /\
    too_late calls io_upd ih_init clock k (io_wait_for search rematch strip_ansi det e q args strict filter strip stream t) l0 l1 /\
    (asserted l0 = AFails \/ asserted l0 = AUnresolved NoMatch) /\ exists ps, resolve det (ih_processes (ih_run (recorded l1))) q args false = Procs ps.
Proof.
  intros asserted HO Hc HE. destruct (end_law _ _ _ _ _ _ _ _ Hc HE) as [(l1 & _ & H)|(l0 & l1 & d & l2 & -> & HL & HT & H)]; [done|].
  exists l0, l1, d, l2. split; [done|]. split; [done|]. split; [done|]. apply only_here_app in HO. split.
  - destruct HL as (d' & l3 & -> & _ & HP). apply only_here_app in HO. cbn in HP. rewrite io_data // in HP. rewrite /asserted. move: HP. rewrite /msg_found.
    case_match; try done; [by left|]. case_match; try done. by right.
  - move: H. cbn. rewrite io_data // /io_after. case_match; try done. by eexists.
Qed.
Lemma is_shutdown_law q args evs :
  match resolve det (first_actions (map ev_action evs)) q args true with
  | Procs l => exists a ps, l = a :: ps /\ exists e, last_event a evs = Some e /\ is_shutdown det q args (pi_run evs) = CBool (match ev_code e with Some _ => true | None => false end)
  | NoMatch => is_shutdown det q args (pi_run evs) = CBool false
  | r => is_shutdown det q args (pi_run evs) = CRaise (resolve_exn r)
  end.
Proof.
  rewrite /is_shutdown. destruct (info_law evs) as [H1 H2]. rewrite H1. move: (resolve_law det (first_actions (map ev_action evs)) q args true).
  destruct (resolve det (first_actions (map ev_action evs)) q args true) as [[|a ps]| | |] eqn:E; try done.
  - by intros [? _].
  - intros (_ & Hin & _). exists a, ps. split; [done|]. rewrite H2. destruct (Hin a) as [Ha _]. destruct (Ha (or_introl eq_refl)) as [Ha' _].
    rewrite -H1 in Ha'. destruct (last_event a evs) as [e|] eqn:Ee; [by exists e|]. exfalso.
    assert (pi_get a (pi_run evs) = Exn XKey) as HX by by rewrite H2 Ee. move: Ha' HX. rewrite /pi_processes. clear. induction (pi_run evs) as [|[b e] d IH]; [done|].
    cbn. destruct (Nat.eqb_spec b a) as [->|?]; [done|]. intros [?|?]; [done|]. by apply IH.
Qed.
Lemma shutdown_law calls clock l k q args t b :
  only_here l -> calls !! k = Some (wait_shutdown det q args t) -> ended calls info_upd [] clock k (CBool b) l ->
  b = true /\ exists l1 d l2 a ps c, l = l1 ++ CStep k d :: l2 /\
    resolve det (first_actions (map ev_action (recorded l1))) q args true = Procs (a :: ps) /\ last_event a (recorded l1) = Some {| ev_action := a; ev_code := Some c |}.
Proof.
  intros HO Hc HE. destruct (end_law _ _ _ _ _ _ _ _ Hc HE) as [(l1 & (d & l2 & -> & _ & H) & Hb)|(l0 & l1 & d & l2 & _ & _ & _ & H)]; [|done].
  destruct b; [|done]. split; [done|]. exists l1, d, l2. cbn in H. rewrite info_data in H; [by eapply only_here_app|].
  move: (is_shutdown_law q args (recorded l1)). rewrite H. destruct (resolve det _ q args true) as [ps| | |]; try done.
  intros (a & ps' & -> & e & He & He'). exists a, ps'. pose proof (last_event_action _ _ _ He) as Ha. destruct e as [ea [c|]]; [|done]. cbn in Ha. subst ea. by exists c.
Qed.
Lemma shutdown_late_law calls clock l k q args t :
  only_here l -> calls !! k = Some (wait_shutdown det q args t) -> ended calls info_upd [] clock k (CRaise XAssertion) l ->
  exists l0 l1 l2, l = l1 ++ l2 /\ too_late calls info_upd [] clock k (wait_shutdown det q args t) l0 l1 /\
    match resolve det (first_actions (map ev_action (recorded l0))) q args true with
    | Procs ps => exists a ps', ps = a :: ps' /\ last_event a (recorded l0) = Some {| ev_action := a; ev_code := None |}
    | r => r = NoMatch
    end.
Proof.
  intros HO Hc HE. destruct (end_law _ _ _ _ _ _ _ _ Hc HE) as [(l1 & (d & l2 & -> & _ & H) & Hb)|(l0 & l1 & d & l2 & -> & HL & HT & H)].
  - exfalso. cbn in H. rewrite info_data in H; [by eapply only_here_app|]. move: (is_shutdown_law q args (recorded l1)). rewrite H.
    destruct (resolve det _ q args true) as [ps| | |]; try done. by intros (a & ps' & _ & e & _ & ?).
  - exists l0, l1, (CStep k d :: l2). split; [done|]. split; [done|]. destruct HL as (d' & l3 & -> & _ & HP). apply only_here_app, only_here_app in HO. cbn in HP. rewrite info_data // in HP.
    move: (is_shutdown_law q args (recorded l0)). rewrite HP. destruct (resolve det _ q args true) as [ps| | |]; try done.
    intros (a & ps' & -> & e & He & He'). exists a, ps'. split; [done|]. pose proof (last_event_action _ _ _ He) as Ha. destruct e as [ea [c|]]; [done|]. cbn in Ha. by subst ea.
Qed.
Lemma startup_law calls clock l k q args t b :
  only_here l -> calls !! k = Some (wait_startup det q args t) -> ended calls info_upd [] clock k (CBool b) l ->
  b = true /\ exists l1 d l2 e, l = l1 ++ CStep k d :: l2 /\ In e (recorded l1) /\ selected det q args (ev_action e).
Proof.
  intros HO Hc HE. destruct (end_law _ _ _ _ _ _ _ _ Hc HE) as [(l1 & (d & l2 & -> & _ & H) & Hb)|(l0 & l1 & d & l2 & _ & _ & _ & H)]; [|done].
  destruct b; [|done]. split; [done|]. exists l1, d, l2. cbn in H. rewrite info_data in H; [by eapply only_here_app|]. rewrite /is_started in H.
  move: (resolve_law det (pi_processes (pi_run (recorded l1))) q args true). destruct (resolve det _ q args true) as [ps| | |]; try done.
  intros (Hne & Hin & _). destruct ps as [|a ps]; [done|]. destruct (Hin a) as [Ha _]. destruct (Ha (or_introl eq_refl)) as [Hp Hs].
  destruct (info_law (recorded l1)) as [HI _]. rewrite HI in Hp.
  assert (In a (map ev_action (recorded l1))) as (e & <- & He)%in_map_iff; [|by exists e].
  move: Hp. rewrite /first_actions. generalize (@nil nat) as seen. generalize (map ev_action (recorded l1)). clear. induction l as [|x l IH]; intros seen; [done|]. cbn.
  destruct (existsb (Nat.eqb x) seen); [intros ?; right; by eapply IH|]. intros [->|?]; [by left|right; by eapply IH].
Qed.
Lemma startup_late_law calls clock l k q args t :
  only_here l -> calls !! k = Some (wait_startup det q args t) -> ended calls info_upd [] clock k (CRaise XAssertion) l ->
  exists l0 l1 l2, l = l1 ++ l2 /\ too_late calls info_upd [] clock k (wait_startup det q args t) l0 l1 /\ forall e, In e (recorded l0) -> ~ selected det q args (ev_action e).
Proof.
  intros HO Hc HE. destruct (end_law _ _ _ _ _ _ _ _ Hc HE) as [(l1 & (d & l2 & -> & _ & H) & Hb)|(l0 & l1 & d & l2 & -> & HL & HT & H)].
  - exfalso. cbn in H. rewrite info_data in H; [by eapply only_here_app|]. move: H. rewrite /is_started. by destruct (resolve det _ q args true).
  - exists l0, l1, (CStep k d :: l2). split; [done|]. split; [done|]. destruct HL as (d' & l3 & -> & _ & HP). apply only_here_app, only_here_app in HO. cbn in HP. rewrite info_data // in HP. rewrite /is_started in HP.
    move: (resolve_law det (pi_processes (pi_run (recorded l0))) q args true). destruct (resolve det _ q args true) as [ps| | |]; try done.
    destruct (info_law (recorded l0)) as [HI _]. rewrite HI. intros [Hn _] e He. apply Hn. rewrite /first_actions. apply (firsts_in _ neqb). split; [|intros []]. by apply in_map.
Qed.
End io.

(** ** ProcessProxy *)
Lemma seen_data calls clock l : cs_data (cs_run calls seen_upd nothing_seen clock l) =
  {| sn_info := pi_run (infos (recorded_all l)); sn_io := ih_run (ios (recorded_all l)) |}.
Proof.
  rewrite data_law. rewrite /infos /ios. induction (recorded_all l) as [|o l' IH] using rev_ind; [done|].
  rewrite fold_left_app !omap_app IH. destruct o; cbn; rewrite /pi_run /ih_run !fold_left_app //.
Qed.

Lemma running_law a l : px_running a {| sn_info := pi_run (infos l); sn_io := ih_run (ios l) |} = true <-> has_started a l.
Proof.
  rewrite /px_running /has_started. cbn. destruct (info_law (infos l)) as [_ ->]. destruct (last_event a (infos l)) as [e|] eqn:E; [|done].
  pose proof (last_event_action _ _ _ E) as Ha. destruct e as [ea [c|]]; cbn in *; subst; naive_solver.
Qed.
Lemma terminated_law a l : px_terminated a {| sn_info := pi_run (infos l); sn_io := ih_run (ios l) |} = true <-> has_exited a l.
Proof.
  rewrite /px_terminated /has_exited. cbn. destruct (info_law (infos l)) as [_ ->]. destruct (last_event a (infos l)) as [e|] eqn:E; [|by split; [|intros [? ?]]].
  pose proof (last_event_action _ _ _ E) as Ha. destruct e as [ea [c|]]; cbn in *; subst; naive_solver.
Qed.
Lemma output_law det filter a l : px_output det filter a {| sn_info := pi_run (infos l); sn_io := ih_run (ios l) |} =
  if existsb (String.eqb (de_name (det a))) (mentioned (ios l)) then Ok (filter (output_of (de_name (det a)) l)) else Exn XKey.
Proof.
  rewrite /px_output /output_of. cbn. destruct (io_law (ios l)) as (_ & _ & H & _). rewrite H. by destruct (existsb _ _).
Qed.
Lemma px_shutdown_law calls clock l k a timeout b : calls !! k = Some (px_wait_shutdown a timeout) ->
  ended calls seen_upd nothing_seen clock k (CBool b) l ->
  if b then exists l1 d l2, l = l1 ++ CStep k d :: l2 /\ has_exited a (recorded_all l1)
  else exists l0 l1 l2, l = l1 ++ l2 /\ too_late calls seen_upd nothing_seen clock k (px_wait_shutdown a timeout) l0 l1 /\ ~ has_exited a (recorded_all l0).
Proof.
  intros Hc HE. destruct (end_law _ _ _ _ _ _ _ _ Hc HE) as [(l1 & (d & l2 & -> & _ & H) & Hb)|(l0 & l1 & d & l2 & -> & HL & HT & H)].
  - destruct b; [|done]. exists l1, d, l2. split; [done|]. cbn in H. rewrite seen_data in H. by apply terminated_law; injection H.
  - injection H as ->. exists l0, l1, (CStep k d :: l2). split; [done|]. split; [done|]. destruct HL as (d' & l3 & -> & _ & HP). cbn in HP. rewrite seen_data in HP.
    intros HX%terminated_law. rewrite HX in HP. done.
Qed.
Lemma px_output_law det calls clock l k filter cond a timeout r : calls !! k = Some (px_wait_output det filter cond a timeout) ->
  ended calls seen_upd nothing_seen clock k r l ->
  match r with
  | CBool true => exists l1 d l2, l = l1 ++ CStep k d :: l2 /\ has_started a (recorded_all l1) /\ cond (filter (output_of (de_name (det a)) (recorded_all l1))) = true
  | CBool false => exists l0 l1 l2, l = l1 ++ l2 /\ too_late calls seen_upd nothing_seen clock k (px_wait_output det filter cond a timeout) l0 l1 /\
      (has_started a (recorded_all l0) -> cond (filter (output_of (de_name (det a)) (recorded_all l0))) = false)
  | CRaise x => x = XOf XKey /\ exists l1 d l2, l = l1 ++ CStep k d :: l2 /\ has_started a (recorded_all l1) /\
      ~ In (de_name (det a)) (mentioned (ios (recorded_all l1)))
  end.
Proof.
  assert (forall n ls, existsb (String.eqb n) ls = false -> ~ In n ls) as Hnot.
  { intros n ls E Hin. assert (existsb (String.eqb n) ls = true); [|congruence]. apply existsb_exists. exists n. by rewrite String.eqb_refl. }
  intros Hc HE. destruct (end_law _ _ _ _ _ _ _ _ Hc HE) as [(l1 & (d & l2 & -> & _ & H) & Hb)|(l0 & l1 & d & l2 & -> & HL & HT & H)].
  - cbn in H. rewrite seen_data output_law in H. destruct (px_running a _) eqn:ER; [|by subst r]. apply running_law in ER.
    destruct (existsb _ _) eqn:EM; subst r.
    + destruct (cond _) eqn:EC; [|done]. by exists l1, d, l2.
    + split; [done|]. exists l1, d, l2. split; [done|]. split; [done|]. by apply Hnot.
  - subst r. cbn. exists l0, l1, (CStep k d :: l2). split; [done|]. split; [done|]. destruct HL as (d' & l3 & -> & _ & HP). cbn in HP. rewrite seen_data output_law in HP.
    intros HX%running_law. rewrite HX in HP. destruct (existsb _ _); [by injection HP|done].
Qed.
(** Two calls, of which the first was notified. *)
Definition two_calls : list (ccall seen) := [px_wait_shutdown 1 None; px_wait_shutdown 2 None].
Definition two_ops : list (cop sop) := [CStep 0 0; CStep 1 0; CRecord (SInfo {| ev_action := 2; ev_code := Some 0%Z |})].
Lemma second_sleeps l : recorded_all l = [] -> asleep two_calls seen_upd nothing_seen 0 1 (two_ops ++ l).
Proof.
  intros HR. exists None. induction l as [|o l IH] using rev_ind; [done|].
  rewrite /recorded_all omap_app in HR. apply app_eq_nil in HR as [HR Ho]. fold (recorded_all l) in HR. specialize (IH HR). rewrite app_assoc.
  destruct (do_moved two_calls seen_upd 1 (px_wait_shutdown 2 None) _ o _ (run_len two_calls seen_upd nothing_seen 0 (two_ops ++ l)) eq_refl IH) as (pc & Hpc & HM & _).
  rewrite run_snoc Hpc. inversion HM; subst; try done; try congruence; naive_solver.
Qed.
