(** Lemmas about handling events. *)
From Coq Require Import ssreflect.
From Verif Require Import SubstFacts SpecContext SpecVisit ExecFacts VisitFacts.

(** ** The frame of handling events *)
Definition hquiet (o : obs) : bool :=
  match o with OHandle _ _ | OBody _ _ _ => true | _ => quiet o end.
Record hframe (w : world) (s s' : st) : Prop := {
  hf_log : exists l, hist s' = hist s ++ l /\ Forall (fun o => hquiet o = true) l /\
                     queue (cx s') = queue (cx s) ++ emitted l;
  hf_futs : futs_le s s';
  hf_svc : svc_same s s';
  hf_flags : (shutting_down s' = shutting_down s /\ is_shutdown (cx s') = is_shutdown (cx s)) \/
             (shutting_down s' = true /\ is_shutdown (cx s') = true);
  hf_efuts : exists l, efuts s' = efuts s ++ l;
  hf_tasks : exists t, tasks s' = tasks s ++ t /\ Forall (fun x => new_task x = true) t;
  hf_cfuts : exists l, cfuts (cx s') = cfuts (cx s) ++ l /\ Forall (newf s s') l;
  hf_ufuts : exists l, ufuts s' = l ++ ufuts s /\ Forall (newf s s') l;
  hf_cbs : exists l, cbs s' = cbs s ++ l;
  hf_pcount : (pcount s <= pcount s')%Z;
  hf_srcs : srcs_le w s s';
  hf_regs : regs_le s s';
  hf_hsrc : hsrc s s' }.

Section frame.
Context (w : world).
Notation hframe := (hframe w).
Lemma quiet_hquiet o : quiet o = true -> hquiet o = true.
Proof. by destruct o. Qed.
Lemma gframe_hframe q b s s' : (forall o, q o = true -> quiet o = true) -> gframe w q b s s' -> hframe s s'.
Proof.
  intros Hq [L ? ? ? G E ? ? ? ? ? ? ? ? ? ?]. constructor; try done.
  - destruct L as (l & ? & HF & ?). exists l. split_and!; [done| |done]. apply (Forall_impl _ _ _ HF).
    intros o Ho. by apply quiet_hquiet, Hq.
  - by left.
  - exists []. by rewrite app_nil_r.
Qed.
Lemma hframe_refl s : hframe s s.
Proof. by apply (gframe_hframe quiet false); [|apply vframe_refl]. Qed.
Lemma hframe_trans a b c : hframe a b -> hframe b c -> hframe a c.
Proof.
  intros [L1 F1 S1 G1 E1 T1 C1 U1 B1 P1 Y1 R1 I1] [L2 F2 S2 G2 E2 T2 C2 U2 B2 P2 Y2 R2 I2].
  pose proof F1 as (N1 & _). pose proof F2 as (N2 & _).
  destruct L1 as (l1 & Hl1 & Q1 & Hq1), L2 as (l2 & Hl2 & Q2 & Hq2).
  destruct T1 as (t1 & Ht1 & Tn1), T2 as (t2 & Ht2 & Tn2).
  destruct C1 as (c1 & Hc1 & Cn1), C2 as (c2 & Hc2 & Cn2).
  destruct U1 as (u1 & Hu1 & Un1), U2 as (u2 & Hu2 & Un2).
  destruct B1 as (b1 & Hb1), B2 as (b2 & Hb2).
  destruct E1 as (e1 & He1), E2 as (e2 & He2).
  constructor.
  - exists (l1 ++ l2). split_and!; [by rewrite Hl2 Hl1 app_assoc|by apply Forall_app|].
    by rewrite Hq2 Hq1 emitted_app app_assoc.
  - by eapply futs_le_trans.
  - destruct S1 as (?&?&?&?&?&?&?&?&?&?&?&?), S2 as (?&?&?&?&?&?&?&?&?&?&?&?).
    repeat split; congruence.
  - destruct G1 as [[??]|[??]], G2 as [[??]|[??]]; [left|right|right|right]; split; congruence.
  - exists (e1 ++ e2). by rewrite He2 He1 app_assoc.
  - exists (t1 ++ t2). split; [by rewrite Ht2 Ht1 app_assoc|by apply Forall_app].
  - exists (c1 ++ c2). split; [by rewrite Hc2 Hc1 app_assoc|].
    apply Forall_app; split; [by eapply newf_r|by eapply newf_l].
  - exists (u2 ++ u1). split; [by rewrite Hu2 Hu1 app_assoc|].
    apply Forall_app; split; [by eapply newf_l|by eapply newf_r].
  - exists (b1 ++ b2). by rewrite Hb2 Hb1 app_assoc.
  - lia.
  - intros src ld Hld. destruct (Y2 _ _ Hld) as [H|]; [|by right]. exact (Y1 _ _ H).
  - intros n. specialize (R1 n). specialize (R2 n). lia.
  - destruct I1 as [I1 J1], I2 as [I2 J2]. split; [auto|].
    intros h Hh. destruct (J2 _ Hh) as [H|[H|H]]; [|by auto..].
    destruct (J1 _ H) as [H1|[H1|H1]]; auto.
Qed.
#[global] Instance hframe_preorder : PreOrder hframe.
Proof. split; [exact hframe_refl|exact hframe_trans]. Qed.
Lemma wf_hframe s s' : wf s -> hframe s s' -> wf s'.
Proof.
  intros Hw HF f Hf. destruct (hf_futs _ _ _ HF) as (N & _ & G).
  destruct (futs s' !! f) eqn:E; [|done]. exfalso.
  destruct (decide (futs s !! f = None)) as [Hn|Hn].
  - assert (is_Some (futs s' !! f)) as Hs by (by rewrite E). specialize (G f Hn Hs). lia.
  - apply Hn, Hw. lia.
Qed.
Definition hframe_wf (s s' : st) : Prop := wf s -> hframe s s'.
#[global] Instance hframe_wf_preorder : PreOrder hframe_wf.
Proof.
  split.
  - intros s _. apply hframe_refl.
  - intros a b c H1 H2 Hw. specialize (H1 Hw). specialize (H2 (wf_hframe _ _ Hw H1)). by eapply hframe_trans.
Qed.
Notation H := (pres hframe_wf).
Lemma H_of_P {A} (m : st -> st * res A) : pres (gframe_wf w inner true) m -> H m.
Proof. intros Hm s s' r E Hw. eapply gframe_hframe; [apply inner_quiet|]. by eapply Hm. Qed.
Lemma hframe_cx s c :
  queue c = queue (cx s) -> is_shutdown c = is_shutdown (cx s) ->
  cfuts c = cfuts (cx s) -> loop_set c = loop_set (cx s) -> noninteractive c = noninteractive (cx s) ->
  env_reset c = env_reset (cx s) -> hreg (handlers (cx s)) (handlers c) -> hframe s (s <| cx := c |>).
Proof.
  intros Hq Hi Hc Hls Hn He Hh. constructor; simpl; try done.
  - exists []. rewrite !app_nil_r. split_and!; [done|constructor|done].
  - by apply futs_le_same.
  - by left.
  - exists []. by rewrite app_nil_r.
  - exists []. by rewrite app_nil_r.
  - exists []. by rewrite app_nil_r.
  - by exists [].
  - exists []. by rewrite app_nil_r.
  - by apply srcs_le_same.
  - apply regs_le_hreg; [done|by exists []].
  - apply hsrc_hreg; [done|by exists []].
Qed.
Lemma hframe_obs o s : hquiet o = true -> (forall e, o <> OEmit e) -> noreg o = true -> hframe s (obs1 o s).
Proof.
  intros Hq He Hnr. constructor; simpl; try done.
  - exists [o]. split_and!; [done|by repeat constructor|].
    destruct o; simpl; rewrite ?app_nil_r //. by destruct (He e).
  - by apply futs_le_same.
  - by left.
  - exists []. by rewrite app_nil_r.
  - exists []. by rewrite app_nil_r.
  - exists []. by rewrite app_nil_r.
  - by exists [].
  - exists []. by rewrite app_nil_r.
  - by apply srcs_le_same.
  - apply regs_le_hreg; [constructor|]. exists [o]. by rewrite /= Hnr.
  - apply hsrc_hreg; [constructor|by eexists [_]].
Qed.

(** ** Bodies of handlers *)
Lemma log_lines_frame a fd ls s : gframe w inner true s (log_lines a fd ls s).
Proof.
  rewrite /log_lines. revert s. induction ls as [|l ls IH]; intros s; simpl; [apply vframe_refl|].
  etrans; [|apply IH]. by apply vframe_obs.
Qed.
Lemma on_output_frame a fd t b s b' s' : on_output a fd t b s = (b', s') -> gframe w inner true s s'.
Proof.
  rewrite /on_output. destruct (b_closed b).
  - intros [= _ <-]. by apply vframe_obs.
  - destruct (split_lines _ _). intros [= _ <-]. apply log_lines_frame.
Qed.
Lemma on_output_cached_frame a fd t b s b' s' : on_output_cached a fd t b s = (b', s') -> gframe w inner true s s'.
Proof. rewrite /on_output_cached. destruct (split_lines _ _). intros [= _ <-]. apply log_lines_frame. Qed.
Lemma flush_one_frame a fd b s : gframe w inner true s (flush_one a fd b s).
Proof. rewrite /flush_one. destruct (String.eqb _ _); [apply vframe_refl|by apply vframe_obs]. Qed.
Lemma flush_cached_one_frame a fd b s b' s' : flush_cached_one a fd b s = (b', s') -> gframe w inner true s s'.
Proof. rewrite /flush_cached_one. destruct (split_lines _ _). intros [= _ <-]. apply log_lines_frame. Qed.
Lemma upd_proc_frame a f s : gframe w inner true s (upd_proc a f s).
Proof. vf_fields. Qed.
Lemma P_proc_io a e : pres (gframe_wf w inner true) (proc_io a e).
Proof.
  intros s s' r. rewrite /proc_io. destruct e; try by (intros [= <- _] _; apply vframe_refl).
  destruct (procs s !! a) as [p|]; [|by intros [= <- _] _; apply vframe_refl].
  destruct (_ a fd text _ _) as [b' s1] eqn:E. intros [= <- _] _. etrans; [|apply upd_proc_frame].
  etrans; [apply (vframe_obs (OChunk a fd text)); done|].
  destruct (p_cached _); [by eapply on_output_cached_frame|by eapply on_output_frame].
Qed.
Lemma P_proc_flush a : pres (gframe_wf w inner true) (proc_flush a).
Proof.
  intros s s' r. rewrite /proc_flush. destruct (procs s !! a) as [p|]; [|by intros [= <- _] _; apply vframe_refl].
  destruct (p_cached _).
  - destruct (flush_cached_one a Stdout _ _) as [o s1] eqn:E1. destruct (flush_cached_one a Stderr _ s1) as [e s2] eqn:E2.
    intros [= <- _] _. etrans; [apply (vframe_obs (OFlush a false)); done|].
    etrans; [by eapply flush_cached_one_frame|]. etrans; [by eapply flush_cached_one_frame|apply upd_proc_frame].
  - destruct (b_closed (x_out p)); [by intros [= <- _] _; apply vframe_refl|].
    intros [= <- _] _. set (cl := match x_shutdown p with Some f => _ | None => _ end).
    etrans; [apply (vframe_obs (OFlush a cl)); done|]. etrans; [apply flush_one_frame|]. etrans; [apply flush_one_frame|apply upd_proc_frame].
Qed.
Lemma P_run_body b e : b <> HSvcShutdown -> pres (gframe_wf w inner true) (run_body w b e).
Proof.
  intros Hb. destruct b; simpl; try (apply pres_ret, _); try apply P_call_user; try done.
  - destruct l; [apply pres_raise, _|apply pres_ret, _].
  - destruct e; try (apply pres_ret, _).
    + destruct fd; [destruct fo|destruct fe]; try apply P_call_user; apply pres_ret, _.
    + destruct fi; [apply P_call_user|apply pres_ret, _].
  - apply P_proc_io.
  - intros s s' r. destruct e; try by (intros [= <- _] _; apply vframe_refl). apply P_shutdown_process.
  - apply P_proc_flush.
  - apply P_shutdown_process.
  - intros s s' r. destruct (coros s !! a) as [f|]; [|by intros [= <- _] _; apply vframe_refl].
    intros [= <- _] _. destruct (f_is_done f s); [apply vframe_refl|by apply vframe_obs].
  - apply pres_bind; [apply _| |intros; apply pres_ret, _]. apply pres_mod. intros s _. apply timer_cancel_frame.
Qed.
Lemma H_run_body b e : H (run_body w b e).
Proof.
  assert (b = HSvcShutdown \/ b <> HSvcShutdown) as [->|Hb] by (destruct b; by (left + right)).
  - intros s s' r [= <- _] _. constructor; simpl; try done.
    + exists []. rewrite !app_nil_r. split_and!; [done|constructor|done].
    + by apply futs_le_same.
    + by right.
    + exists []. by rewrite app_nil_r.
    + exists []. by rewrite app_nil_r.
    + exists []. by rewrite app_nil_r.
    + by exists [].
    + exists []. by rewrite app_nil_r.
    + by apply srcs_le_same.
    + apply hsrc_hreg; [constructor|by exists []].
  - by apply H_of_P, P_run_body.
Qed.
Lemma P_base_handle h e : pres (gframe_wf w inner true) (base_handle h e).
Proof.
  rewrite /base_handle. apply pres_bind; [apply _| |].
  - apply pres_mod. intros s _. apply vframe_cx_fun; try done. constructor.
  - intros _. destruct (h_once h); [|apply pres_ret, _]. intros s s' r E _.
    pose proof (unregister_user_frame w (h_id h) s) as HF. by rewrite E in HF.
Qed.

(** ** Handling one event *)
Definition visit_ents (fuel : nat) : list entity -> st -> st * res unit :=
  fix go (l : list entity) :=
  match l with
  | [] => retS tt
  | x :: l' => fs <-- visit_all w fuel x ;; modS (fun s => s <| efuts ::= fun l => l ++ fs |>) ;;; go l'
  end.
Lemma handle_one_eq fuel h e :
  handle_one w fuel h e =
  (modS (obs1 (OHandle (h_id h) e)) ;;; modS (fun s => s <| cx ::= push_locals |>) ;;;
   ents <-- handle w h e ;; visit_ents fuel ents ;;; on_ctx pop_locals).
Proof. done. Qed.
Lemma efuts_frame s l : hframe s (s <| efuts ::= fun x => x ++ l |>).
Proof.
  constructor; simpl; try done.
  - exists []. rewrite !app_nil_r. split_and!; [done|constructor|done].
  - by apply futs_le_same.
  - by left.
  - by exists l.
  - exists []. by rewrite app_nil_r.
  - exists []. by rewrite app_nil_r.
  - by exists [].
  - exists []. by rewrite app_nil_r.
  - by apply srcs_le_same.
  - apply hsrc_hreg; [constructor|by exists []].
Qed.
Lemma H_visit_ents fuel l : H (visit_ents fuel l).
Proof.
  induction l as [|x l IH]; simpl; [apply pres_ret, _|].
  apply pres_bind; [apply _| |].
  - intros s s' r E Hw. eapply gframe_hframe; [|by eapply visit_all_frame]. done.
  - intros fs. apply pres_bind; [apply _| |by intros _]. apply pres_mod. intros s _. apply efuts_frame.
Qed.
Lemma H_pop_locals : H (on_ctx pop_locals).
Proof.
  intros s s' r. rewrite /on_ctx /pop_locals. destruct (locals_stack (cx s)); intros [= <- _] _; apply hframe_cx; try done; constructor.
Qed.
Lemma H_handle_one fuel h e : H (handle_one w fuel h e).
Proof.
  rewrite handle_one_eq. apply pres_bind; [apply _| |intros _].
  { apply pres_mod. intros s _. by apply hframe_obs. }
  apply pres_bind; [apply _| |intros _].
  { apply pres_mod. intros s _. apply hframe_cx; try done. constructor. }
  apply pres_bind; [apply _| |intros ents].
  { rewrite /handle. apply pres_bind; [apply _|apply H_of_P, P_base_handle|intros _].
    apply pres_bind; [apply _| |intros _; apply H_run_body]. apply pres_mod. intros s _. by apply hframe_obs. }
  apply pres_bind; [apply _|apply H_visit_ents|intros _; apply H_pop_locals].
Qed.
Lemma H_handle_list fuel hs e : H (handle_list w fuel hs e).
Proof.
  induction hs as [|h hs IH]; simpl; [apply pres_ret, _|].
  apply pres_bind; [apply _| |by intros _]. destruct (matches w h e); [apply H_handle_one|apply pres_ret, _].
Qed.
Lemma H_process_event fuel e : H (process_event w fuel e).
Proof. intros s. apply H_handle_list. Qed.
End frame.
