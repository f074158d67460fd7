(** Lemmas about signal managers. *)
From Coq Require Import ssreflect.
From Verif Require Import SpecSignals.

Lemma upd_eq f m x : upd f m x m = x.
Proof. unfold upd. by rewrite Nat.eqb_refl. Qed.
Lemma upd_ne f m x k : k <> m -> upd f m x k = f k.
Proof. intros H. unfold upd. by apply Nat.eqb_neq in H as ->. Qed.

(** ** The chain of managers *)
Fixpoint chained (mg : nat -> mgr) (w : fd) (A : list nat) (b : fd) : Prop :=
  match A with
  | [] => w = b
  | m :: A' => exists s, w = SockFd s /\ sg_sock (mg m) = Some s /\ sg_parent (mg m) = head A' /\ chained mg (sg_prev (mg m)) A' b
  end.
Record inv (st : sgst) (A : list nat) (b : fd) : Prop := {
  i_chain : chained (sg_mgrs st) (sg_wakeup st) A b;
  i_cur : sg_current st = head A;
  i_patched : sg_patched st = last A;
  i_nodup : NoDup A;
  i_inj : forall m m' s, sg_sock (sg_mgrs st m) = Some s -> sg_sock (sg_mgrs st m') = Some s -> m = m';
  i_next : forall m s, sg_sock (sg_mgrs st m) = Some s -> s < sg_next st;
  i_out : forall m, m ∉ A -> sg_sock (sg_mgrs st m) = None;
  i_foreign : foreign b }.

Lemma chained_ext mg mg' w A b : (forall m, m ∈ A -> sg_sock (mg' m) = sg_sock (mg m) /\ sg_prev (mg' m) = sg_prev (mg m) /\ sg_parent (mg' m) = sg_parent (mg m)) ->
  chained mg w A b -> chained mg' w A b.
Proof.
  revert w. induction A as [|m A IH]; intros w H; [done|]. simpl.
  destruct (H m (elem_of_list_here _ _)) as (E1 & E2 & E3).
  intros (s & -> & Hs & Hp & Hc). exists s. rewrite E1 E2 E3. split; [done|]. split; [done|]. split; [done|].
  apply IH; [|done]. intros k Hk. apply H. by right.
Qed.
Lemma chained_base mg w A b r x f : NoDup A -> last A = Some r -> chained mg w A b ->
  x = set_prev f (mg r) -> chained (upd mg r x) w A f.
Proof.
  intros Hnd Hl Hc ->. revert w Hnd Hl Hc. induction A as [|m A IH]; intros w Hnd Hl; [done|]. simpl.
  apply NoDup_cons in Hnd as [Hm Hnd].
  intros (s & -> & Hs & Hp & Hc). exists s. split; [done|].
  destruct A as [|m' A].
  - simpl in Hl. injection Hl as ->. rewrite upd_eq. simpl. done.
  - assert (r <> m) as Hne.
    { intros ->. apply Hm. change (last (m :: m' :: A)) with (last (m' :: A)) in Hl. by eapply last_Some_elem_of. }
    rewrite upd_ne; [congruence|]. split; [done|]. split; [done|]. apply IH; [done|done|done].
Qed.

(** ** Steps that keep the chain *)
Definition skel (st st' : sgst) : Prop :=
  sg_wakeup st' = sg_wakeup st /\ sg_current st' = sg_current st /\ sg_patched st' = sg_patched st /\ sg_next st' = sg_next st /\
  forall k, sg_sock (sg_mgrs st' k) = sg_sock (sg_mgrs st k) /\ sg_prev (sg_mgrs st' k) = sg_prev (sg_mgrs st k) /\ sg_parent (sg_mgrs st' k) = sg_parent (sg_mgrs st k).
Lemma skel_refl st : skel st st.
Proof. by repeat split. Qed.
Lemma skel_trans s1 s2 s3 : skel s1 s2 -> skel s2 s3 -> skel s1 s3.
Proof.
  intros (A1 & A2 & A3 & A4 & A5) (B1 & B2 & B3 & B4 & B5). split; [congruence|]. split; [congruence|]. split; [congruence|]. split; [congruence|].
  intros k. destruct (A5 k) as (X1 & X2 & X3), (B5 k) as (Y1 & Y2 & Y3). repeat split; congruence.
Qed.
Lemma skel_inv st st' A b : skel st st' -> inv st A b -> inv st' A b.
Proof.
  intros (A1 & A2 & A3 & A4 & A5) [I1 I2 I3 I4 I5 I6 I7 I8]. constructor.
  - rewrite A1. eapply chained_ext; [|exact I1]. intros m _. apply A5.
  - congruence.
  - congruence.
  - done.
  - intros m m' s. destruct (A5 m) as (-> & _), (A5 m') as (-> & _). apply I5.
  - intros m s. destruct (A5 m) as (-> & _). rewrite A4. apply I6.
  - intros m Hm. destruct (A5 m) as (-> & _). by apply I7.
  - done.
Qed.
Lemma skel_mgr m g st : (forall x, sg_sock (g x) = sg_sock x /\ sg_prev (g x) = sg_prev x /\ sg_parent (g x) = sg_parent x) -> skel st (with_mgr m g st).
Proof.
  intros H. repeat split; simpl; unfold upd; destruct (Nat.eqb k m) eqn:E; try done; apply Nat.eqb_eq in E; subst; apply H.
Qed.
Lemma skel_observe l st : skel st (observe l st).
Proof. by repeat split. Qed.
Lemma skel_write f d st : skel st (write_fd f d st).
Proof. destruct f; [apply skel_refl| |by repeat split]. repeat split; simpl; by case_bool_decide. Qed.
Lemma skel_loop raises cap m fuel : forall st, skel st (s_handle_loop raises cap m fuel st).
Proof.
  induction fuel as [|fuel IH]; intros st; cbn [s_handle_loop]; [apply skel_refl|]; cbv zeta.
  destruct (take cap _) as [|d ds]; [apply skel_refl|].
  destruct (s_call raises m _ (d :: ds)) as [l ok].
  assert (skel st (observe l (with_mgr m (set_data (drop cap (sg_data (sg_mgrs st m)))) st))) as H.
  { eapply skel_trans; [|apply skel_observe]. by apply skel_mgr. }
  destruct ok; [|exact H]. eapply skel_trans; [exact H|]. eapply skel_trans; [apply skel_write|]. apply IH.
Qed.
Lemma skel_read raises cap m st : skel st (s_handle_signal raises cap m st).
Proof. unfold s_handle_signal. destruct (sg_sock _); [apply skel_loop|apply skel_refl]. Qed.

Lemma inv_start f : foreign f -> inv (s_start f) [] f.
Proof. intros H. constructor; simpl; try done. constructor. Qed.
Lemma inv_enter st A b m : inv st A b -> m ∉ A -> inv (s_enter m st) (m :: A) b.
Proof.
  intros [I1 I2 I3 I4 I5 I6 I7 I8] Hm. unfold s_enter. constructor; cbn [sg_wakeup sg_current sg_patched sg_mgrs sg_next].
  - cbn [chained]. exists (sg_next st). rewrite upd_eq. split; [done|]. split; [done|]. split; [done|].
    eapply chained_ext; [|exact I1]. intros k Hk. rewrite upd_ne; [congruence|done].
  - done.
  - rewrite I2 I3. by destruct A.
  - by constructor.
  - intros k k' s. unfold upd. destruct (Nat.eqb k m) eqn:E1, (Nat.eqb k' m) eqn:E2; simpl.
    + apply Nat.eqb_eq in E1, E2. congruence.
    + intros [= <-] H. apply I6 in H. lia.
    + intros H [= <-]. apply I6 in H. lia.
    + apply I5.
  - intros k s. unfold upd. destruct (Nat.eqb k m); simpl; [intros [= <-]; lia|]. intros H. apply I6 in H. lia.
  - intros k Hk. rewrite upd_ne; [set_solver|]. apply I7. set_solver.
  - done.
Qed.
Lemma inv_exit st A b m : inv st (m :: A) b -> inv (s_exit m st) A b /\ sg_obs (s_exit m st) = sg_obs st.
Proof.
  intros [I1 I2 I3 I4 I5 I6 I7 I8]. destruct I1 as (s & Hw & Hs & Hp & Hc). apply NoDup_cons in I4 as [Hm Hnd].
  unfold s_exit. rewrite Hs. split; [|simpl; by rewrite bool_decide_true // app_nil_r]. constructor; cbn [sg_wakeup sg_current sg_patched sg_mgrs sg_next].
  - eapply chained_ext; [|exact Hc]. intros k Hk. rewrite upd_ne; [congruence|done].
  - done.
  - rewrite Hp I3. by destruct A.
  - done.
  - intros k k' s'. unfold upd. destruct (Nat.eqb k m) eqn:E1, (Nat.eqb k' m) eqn:E2; simpl; try done. apply I5.
  - intros k s'. unfold upd. destruct (Nat.eqb k m); simpl; [done|]. apply I6.
  - intros k Hk. unfold upd. destruct (Nat.eqb k m) eqn:E; simpl; [done|]. apply Nat.eqb_neq in E. apply I7. set_solver.
  - done.
Qed.
Lemma inv_base st A b : inv st A b -> A <> [] -> exists r, last A = Some r /\ sg_prev (sg_mgrs st r) = b.
Proof.
  intros [I1 _ _ _ _ _ _ _]. revert I1. generalize (sg_wakeup st). induction A as [|m A IH]; intros w Hc Hne; [done|].
  destruct Hc as (s & -> & Hs & Hp & Hc). destruct A as [|m' A]; [by exists m|].
  destruct (IH _ Hc) as (r & Hr & Hb); [done|]. by exists r.
Qed.
Lemma inv_set st A b f : inv st A b -> foreign f -> inv (s_set_wakeup f st) A f /\ sg_obs (s_set_wakeup f st) = sg_obs st ++ [SReturned b].
Proof.
  intros I Hf. pose proof I as [I1 I2 I3 I4 I5 I6 I7 I8]. unfold s_set_wakeup. rewrite I3. destruct (last A) as [r|] eqn:El.
  - assert (A <> []) as Hne by (by intros ->). destruct (inv_base _ _ _ I Hne) as (r' & Hr & Hb). assert (r' = r) as -> by congruence.
    split; [|simpl; by rewrite Hb].
    constructor; cbn [observe with_mgr sg_wakeup sg_current sg_patched sg_mgrs sg_next]; try done.
    + by eapply chained_base.
    + congruence.
    + intros k k' s'. unfold upd. destruct (Nat.eqb k r) eqn:E1, (Nat.eqb k' r) eqn:E2; simpl;
        repeat match goal with H : Nat.eqb _ _ = true |- _ => apply Nat.eqb_eq in H; subst end; apply I5.
    + intros k s'. unfold upd. destruct (Nat.eqb k r) eqn:E1; simpl; [apply Nat.eqb_eq in E1; subst|]; apply I6.
    + intros k Hk. unfold upd. destruct (Nat.eqb k r) eqn:E1; simpl; [apply Nat.eqb_eq in E1; subst|]; by apply I7.
  - apply last_None in El. subst A. simpl in I1. subst b. split; [|done]. by constructor.
Qed.

(** ** Histories *)
Lemma answers_app a b : answers (a ++ b) = answers a ++ answers b.
Proof. apply omap_app. Qed.
Lemma calls_app m a b : calls m (a ++ b) = calls m a ++ calls m b.
Proof. apply omap_app. Qed.
Lemma written_app e a b : written e (a ++ b) = written e a ++ written e b.
Proof. unfold written. by rewrite omap_app concat_app. Qed.

(** Observations of calls and writes only. *)
Definition quiet (l : list sobs) : Prop := answers l = [] /\ forall m, SAssertion m ∉ l.
Lemma quiet_nil : quiet [].
Proof. split; [done|]. intros m H. by apply elem_of_nil in H. Qed.
Lemma quiet_app a b : quiet a -> quiet b -> quiet (a ++ b).
Proof. intros [A1 A2] [B1 B2]. split; [by rewrite answers_app A1 B1|]. intros m H. apply elem_of_app in H as [H|H]; [by apply (A2 m)|by apply (B2 m)]. Qed.
Lemma quiet_call raises m hs d : quiet (fst (s_call raises m hs d)).
Proof.
  induction d as [|n d IH]; [apply quiet_nil|]. simpl. destruct (hs !! n) as [h|]; [|done].
  destruct (raises h); [split; [done|]; set_solver|].
  destruct (s_call raises m hs d) as [l ok]. simpl in *. destruct IH as [H1 H2]. split; [done|]. intros k Hk. apply elem_of_cons in Hk as [?|Hk]; [done|]. by apply (H2 k).
Qed.
Lemma quiet_write f d st : exists l, sg_obs (write_fd f d st) = sg_obs st ++ l /\ quiet l.
Proof.
  destruct f; simpl; [exists []; rewrite app_nil_r; split; [done|apply quiet_nil]|exists []; rewrite app_nil_r; split; [done|apply quiet_nil]|].
  eexists. split; [done|]. split; [done|set_solver].
Qed.
Lemma quiet_loop raises cap m fuel : forall st, exists l, sg_obs (s_handle_loop raises cap m fuel st) = sg_obs st ++ l /\ quiet l.
Proof.
  induction fuel as [|fuel IH]; intros st; cbn [s_handle_loop]; [exists []; rewrite app_nil_r; split; [done|apply quiet_nil]|]. cbv zeta.
  destruct (take cap _) as [|d ds]; [exists []; rewrite app_nil_r; split; [done|apply quiet_nil]|].
  pose proof (quiet_call raises m (sg_handlers (sg_mgrs st m)) (d :: ds)) as Q.
  destruct (s_call raises m _ (d :: ds)) as [l ok]. simpl in Q.
  destruct ok; [|by exists l].
  match goal with |- context [write_fd ?f ?x ?s] => destruct (quiet_write f x s) as (l1 & E1 & Q1); set (st1 := write_fd f x s) in * end.
  destruct (IH st1) as (l2 & E2 & Q2). exists (l ++ l1 ++ l2). split; [by rewrite E2 E1 /= -!app_assoc|]. apply quiet_app; [done|by apply quiet_app].
Qed.
Lemma quiet_read raises cap m st : exists l, sg_obs (s_handle_signal raises cap m st) = sg_obs st ++ l /\ quiet l.
Proof. unfold s_handle_signal. destruct (sg_sock _); [apply quiet_loop|]. exists []. rewrite app_nil_r. split; [done|apply quiet_nil]. Qed.

Lemma lifo_app A l1 l2 : lifo A (l1 ++ l2) = match lifo A l1 with Some B => lifo B l2 | None => None end.
Proof.
  revert A. induction l1 as [|o l1 IH]; intros A; [done|]. destruct o; simpl; try apply IH.
  - case_bool_decide; [done|apply IH].
  - destruct A as [|a A]; [done|]. destruct (Nat.eqb a m); [apply IH|done].
Qed.

(** One step of a well-nested history. *)
Lemma step_inv raises cap st A b o A' : inv st A b -> foreign_op o -> lifo A [o] = Some A' ->
  inv (sstep raises cap st o) A' (last_set b [o]) /\
  exists l, sg_obs (sstep raises cap st o) = sg_obs st ++ l /\ answers l = previous b [o] /\ forall m, SAssertion m ∉ l.
Proof.
  intros I Hf Hl. destruct o as [m|m|f|n|m|m n h]; simpl in Hl |- *.
  - case_bool_decide; [done|]. injection Hl as <-. split; [by apply inv_enter|]. exists []. rewrite app_nil_r. split; [done|]. split; [done|set_solver].
  - destruct A as [|a A]; [done|]. destruct (Nat.eqb a m) eqn:E; [|done]. apply Nat.eqb_eq in E. subst a. injection Hl as <-.
    destruct (inv_exit _ _ _ _ I) as [I' E]. split; [done|]. exists []. rewrite app_nil_r. split; [done|]. split; [done|set_solver].
  - injection Hl as <-. destruct (inv_set _ _ _ f I Hf) as [I' E]. split; [done|]. eexists. split; [exact E|]. split; [done|set_solver].
  - injection Hl as <-. split; [eapply skel_inv; [apply skel_write|done]|]. destruct (quiet_write (sg_wakeup st) [n] st) as (l & E & Q). exists l. by destruct Q.
  - injection Hl as <-. split; [eapply skel_inv; [apply skel_read|done]|]. destruct (quiet_read raises cap m st) as (l & E & Q). exists l. by destruct Q.
  - injection Hl as <-. split; [eapply skel_inv; [by apply skel_mgr|done]|]. exists []. rewrite app_nil_r. split; [done|]. split; [done|set_solver].
Qed.
Lemma previous_cons b o l : previous b (o :: l) = previous b [o] ++ previous (last_set b [o]) l.
Proof. by destruct o. Qed.
Lemma last_set_cons b o l : last_set b (o :: l) = last_set (last_set b [o]) l.
Proof. by destruct o. Qed.
Lemma lifo_cons A o l A' : lifo A (o :: l) = Some A' -> exists B, lifo A [o] = Some B /\ lifo B l = Some A'.
Proof. intros H. change (o :: l) with ([o] ++ l) in H. rewrite lifo_app in H. destruct (lifo A [o]) eqn:E; [eauto|done]. Qed.
Lemma run_inv raises cap l : forall st A b A', inv st A b -> Forall foreign_op l -> lifo A l = Some A' ->
  inv (srun raises cap st l) A' (last_set b l) /\
  exists k, sg_obs (srun raises cap st l) = sg_obs st ++ k /\ answers k = previous b l /\ forall m, SAssertion m ∉ k.
Proof.
  induction l as [|o l IH]; intros st A b A' I Hf Hl.
  { simpl in Hl. injection Hl as <-. split; [done|]. exists []. rewrite app_nil_r. split; [done|]. split; [done|set_solver]. }
  apply Forall_cons in Hf as [Hf1 Hf2]. apply lifo_cons in Hl as (B & Hl1 & Hl2).
  destruct (step_inv raises cap st A b o B I Hf1 Hl1) as (I1 & k1 & E1 & P1 & N1).
  destruct (IH _ _ _ _ I1 Hf2 Hl2) as (I2 & k2 & E2 & P2 & N2).
  rewrite last_set_cons previous_cons. split; [exact I2|]. exists (k1 ++ k2).
  split; [by rewrite [sg_obs _]E2 E1 app_assoc|]. split; [by rewrite answers_app P1 P2|].
  intros m Hm. apply elem_of_app in Hm as [Hm|Hm]; [by apply (N1 m)|by apply (N2 m)].
Qed.

Lemma restores_law raises cap f l A : foreign f -> Forall foreign_op l -> lifo [] l = Some A ->
  let st := srun raises cap (s_start f) l in
  (A = [] -> sg_wakeup st = last_set f l /\ sg_patched st = None /\ sg_current st = None) /\
  (forall m, m ∉ A -> sg_sock (sg_mgrs st m) = None) /\
  answers (sg_obs st) = previous f l /\ (forall m, SAssertion m ∉ sg_obs st).
Proof.
  intros Hf Hl Hn st. destruct (run_inv raises cap l (s_start f) [] f A (inv_start f Hf) Hl Hn) as (I & k & E & P & N).
  fold st in I, E. simpl in E. rewrite E. split; [|split; [apply I|done]].
  intros ->. destruct I as [I1 I2 I3 _ _ _ _ _]. done.
Qed.

(** ** Reading *)
Lemma due_app hs a b : due hs (a ++ b) = due hs a ++ due hs b.
Proof. apply omap_app. Qed.
Lemma call_quiet raises m hs d l : (forall h, raises h = false) -> s_call raises m hs d = (l, true) \/ fst (s_call raises m hs d) = l ->
  snd (s_call raises m hs d) = true /\ (forall k, calls k (fst (s_call raises m hs d)) = if Nat.eqb k m then due hs d else []) /\ (forall e, written e (fst (s_call raises m hs d)) = []).
Proof.
  intros Hr _. induction d as [|n d IH]; simpl.
  { split; [done|]. split; [|done]. intros k. by destruct (Nat.eqb k m). }
  destruct (hs !! n) as [h|] eqn:E; [|done]. 
  rewrite Hr. destruct (s_call raises m hs d) as [l' ok]. simpl in *. destruct IH as (H1 & H2 & H3). split; [done|]. split.
  - intros k. specialize (H2 k). rewrite Nat.eqb_sym. destruct (Nat.eqb k m) eqn:Ek; simpl; [f_equal|]; exact H2.
  - intros e. exact (H3 e).
Qed.

Record moved (j : nat) (d : list nat) (st st' : sgst) : Prop := {
  mv_skel : skel st st';
  mv_hs : forall k, sg_handlers (sg_mgrs st' k) = sg_handlers (sg_mgrs st k);
  mv_calls : forall k, calls k (sg_obs st') = calls k (sg_obs st) ++ (if Nat.eqb k j then due (sg_handlers (sg_mgrs st j)) d else []);
  mv_written : forall e, written e (sg_obs st') = written e (sg_obs st) ++ (if bool_decide (sg_prev (sg_mgrs st j) = ExtFd e) then d else []);
  mv_own : sg_data (sg_mgrs st j) = d ++ sg_data (sg_mgrs st' j);
  mv_next : forall k s, k <> j -> sg_prev (sg_mgrs st j) = SockFd s -> sg_sock (sg_mgrs st k) = Some s -> sg_data (sg_mgrs st' k) = sg_data (sg_mgrs st k) ++ d;
  mv_other : forall k, k <> j -> (forall s, sg_prev (sg_mgrs st j) = SockFd s -> sg_sock (sg_mgrs st k) <> Some s) -> sg_data (sg_mgrs st' k) = sg_data (sg_mgrs st k) }.

Lemma moved_nil j st : moved j [] st st.
Proof.
  constructor; try done.
  - intros k. destruct (Nat.eqb k j); simpl; by rewrite app_nil_r.
  - intros e. case_bool_decide; by rewrite app_nil_r.
  - intros. by rewrite app_nil_r.
Qed.
Lemma moved_trans j d1 d2 s1 s2 s3 : moved j d1 s1 s2 -> moved j d2 s2 s3 -> moved j (d1 ++ d2) s1 s3.
Proof.
  intros [A1 A2 A3 A4 A5 A6 A7] [B1 B2 B3 B4 B5 B6 B7].
  pose proof A1 as (_ & _ & _ & _ & K). destruct (K j) as (Kj1 & Kj2 & Kj3).
  constructor.
  - by eapply skel_trans.
  - intros k. by rewrite B2 A2.
  - intros k. rewrite B3 A3 A2 -app_assoc. f_equal. destruct (Nat.eqb k j); [by rewrite due_app|done].
  - intros e. rewrite B4 A4 Kj2 -app_assoc. f_equal. by case_bool_decide.
  - by rewrite A5 B5 app_assoc.
  - intros k s Hk Hp Hs. destruct (K k) as (Kk & _). rewrite (B6 k s) //; [congruence|congruence|]. rewrite (A6 k s) //. by rewrite app_assoc.
  - intros k Hk H. destruct (K k) as (Kk & _). rewrite B7 //; [|by apply A7]. intros s. rewrite Kj2 Kk. apply H.
Qed.

(** One piece: read by [j], handled, and forwarded. *)
Lemma moved_piece j d rest l st : sg_data (sg_mgrs st j) = d ++ rest -> (forall s, sg_prev (sg_mgrs st j) = SockFd s -> sg_sock (sg_mgrs st j) <> Some s) ->
  (forall k, calls k l = if Nat.eqb k j then due (sg_handlers (sg_mgrs st j)) d else []) -> (forall e, written e l = []) ->
  moved j d st (write_fd (sg_prev (sg_mgrs st j)) d (observe l (with_mgr j (set_data rest) st))).
Proof.
  intros Hd Hj Hc Hw. set (st1 := observe l (with_mgr j (set_data rest) st)).
  assert (skel st st1) as S1 by (eapply skel_trans; [by apply (skel_mgr j (set_data rest))|apply skel_observe]).
  assert (forall k, k <> j -> sg_mgrs st1 k = sg_mgrs st k) as M1 by (intros k Hk; simpl; by rewrite upd_ne).
  assert (sg_mgrs st1 j = set_data rest (sg_mgrs st j)) as M2 by (simpl; by rewrite upd_eq).
  assert (sg_obs st1 = sg_obs st ++ l) as O1 by done.
  clearbody st1.
  destruct (sg_prev (sg_mgrs st j)) as [|s|e] eqn:Ep; simpl.
  - constructor; try done.
    + intros k. destruct (decide (k = j)) as [->|Hk]; [by rewrite M2|by rewrite M1].
    + intros k. by rewrite O1 calls_app Hc.
    + intros e. rewrite O1 written_app Hw bool_decide_false //. congruence.
    + by rewrite M2.
    + intros k s Hk. by rewrite Ep.
    + intros k Hk _. by rewrite M1.
  - constructor; cbn [sg_mgrs sg_obs].
    + eapply skel_trans; [exact S1|]. apply (skel_write (SockFd s) d).
    + intros k. destruct (decide (k = j)) as [->|Hk]; [rewrite M2|rewrite M1 //]; by case_bool_decide.
    + intros k. by rewrite O1 calls_app Hc.
    + intros e. rewrite O1 written_app Hw bool_decide_false //. congruence.
    + rewrite M2. simpl. rewrite bool_decide_false; [by apply Hj|]. done.
    + intros k s' Hk Hp Hs. rewrite M1 //. rewrite Ep in Hp. injection Hp as <-. by rewrite bool_decide_true.
    + intros k Hk H. rewrite M1 //. rewrite bool_decide_false //. by apply H.
  - constructor; cbn [observe sg_mgrs sg_obs].
    + eapply skel_trans; [exact S1|]. apply skel_observe.
    + intros k. destruct (decide (k = j)) as [->|Hk]; [by rewrite M2|by rewrite M1].
    + intros k. rewrite !calls_app O1 calls_app Hc -app_assoc. f_equal. by rewrite app_nil_r.
    + intros e'. rewrite written_app O1 written_app Hw app_nil_r. f_equal. unfold written. simpl. rewrite Ep.
      destruct (Nat.eqb e e') eqn:E; simpl.
      * apply Nat.eqb_eq in E. subst. by rewrite bool_decide_true // app_nil_r.
      * apply Nat.eqb_neq in E. by rewrite bool_decide_false //; [congruence].
    + by rewrite M2.
    + intros k s Hk. by rewrite Ep.
    + intros k Hk _. by rewrite M1.
Qed.

Lemma moved_loop raises cap j fuel : forall st, (forall h, raises h = false) -> 0 < cap -> length (sg_data (sg_mgrs st j)) < fuel ->
  (forall s, sg_prev (sg_mgrs st j) = SockFd s -> sg_sock (sg_mgrs st j) <> Some s) ->
  moved j (sg_data (sg_mgrs st j)) st (s_handle_loop raises cap j fuel st).
Proof.
  induction fuel as [|fuel IH]; intros st Hr Hcap Hlen Hj; [lia|]. cbn [s_handle_loop]. cbv zeta.
  pose proof (take_drop cap (sg_data (sg_mgrs st j))) as Htd.
  destruct (take cap (sg_data (sg_mgrs st j))) as [|x d] eqn:Et.
  { destruct (sg_data (sg_mgrs st j)) as [|y l] eqn:Ed; [apply moved_nil|]. destruct cap; [lia|done]. }
  destruct (call_quiet raises j (sg_handlers (sg_mgrs st j)) (x :: d) _ Hr (or_intror eq_refl)) as (C1 & C2 & C3).
  destruct (s_call raises j _ (x :: d)) as [l ok]. simpl in C1, C2, C3. subst ok.
  pose proof (moved_piece j (x :: d) (drop cap (sg_data (sg_mgrs st j))) l st (eq_sym Htd) Hj C2 C3) as M.
  match goal with |- moved _ _ _ (s_handle_loop _ _ _ _ ?s) => set (st1 := s) in * end.
  pose proof (mv_own _ _ _ _ M) as Hown.
  assert (sg_data (sg_mgrs st1 j) = drop cap (sg_data (sg_mgrs st j))) as E1.
  { apply (app_inv_head (x :: d)). by rewrite -Hown Htd. }
  rewrite Hown. eapply moved_trans; [exact M|]. apply IH; [done|done| |].
  - rewrite E1. apply (f_equal length) in Htd. rewrite app_length in Htd. simpl in Htd. lia.
  - destruct (mv_skel _ _ _ _ M) as (_ & _ & _ & _ & K). destruct (K j) as (K1 & K2 & _). rewrite K1 K2. exact Hj.
Qed.

(** ** Data on its way *)
(** What has arrived but not yet been read by [m]: its own data and that of the managers
    entered after it, in the order of arrival. *)
Fixpoint pend (mg : nat -> mgr) (A : list nat) (m : nat) : list nat :=
  match A with
  | [] => []
  | a :: A' => if Nat.eqb a m then sg_data (mg a) else pend mg A' m ++ sg_data (mg a)
  end.
Fixpoint tot (mg : nat -> mgr) (A : list nat) : list nat :=
  match A with [] => [] | a :: A' => tot mg A' ++ sg_data (mg a) end.
Lemma pend_ext mg mg' A m : (forall a, a ∈ A -> sg_data (mg' a) = sg_data (mg a)) -> pend mg' A m = pend mg A m.
Proof.
  induction A as [|a A IH]; intros H; [done|]. simpl. rewrite (H a (elem_of_list_here _ _)).
  rewrite IH; [|done]. intros k Hk. apply H. by right.
Qed.
Lemma tot_ext mg mg' A : (forall a, a ∈ A -> sg_data (mg' a) = sg_data (mg a)) -> tot mg' A = tot mg A.
Proof.
  induction A as [|a A IH]; intros H; [done|]. simpl. rewrite (H a (elem_of_list_here _ _)).
  rewrite IH; [|done]. intros k Hk. apply H. by right.
Qed.
Lemma pend_drained mg A m : (forall a, a ∈ A -> sg_data (mg a) = []) -> pend mg A m = [].
Proof.
  induction A as [|a A IH]; intros H; [done|]. simpl. rewrite (H a (elem_of_list_here _ _)).
  destruct (Nat.eqb a m); [done|]. rewrite app_nil_r. apply IH. intros k Hk. apply H. by right.
Qed.
Lemma tot_drained mg A : (forall a, a ∈ A -> sg_data (mg a) = []) -> tot mg A = [].
Proof.
  induction A as [|a A IH]; intros H; [done|]. simpl. rewrite (H a (elem_of_list_here _ _)).
  rewrite app_nil_r. apply IH. intros k Hk. apply H. by right.
Qed.
(** Data added to the innermost manager. *)
Lemma pend_head mg mg' h A m d : NoDup (h :: A) -> m ∈ h :: A -> sg_data (mg' h) = sg_data (mg h) ++ d ->
  (forall a, a ∈ A -> sg_data (mg' a) = sg_data (mg a)) -> pend mg' (h :: A) m = pend mg (h :: A) m ++ d.
Proof.
  intros Hnd Hm Hh H. simpl. rewrite Hh. destruct (Nat.eqb h m); [done|]. by rewrite (pend_ext mg mg' A) // app_assoc.
Qed.
Lemma tot_head mg mg' h A d : sg_data (mg' h) = sg_data (mg h) ++ d ->
  (forall a, a ∈ A -> sg_data (mg' a) = sg_data (mg a)) -> tot mg' (h :: A) = tot mg (h :: A) ++ d.
Proof. intros Hh H. simpl. by rewrite Hh (tot_ext mg mg' A) // app_assoc. Qed.

(** Descriptors of managers in a chain lead to managers in it. *)
Lemma chained_prev mg w A b j s : foreign b -> chained mg w A b -> j ∈ A -> sg_prev (mg j) = SockFd s ->
  exists k, k ∈ A /\ sg_sock (mg k) = Some s.
Proof.
  intros Hb. revert w. induction A as [|a A IH]; intros w Hc Hj Hp; [by apply elem_of_nil in Hj|].
  destruct Hc as (s0 & -> & Hs & Hpar & Hc). apply elem_of_cons in Hj as [->|Hj].
  - destruct A as [|a' A]; simpl in Hc.
    + rewrite Hp in Hc. by subst b.
    + destruct Hc as (s1 & E & Hs1 & _ & _). assert (s1 = s) as -> by congruence. exists a'. split; [by right; left|]. done.
  - destruct (IH _ Hc Hj Hp) as (k & Hk & Hs'). exists k. split; [by right|done].
Qed.

Section moving.
Context (st st' : sgst) (j : nat) (b : fd).
Context (Hb : foreign b) (Hinj : forall m m' s, sg_sock (sg_mgrs st m) = Some s -> sg_sock (sg_mgrs st m') = Some s -> m = m').
Context (M : moved j (sg_data (sg_mgrs st j)) st st').
Lemma moved_empty : sg_data (sg_mgrs st' j) = [].
Proof.
  pose proof (mv_own _ _ _ _ M) as E. apply (f_equal length) in E. rewrite app_length in E. apply nil_length_inv. lia.
Qed.
(** A manager inside [j] keeps its data. *)
Lemma moved_inside w a A : NoDup (a :: A) -> chained (sg_mgrs st) w A b -> j ∈ A -> sg_data (sg_mgrs st' a) = sg_data (sg_mgrs st a).
Proof.
  intros Hnd Hc Hj. apply NoDup_cons in Hnd as [Ha Hnd]. apply (mv_other _ _ _ _ M); [set_solver|].
  intros s Hp Hs. destruct (chained_prev _ _ _ _ _ _ Hb Hc Hj Hp) as (k & Hk & Hk'). apply Ha. by rewrite (Hinj a k s).
Qed.
(** When [j] is the innermost, the next one gets its data. *)
Lemma moved_front w h A : NoDup (j :: h :: A) -> chained (sg_mgrs st) w (j :: h :: A) b ->
  sg_data (sg_mgrs st' h) = sg_data (sg_mgrs st h) ++ sg_data (sg_mgrs st j) /\ forall k, k ∈ A -> sg_data (sg_mgrs st' k) = sg_data (sg_mgrs st k).
Proof.
  intros Hnd (s & -> & Hs & Hpar & (s1 & Hp & Hs1 & Hpar1 & Hc)). apply NoDup_cons in Hnd as [Hj Hnd]. apply NoDup_cons in Hnd as [Hh Hnd]. split.
  - eapply (mv_next _ _ _ _ M); [set_solver|exact Hp|done].
  - intros k Hk. apply (mv_other _ _ _ _ M); [set_solver|]. intros s' Hp' Hs'. assert (s' = s1) as -> by congruence.
    apply Hh. by rewrite (Hinj h k s1).
Qed.
Lemma pend_moved A w m : NoDup A -> chained (sg_mgrs st) w A b -> j ∈ A -> m ∈ A ->
  pend (sg_mgrs st) A m = (if Nat.eqb j m then sg_data (sg_mgrs st j) else []) ++ pend (sg_mgrs st') A m.
Proof.
  revert w. induction A as [|a A IH]; intros w Hnd Hc Hj Hm; [by apply elem_of_nil in Hj|].
  pose proof Hnd as Hnd0. apply NoDup_cons in Hnd as [Ha Hnd]. simpl.
  destruct (decide (j = a)) as [<-|Hja].
  - destruct (Nat.eqb j m) eqn:E; [by rewrite moved_empty app_nil_r|]. apply Nat.eqb_neq in E.
    assert (m ∈ A) as Hm' by set_solver. destruct A as [|h A]; [by apply elem_of_nil in Hm'|].
    destruct (moved_front w h A Hnd0 Hc) as [H1 H2].
    rewrite (pend_head (sg_mgrs st) (sg_mgrs st') h A m _ Hnd Hm' H1 H2) moved_empty app_nil_r. done.
  - assert (j ∈ A) as Hj' by set_solver. destruct Hc as (s & -> & Hs & Hpar & Hc).
    rewrite (moved_inside _ a A Hnd0 Hc Hj').
    destruct (Nat.eqb a m) eqn:E.
    + apply Nat.eqb_eq in E. subst m. apply Nat.eqb_neq in Hja as ->. done.
    + apply Nat.eqb_neq in E. assert (m ∈ A) as Hm' by set_solver. rewrite (IH _ Hnd Hc Hj' Hm'). by rewrite app_assoc.
Qed.
Lemma tot_moved A w : NoDup A -> chained (sg_mgrs st) w A b -> j ∈ A ->
  (sg_prev (sg_mgrs st j) = b /\ tot (sg_mgrs st) A = sg_data (sg_mgrs st j) ++ tot (sg_mgrs st') A) \/
  ((exists s, sg_prev (sg_mgrs st j) = SockFd s) /\ tot (sg_mgrs st) A = tot (sg_mgrs st') A).
Proof.
  revert w. induction A as [|a A IH]; intros w Hnd Hc Hj; [by apply elem_of_nil in Hj|].
  pose proof Hnd as Hnd0. apply NoDup_cons in Hnd as [Ha Hnd]. simpl.
  destruct (decide (j = a)) as [<-|Hja].
  - rewrite moved_empty app_nil_r. destruct A as [|h A].
    + left. destruct Hc as (s & -> & Hs & Hpar & Hc). simpl in *. by rewrite app_nil_r.
    + right. destruct (moved_front w h A Hnd0 Hc) as [H1 H2]. destruct Hc as (s & -> & Hs & Hpar & (s1 & Hp & _)). split; [eauto|].
      rewrite (tot_head (sg_mgrs st) (sg_mgrs st') h A _ H1 H2). done.
  - assert (j ∈ A) as Hj' by set_solver. destruct Hc as (s & -> & Hs & Hpar & Hc).
    rewrite (moved_inside _ a A Hnd0 Hc Hj').
    destruct (IH _ Hnd Hc Hj') as [[H1 H2]|[H1 H2]]; [left|right]; (split; [done|]); rewrite H2; by rewrite ?app_assoc.
Qed.
End moving.

Lemma read_moved raises cap st A b j : (forall h, raises h = false) -> 0 < cap -> inv st A b -> 
  (j ∈ A /\ moved j (sg_data (sg_mgrs st j)) st (s_handle_signal raises cap j st)) \/ s_handle_signal raises cap j st = st.
Proof.
  intros Hr Hcap I. unfold s_handle_signal. destruct (sg_sock (sg_mgrs st j)) as [s|] eqn:Es; [|by right]. left.
  assert (j ∈ A) as Hj.
  { destruct (decide (j ∈ A)); [done|]. rewrite (i_out _ _ _ I) in Es; done. }
  split; [done|]. apply moved_loop; [done|done|lia|].
  intros s' Hp Hs'. destruct I as [I1 _ _ I4 I5 _ _ I8].
  revert I1 I4 Hj. generalize (sg_wakeup st). induction A as [|a A IH]; intros w Hc Hnd Hj; [by apply elem_of_nil in Hj|].
  destruct Hc as (s0 & -> & Hs & Hpar & Hc). apply NoDup_cons in Hnd as [Ha Hnd]. apply elem_of_cons in Hj as [->|Hj]; [|by eapply IH].
  destruct A as [|a' A]; simpl in Hc; [rewrite Hp in Hc; by subst b|].
  destruct Hc as (s1 & E & Hs1 & _). assert (s1 = s') as -> by congruence. apply Ha. rewrite (I5 _ _ _ Hs' Hs1). by left.
Qed.

(** The signal itself reaches the innermost manager. *)
Lemma signal_data st A b n : inv st A b ->
  (A = [] /\ write_fd (sg_wakeup st) [n] st = write_fd b [n] st) \/
  exists h A', A = h :: A' /\ sg_data (sg_mgrs (write_fd (sg_wakeup st) [n] st) h) = sg_data (sg_mgrs st h) ++ [n] /\
    (forall k, k <> h -> sg_mgrs (write_fd (sg_wakeup st) [n] st) k = sg_mgrs st k) /\ sg_obs (write_fd (sg_wakeup st) [n] st) = sg_obs st /\
    forall k, sg_handlers (sg_mgrs (write_fd (sg_wakeup st) [n] st) k) = sg_handlers (sg_mgrs st k).
Proof.
  intros [I1 _ _ I4 I5 _ _ _]. destruct A as [|h A]; [left; simpl in I1; by rewrite I1|]. right. exists h, A. split; [done|].
  destruct I1 as (s & -> & Hs & _). simpl. rewrite bool_decide_true //. split; [done|]. split; [|split; [done|]].
  - intros k Hk. rewrite bool_decide_false //. intros Hs'. apply Hk. by eapply I5.
  - intros k. by case_bool_decide.
Qed.

(** ** Delivery *)
Definition ok_op (st : sgst) (o : sop) : Prop := match o with SExit k => sg_data (sg_mgrs st k) = [] | _ => True end.
Lemma set_data_same f st k : sg_data (sg_mgrs (s_set_wakeup f st) k) = sg_data (sg_mgrs st k) /\ sg_handlers (sg_mgrs (s_set_wakeup f st) k) = sg_handlers (sg_mgrs st k).
Proof.
  unfold s_set_wakeup. destruct (sg_patched st) as [r|]; [|done]. simpl. unfold upd. destruct (Nat.eqb k r) eqn:E; [|done].
  apply Nat.eqb_eq in E. by subst.
Qed.
Lemma set_quiet f st : (forall k, calls k (sg_obs (s_set_wakeup f st)) = calls k (sg_obs st)) /\ forall e, written e (sg_obs (s_set_wakeup f st)) = written e (sg_obs st).
Proof.
  unfold s_set_wakeup. destruct (sg_patched st) as [r|]; simpl; (split; [intros k; by rewrite calls_app app_nil_r|intros e; by rewrite written_app app_nil_r]).
Qed.
Lemma write_calls f d st k : calls k (sg_obs (write_fd f d st)) = calls k (sg_obs st).
Proof. destruct f; simpl; [done|done|]. by rewrite calls_app app_nil_r. Qed.

(** What a manager that stays entered has got and will get. *)
Lemma step_delivery raises cap st A b o A' m : (forall h, raises h = false) -> 0 < cap ->
  inv st A b -> foreign_op o -> lifo A [o] = Some A' -> ok_op st o -> not_exit m o -> same_handlers m o -> m ∈ A ->
  m ∈ A' /\ sg_handlers (sg_mgrs (sstep raises cap st o) m) = sg_handlers (sg_mgrs st m) /\
  forall hs, sg_handlers (sg_mgrs st m) = hs ->
  calls m (sg_obs (sstep raises cap st o)) ++ due hs (pend (sg_mgrs (sstep raises cap st o)) A' m)
    = calls m (sg_obs st) ++ due hs (pend (sg_mgrs st) A m) ++ due hs (signals [o]).
Proof.
  intros Hr Hcap I Hf Hl Hok Hne Hsh Hm. destruct o as [k|k|f|n|k|k n h]; simpl in Hl, Hok, Hne, Hsh |- *.
  - case_bool_decide as Hk; [done|]. injection Hl as <-. split; [by right|].
    assert (k <> m) as Hkm by (by intros ->). split; [by rewrite upd_ne|]. intros hs _.
    simpl. apply Nat.eqb_neq in Hkm as ->. rewrite upd_eq /= !app_nil_r.
    rewrite (pend_ext (sg_mgrs st)) //. intros a Ha. rewrite upd_ne //. by intros ->.
  - destruct A as [|a A]; [done|]. destruct (Nat.eqb a k) eqn:E; [|done]. apply Nat.eqb_eq in E. subst a. injection Hl as <-.
    assert (m ∈ A) as Hm' by set_solver. split; [done|].
    destruct (inv_exit _ _ _ _ I) as [_ E]. rewrite E.
    destruct (i_chain _ _ _ I) as (s & Hw & Hs & _). unfold s_exit. rewrite Hs. simpl.
    split; [by rewrite upd_ne|]. intros hs _. apply Nat.eqb_neq in Hne as ->. rewrite Hok app_nil_r app_nil_r.
    rewrite (pend_ext (sg_mgrs st)) //. intros a Ha. rewrite upd_ne //. intros ->. apply (i_nodup _ _ _) in I. apply NoDup_cons in I as [? _]. done.
  - injection Hl as <-. split; [done|]. split; [by apply set_data_same|]. intros hs _.
    rewrite (proj1 (set_quiet f st)) app_nil_r. rewrite (pend_ext (sg_mgrs st)) //. intros a Ha. apply set_data_same.
  - injection Hl as <-. split; [done|].
    destruct (signal_data st A b n I) as [[-> _]|(h & A' & -> & H1 & H2 & H3 & H4)]; [by apply elem_of_nil in Hm|].
    split; [by apply H4|]. intros hs _. rewrite H3.
    rewrite (pend_head (sg_mgrs st) _ h A' m [n] (i_nodup _ _ _ I) Hm H1).
    + intros a Ha. rewrite H2 //. intros ->. apply (i_nodup _ _ _) in I. apply NoDup_cons in I as [? _]. done.
    + by rewrite due_app.
  - injection Hl as <-. split; [done|].
    destruct (read_moved raises cap st A b k Hr Hcap I) as [[Hk M]| ->].
    + split; [apply (mv_hs _ _ _ _ M)|]. intros hs Hhs. rewrite (mv_calls _ _ _ _ M) app_nil_r -app_assoc.
      rewrite (pend_moved _ _ k b (i_foreign _ _ _ I) (i_inj _ _ _ I) M A _ m (i_nodup _ _ _ I) (i_chain _ _ _ I) Hk Hm) due_app.
      rewrite Nat.eqb_sym. destruct (Nat.eqb k m) eqn:E; [|done]. apply Nat.eqb_eq in E. subst k. by rewrite Hhs.
    + split; [done|]. intros hs _. by rewrite app_nil_r.
  - injection Hl as <-. split; [done|]. split; [by rewrite upd_ne|]. intros hs _. rewrite app_nil_r.
    rewrite (pend_ext (sg_mgrs st)) //. intros a Ha. unfold upd. destruct (Nat.eqb a k) eqn:E; [|done]. apply Nat.eqb_eq in E. by subst.
Qed.
Lemma signals_cons o l : signals (o :: l) = signals [o] ++ signals l.
Proof. by destruct o. Qed.
Lemma run_delivery raises cap l : forall st A b A' m hs, (forall h, raises h = false) -> 0 < cap ->
  inv st A b -> Forall foreign_op l -> lifo A l = Some A' -> exits_drained raises cap st l -> Forall (not_exit m) l -> Forall (same_handlers m) l ->
  m ∈ A -> sg_handlers (sg_mgrs st m) = hs ->
  m ∈ A' /\
  calls m (sg_obs (srun raises cap st l)) ++ due hs (pend (sg_mgrs (srun raises cap st l)) A' m)
    = calls m (sg_obs st) ++ due hs (pend (sg_mgrs st) A m) ++ due hs (signals l).
Proof.
  induction l as [|o l IH]; intros st A b A' m hs Hr Hcap I Hf Hl He Hne Hsh Hm Hhs.
  { simpl in Hl. injection Hl as <-. split; [done|]. simpl. by rewrite app_nil_r. }
  apply Forall_cons in Hf as [Hf1 Hf2], Hne as [Hne1 Hne2], Hsh as [Hsh1 Hsh2]. destruct He as [He1 He2].
  apply lifo_cons in Hl as (B & Hl1 & Hl2).
  destruct (step_inv raises cap st A b o B I Hf1 Hl1) as (I1 & _).
  destruct (step_delivery raises cap st A b o B m Hr Hcap I Hf1 Hl1 He1 Hne1 Hsh1 Hm) as (Hm1 & Hh1 & H1).
  destruct (IH _ _ _ _ m hs Hr Hcap I1 Hf2 Hl2 He2 Hne2 Hsh2 Hm1) as (Hm2 & H2); [congruence|].
  split; [done|]. change (srun raises cap st (o :: l)) with (srun raises cap (sstep raises cap st o) l).
  rewrite H2 app_assoc (H1 hs Hhs) -!app_assoc (signals_cons o l) due_app. done.
Qed.

Lemma delivery_law raises cap f l1 m l2 A : (forall h, raises h = false) -> 0 < cap ->
  foreign f -> Forall foreign_op (l1 ++ SEnter m :: l2) -> lifo [] (l1 ++ SEnter m :: l2) = Some A ->
  exits_drained raises cap (srun raises cap (s_start f) (l1 ++ [SEnter m])) l2 ->
  Forall (not_exit m) l2 -> Forall (same_handlers m) l2 ->
  let st1 := srun raises cap (s_start f) l1 in let st := srun raises cap (s_start f) (l1 ++ SEnter m :: l2) in
  let hs := sg_handlers (sg_mgrs st1 m) in
  exists rest, calls m (sg_obs st) ++ due hs rest = calls m (sg_obs st1) ++ due hs (signals l2) /\ (drained A st -> rest = []).
Proof.
  intros Hr Hcap Hf Hfo Hl He Hne Hsh st1 st hs. rewrite lifo_app in Hl. destruct (lifo [] l1) as [B|] eqn:El; [|done].
  apply Forall_app in Hfo as [Hf1 Hf2]. apply Forall_cons in Hf2 as [_ Hf2].
  apply lifo_cons in Hl as (B' & Hl1 & Hl2).
  destruct (run_inv raises cap l1 _ _ _ _ (inv_start f Hf) Hf1 El) as (I1 & _). fold st1 in I1.
  destruct (step_inv raises cap st1 B _ (SEnter m) B' I1 Logic.I Hl1) as (I2 & _).
  simpl in Hl1. case_bool_decide as Hm; [done|]. injection Hl1 as <-.
  assert (srun raises cap (s_start f) (l1 ++ [SEnter m]) = s_enter m st1) as Es by (unfold srun; by rewrite fold_left_app).
  rewrite Es in He.
  destruct (run_delivery raises cap l2 (s_enter m st1) (m :: B) _ A m hs Hr Hcap I2 Hf2 Hl2 He Hne Hsh) as (Hm2 & H2).
  { by left. }
  { simpl. by rewrite upd_eq. }
  assert (st = srun raises cap (s_enter m st1) l2) as -> by (unfold st, srun; by rewrite fold_left_app).
  assert (pend (sg_mgrs (s_enter m st1)) (m :: B) m = []) as E0 by (simpl; by rewrite Nat.eqb_refl upd_eq).
  rewrite E0 in H2. eexists. split; [exact H2|]. intros Hd. by apply pend_drained.
Qed.

(** ** Other code's descriptor *)
Lemma step_external raises cap st A e o A' : (forall h, raises h = false) -> 0 < cap ->
  inv st A (ExtFd e) -> no_set o -> lifo A [o] = Some A' -> ok_op st o ->
  written e (sg_obs (sstep raises cap st o)) ++ tot (sg_mgrs (sstep raises cap st o)) A'
    = written e (sg_obs st) ++ tot (sg_mgrs st) A ++ signals [o].
Proof.
  intros Hr Hcap I Hf Hl Hok. destruct o as [k|k|f|n|k|k n h]; simpl in Hl, Hok |- *.
  - case_bool_decide as Hk; [done|]. injection Hl as <-. simpl. rewrite upd_eq /= !app_nil_r.
    rewrite (tot_ext (sg_mgrs st)) //. intros a Ha. rewrite upd_ne //. by intros ->.
  - destruct A as [|a A]; [done|]. destruct (Nat.eqb a k) eqn:E; [|done]. apply Nat.eqb_eq in E. subst a. injection Hl as <-.
    destruct (inv_exit _ _ _ _ I) as [_ E]. rewrite E.
    destruct (i_chain _ _ _ I) as (s & Hw & Hs & _). unfold s_exit. rewrite Hs. simpl. rewrite Hok app_nil_r app_nil_r.
    rewrite (tot_ext (sg_mgrs st)) //. intros a Ha. rewrite upd_ne //. intros ->. apply (i_nodup _ _ _) in I. apply NoDup_cons in I as [? _]. done.
  - done.
  - injection Hl as <-.
    destruct (signal_data st A _ n I) as [[-> Hw]|(h & A' & -> & H1 & H2 & H3 & H4)].
    + rewrite Hw. simpl. rewrite written_app app_nil_r. f_equal. unfold written. simpl. by rewrite Nat.eqb_refl.
    + rewrite H3. rewrite (tot_head (sg_mgrs st) _ h A' [n] H1) //.
      intros a Ha. rewrite H2 //. intros ->. apply (i_nodup _ _ _) in I. apply NoDup_cons in I as [? _]. done.
  - injection Hl as <-. rewrite app_nil_r.
    destruct (read_moved raises cap st A _ k Hr Hcap I) as [[Hk M]| ->]; [|done].
    rewrite (mv_written _ _ _ _ M) -app_assoc.
    destruct (tot_moved _ _ k _ (i_foreign _ _ _ I) (i_inj _ _ _ I) M A _ (i_nodup _ _ _ I) (i_chain _ _ _ I) Hk) as [[Hp ->]|[[s Hp] ->]]; rewrite Hp.
    + by rewrite bool_decide_true.
    + by rewrite bool_decide_false.
  - injection Hl as <-. rewrite app_nil_r.
    rewrite (tot_ext (sg_mgrs st)) //. intros a Ha. unfold upd. destruct (Nat.eqb a k) eqn:E; [|done]. apply Nat.eqb_eq in E. by subst.
Qed.
Lemma run_external raises cap e l : forall st A A', (forall h, raises h = false) -> 0 < cap ->
  inv st A (ExtFd e) -> Forall no_set l -> lifo A l = Some A' -> exits_drained raises cap st l ->
  written e (sg_obs (srun raises cap st l)) ++ tot (sg_mgrs (srun raises cap st l)) A'
    = written e (sg_obs st) ++ tot (sg_mgrs st) A ++ signals l.
Proof.
  induction l as [|o l IH]; intros st A A' Hr Hcap I Hf Hl He.
  { simpl in Hl. injection Hl as <-. simpl. by rewrite app_nil_r. }
  apply Forall_cons in Hf as [Hf1 Hf2]. destruct He as [He1 He2]. apply lifo_cons in Hl as (B & Hl1 & Hl2).
  destruct (step_inv raises cap st A (ExtFd e) o B I) as (I1 & _); [by destruct o|done|].
  assert (last_set (ExtFd e) [o] = ExtFd e) as Eb by (by destruct o). rewrite Eb in I1.
  change (srun raises cap st (o :: l)) with (srun raises cap (sstep raises cap st o) l).
  rewrite (IH _ _ _ Hr Hcap I1 Hf2 Hl2 He2) app_assoc (step_external raises cap st A e o B Hr Hcap I Hf1 Hl1 He1) -!app_assoc (signals_cons o l). done.
Qed.
Lemma external_law raises cap e l A : (forall h, raises h = false) -> 0 < cap ->
  Forall no_set l -> lifo [] l = Some A -> exits_drained raises cap (s_start (ExtFd e)) l ->
  let st := srun raises cap (s_start (ExtFd e)) l in
  exists rest, written e (sg_obs st) ++ rest = signals l /\ (drained A st -> rest = []).
Proof.
  intros Hr Hcap Hf Hl He st. eexists. split; [exact (run_external raises cap e l (s_start (ExtFd e)) [] A Hr Hcap (inv_start (ExtFd e) Logic.I) Hf Hl He)|].
  intros Hd. by apply tot_drained.
Qed.
