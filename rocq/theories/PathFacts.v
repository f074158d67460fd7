(** Lemmas about joining paths and about conditions on launch configurations. *)
From Coq Require Import ssreflect.
From Verif Require Import StrFacts SubstFacts SubstLaws SpecPath.
#[local] Arguments String.append : simpl nomatch.

Lemma absolute_iff p : starts_with "/" p = true <-> absolute p.
Proof.
  destruct p as [|c p]; [split; [done|by intros (? & ?)]|]. cbn [starts_with]. destruct (Ascii.eqb_spec "/" c) as [<-|H].
  - split; [by exists p|done].
  - split; [done|]. intros (r & [= -> _]). done.
Qed.
Lemma drop_length_app a b : drop_str (String.length a) (a ++ b)%string = b.
Proof. induction a; [by destruct b|done]. Qed.
Lemma drop_split_end n s : (n <= String.length s)%nat -> exists p, s = (p ++ drop_str n s)%string.
Proof.
  revert s. induction n as [|n IH]; intros s Hn; [by exists ""|]. destruct s as [|c s]; [simpl in Hn; lia|].
  destruct (IH s) as (p & E); [simpl in Hn; lia|]. exists (String c p). simpl. by rewrite {1}E.
Qed.
Lemma ends_iff t : ends_with "/" t = true <-> exists r, t = (r ++ "/")%string.
Proof.
  unfold ends_with. cbn [String.length]. split.
  - destruct (Nat.leb_spec 1 (String.length t)) as [H|]; [|done]. intros E%String.eqb_eq. destruct (drop_split_end (String.length t - 1) t) as (p & Ep); [lia|].
    exists p. by rewrite E in Ep.
  - intros (r & ->). rewrite str_app_length. cbn [String.length]. destruct (Nat.leb_spec 1 (String.length r + 1)); [|lia].
    replace (String.length r + 1 - 1)%nat with (String.length r) by lia. rewrite drop_length_app. done.
Qed.
Lemma open_iff t : String.eqb t "" || ends_with "/" t = true <-> open_end t.
Proof. unfold open_end. by rewrite orb_true_iff String.eqb_eq ends_iff. Qed.
Lemma path_join_snoc p l b : path_join p (l ++ [b]) =
  let t := path_join p l in if starts_with "/" b then b else if String.eqb t "" || ends_with "/" t then (t ++ b)%string else (t ++ "/" ++ b)%string.
Proof. revert p. induction l as [|x l IH]; intros p; [done|]. cbn [app path_join]. apply IH. Qed.
Lemma joined_path p l : joined (p :: l) (path_join p l).
Proof.
  induction l as [|b l IH] using rev_ind; [constructor|]. rewrite path_join_snoc app_comm_cons. cbv zeta.
  destruct (starts_with "/" b) eqn:Ea; [by eapply joined_absolute; [exact IH|apply absolute_iff]|].
  assert (~ absolute b) as Hb by (rewrite -absolute_iff Ea; done).
  destruct (String.eqb _ "" || _) eqn:Eo; [apply joined_open; [exact IH|done|by apply open_iff]|]. apply joined_sep; [exact IH|done|]. rewrite -open_iff Eo. done.
Qed.
Lemma joined_det l t : joined l t -> forall t', joined l t' -> t = t'.
Proof.
  assert (forall (l : list string) (x y : string), l ++ [x] = [y] -> l = [] /\ x = y) as Hone.
  { intros [|? [|? ?]] x y; [by intros [= ->]|done|done]. }
  assert (forall t, ~ joined [] t) as Hnil.
  { intros u. inversion 1; subst; by match goal with H : _ ++ [_] = [] |- _ => apply app_eq_nil in H as [? ?] end. }
  induction 1 as [p|l t a Hl IH Ha|l t b Hl IH Hb Ho|l t b Hl IH Hb Ho]; intros t' H'.
  - inversion H' as [|l t a Hl Ha E|l t b Hl Hb Ho E|l t b Hl Hb Ho E]; [done|..]; apply Hone in E as [-> ->]; by apply Hnil in Hl.
  - inversion H' as [p E|l2 t2 a2 Hl2 Ha2 E|l2 t2 b2 Hl2 Hb2 Ho2 E|l2 t2 b2 Hl2 Hb2 Ho2 E]; subst.
    { symmetry in E. apply Hone in E as [-> ->]. by apply Hnil in Hl. }
    all: apply app_inj_tail in E as [-> ->]; try done.
  - inversion H' as [p E|l2 t2 a2 Hl2 Ha2 E|l2 t2 b2 Hl2 Hb2 Ho2 E|l2 t2 b2 Hl2 Hb2 Ho2 E]; subst.
    { symmetry in E. apply Hone in E as [-> ->]. by apply Hnil in Hl. }
    all: apply app_inj_tail in E as [-> ->]; try done; rewrite (IH _ Hl2) in Ho |- *; done.
  - inversion H' as [p E|l2 t2 a2 Hl2 Ha2 E|l2 t2 b2 Hl2 Hb2 Ho2 E|l2 t2 b2 Hl2 Hb2 Ho2 E]; subst.
    { symmetry in E. apply Hone in E as [-> ->]. by apply Hnil in Hl. }
    all: apply app_inj_tail in E as [-> ->]; try done; rewrite (IH _ Hl2) in Ho |- *; done.
Qed.
Lemma each_iff w l c c' ts : perform_each w l c = (c', Ok ts) <-> performed w l c c' ts.
Proof.
  revert c ts. induction l as [|x l IH]; intros c ts; simpl.
  - split; [intros [= <- <-]; constructor|]. inversion 1; by subst.
  - rewrite /bindS /retS. split.
    + destruct (perform w x c) as [c1 [a|e|]] eqn:E; [|done..]. destruct (perform_each w l c1) as [c2 [b|e|]] eqn:E2; [|done..]. intros [= <- <-].
      econstructor; [exact E|by apply IH].
    + intros (c1 & a & ts' & -> & Hx & Hl)%performed_inv. apply IH in Hl. by rewrite Hx Hl.
Qed.
Lemma path_law w l c c' t : perform w (SPathJoin l) c = (c', Ok t) <-> exists ts, performed w l c c' ts /\ joined ts t.
Proof.
  rewrite perform_unfold /= /bindS. split.
  - destruct (perform_each w l c) as [c1 [ts|e|]] eqn:E; [|done..]. destruct ts as [|p r]; [done|]. intros [= <- <-]. exists (p :: r). split; [by apply each_iff|apply joined_path].
  - intros (ts & Hp & Hj). apply each_iff in Hp. rewrite Hp. destruct ts as [|p r].
    + exfalso. inversion Hj; by match goal with H : _ ++ [_] = [] |- _ => apply app_eq_nil in H as [? ?] end.
    + unfold retS. by rewrite (joined_det _ _ Hj _ (joined_path p r)).
Qed.
Lemma path_none w c : perform w (SPathJoin []) c = (c, Exn XType).
Proof. done. Qed.
(** From the last absolute part on only. *)
Lemma path_join_app p l l' : path_join p (l ++ l') = path_join (path_join p l) l'.
Proof. revert p. induction l as [|x l IH]; intros p; [done|]. cbn [app path_join]. apply IH. Qed.
Lemma joined_last pre a post t : absolute a -> joined (pre ++ a :: post) t <-> joined (a :: post) t.
Proof.
  intros Ha. assert (forall p r u, joined (p :: r) u <-> u = path_join p r) as Hj.
  { intros p r u. split; [intros H; exact (joined_det _ _ H _ (joined_path p r))|intros ->; apply joined_path]. }
  destruct pre as [|p pre]; [done|]. cbn [app]. rewrite !Hj path_join_app. cbn [path_join]. apply absolute_iff in Ha. by rewrite Ha.
Qed.
Lemma joined_plain p l : Forall (fun b => ~ absolute b /\ ~ open_end b) l -> ~ open_end p -> joined (p :: l) (join "/" (p :: l)).
Proof.
  intros Hl Hp. assert (join "/" (p :: l) = path_join p l) as ->; [|apply joined_path].
  assert (forall a b c, join "/" ((a ++ "/" ++ b)%string :: c) = (a ++ "/" ++ join "/" (b :: c))%string) as Hj.
  { intros a b c. destruct c as [|x c]; cbn [join]; by rewrite ?str_app_assoc. }
  revert p Hp. induction Hl as [|b l [Hb1 Hb2] Hl IH]; intros p Hp; [done|]. cbn [path_join].
  destruct (starts_with "/" b) eqn:Ea; [by apply absolute_iff in Ea|]. destruct (String.eqb p "" || ends_with "/" p) eqn:Eo; [by apply open_iff in Eo|].
  rewrite -IH.
  - intros [E|(r & E)].
    + by destruct p.
    + destruct b as [|c b]; [by apply Hb2; left|]. apply Hb2. right.
      assert (exists x, String c b = (x ++ "/")%string) as [x Hx]; [|eauto].
      replace (p ++ "/" ++ String c b)%string with ((p ++ "/") ++ String c b)%string in E by (by rewrite str_app_assoc).
      apply (f_equal (fun s => ends_with "/" s)) in E. assert (ends_with "/" (r ++ "/") = true) as Er by (apply ends_iff; eauto). rewrite Er in E.
      clear -E. apply ends_iff. unfold ends_with in *. rewrite str_app_length in E. cbn [String.length] in *.
      destruct (Nat.leb_spec 1 (String.length (p ++ "/") + S (String.length b))); [|lia]. cbn [Nat.leb].
      replace (String.length (p ++ "/") + S (String.length b) - 1)%nat with (String.length (p ++ "/") + (S (String.length b) - 1))%nat in E by lia.
      assert (forall n u v, drop_str (String.length u + n) (u ++ v)%string = drop_str n v) as Hd by (clear; intros n u v; induction u; [done|]; exact IHu).
      by rewrite Hd in E.
  - symmetry. rewrite Hj. cbn [join]. by destruct l.
Qed.

Lemma lc_equals_law w n e c c' v : perform_substitutions w e c = (c', Ok v) ->
  exists b, evaluate w (CLCEquals n (Some e)) c = (c', Ok b) /\ evaluate w (CLCNotEquals n (Some e)) c = (c', Ok (negb b)) /\ (b = true <-> lc c' !! n = Some v).
Proof.
  intros H. cbn [evaluate]. unfold lc_equals, bindS, retS. rewrite H. eexists. split; [reflexivity|]. split; [done|].
  destruct (lc c' !! n) as [u|]; [|done]. rewrite String.eqb_eq. split; congruence.
Qed.
Lemma lc_equals_none w n c :
  exists b, evaluate w (CLCEquals n None) c = (c, Ok b) /\ evaluate w (CLCNotEquals n None) c = (c, Ok (negb b)) /\ (b = true <-> lc c !! n = None).
Proof. eexists. split; [reflexivity|]. split; [done|]. by destruct (lc c !! n). Qed.
Lemma lc_equals_fails w n e c c' x : perform_substitutions w e c = (c', Exn x) ->
  evaluate w (CLCEquals n (Some e)) c = (c', Exn x) /\ evaluate w (CLCNotEquals n (Some e)) c = (c', Exn x).
Proof. intros H. cbn [evaluate]. unfold lc_equals, bindS, retS. by rewrite H. Qed.
