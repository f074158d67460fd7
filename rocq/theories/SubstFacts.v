(** Lemmas about substitutions and conditions. *)
From Coq Require Import ssreflect.
From Verif Require Import SpecSubst CtxFacts.

(** ** Unfolding [perform] in terms of [perform_substitutions] *)
Definition perform_bool (w : world) (l : list subst) : ctx -> ctx * res bool :=
  as_failure (t <-- perform_substitutions w l ;; liftS (coerce_bool w t)).
Fixpoint perform_bools (w : world) (ls : list (list subst)) : ctx -> ctx * res (list bool) :=
  match ls with
  | [] => retS []
  | a :: l' => b <-- perform_bool w a ;; bs <-- perform_bools w l' ;; retS (b :: bs)
  end.
Fixpoint perform_each (w : world) (l : list subst) : ctx -> ctx * res (list string) :=
  match l with
  | [] => retS []
  | y :: l' => a <-- perform w y ;; r <-- perform_each w l' ;; retS (a :: r)
  end.

Definition perform_spec (w : world) (x : subst) : ctx -> ctx * res string :=
  match x with
  | SText s => retS s
  | SLaunchConfig name default =>
      n <-- perform_substitutions w name ;;
      fun c => match lc c !! n with
               | Some v => (c, Ok v)
               | None => match default with
                         | None => (c, Exn XSubst)
                         | Some d => perform_substitutions w d c
                         end
               end
  | SEnvVar name default =>
      d <-- (match default with
             | None => retS None
             | Some d => v <-- perform_substitutions w d ;; retS (Some v)
             end) ;;
      n <-- perform_substitutions w name ;;
      fun c => match env c !! n, d with
               | Some v, _ => (c, Ok v)
               | None, Some v => (c, Ok v)
               | None, None => (c, Exn XSubst)
               end
  | SNot v => b <-- perform_bool w v ;; retS (bool_str (negb b))
  | SAnd l r => a <-- perform_bool w l ;; b <-- perform_bool w r ;; retS (bool_str (a && b))
  | SOr l r => a <-- perform_bool w l ;; b <-- perform_bool w r ;; retS (bool_str (a || b))
  | SAny args => bs <-- perform_bools w args ;; retS (bool_str (existsb (fun b => b) bs))
  | SAll args => bs <-- perform_bools w args ;; retS (bool_str (forallb (fun b => b) bs))
  | SEquals l r =>
      a <-- perform_substitutions w l ;; b <-- perform_substitutions w r ;;
      retS (bool_str (equals_result a b))
  | SNotEquals l r =>
      a <-- perform_substitutions w l ;; b <-- perform_substitutions w r ;;
      retS (bool_str (negb (String.eqb (bool_str (equals_result a b)) "true")))
  | SIfElse cnd i e =>
      b <-- perform_bool w cnd ;;
      if (b : bool) then perform_substitutions w i else perform_substitutions w e
  | SAnonName name =>
      n <-- perform_substitutions w name ;;
      fun c => let k := ("anon" ++ n)%string in
               match lc c !! k with
               | Some v => (c, Ok v)
               | None => let v := w_rand w n (nonce c) in
                         (set_lc k v (c <| nonce ::= S |>), Ok v)
               end
  | SPathJoin l =>
      ps <-- perform_each w l ;;
      match ps with
      | [] => raiseS XType
      | p :: r => retS (path_join p r)
      end
  | SThisFile => fun c =>
      let '(c', d) := get_combined_locals c in
      match d !! "current_launch_file_path" with
      | None => (c', Exn XSubst)
      | Some v => (c', local_text v)
      end
  | SThisDir => fun c =>
      let '(c', d) := get_combined_locals c in
      match d !! "current_launch_file_directory" with
      | None => (c', Exn XSubst)
      | Some v => (c', local_text v)
      end
  | SLocal k => v <-- get_local k ;; liftS (local_text v)
  | SFun f args =>
      ts <-- perform_list w args ;;
      fun c => (c <| nonce ::= S |>, w_sfun w f ts c)
  end.

Section unfold.
Context (w : world).
Let performs := fix performs (l : list subst) : ctx -> ctx * res string :=
    match l with
    | [] => retS ""
    | y :: l' => a <-- perform w y ;; b <-- performs l' ;; retS (a ++ b)%string
    end.
Lemma performs_eq l : performs l = perform_substitutions w l.
Proof. induction l as [|y l IH]; [done|]. simpl. by rewrite IH. Qed.
Lemma perform_unfold x c : perform w x c = perform_spec w x c.
Proof.
  destruct x as [s|name default|name default|v|l r|l r|args|args|l r|l r|cnd i e|name|l| | |key|fid args];
    try done; simpl; fold performs; rewrite ?performs_eq; try done.
  - assert (forall l : list (list subst),
      (fix go (l : list (list subst)) : ctx -> ctx * res (list bool) :=
         match l with
         | [] => retS []
         | a :: l' => b <-- as_failure (t <-- performs a ;; liftS (coerce_bool w t)) ;;
                      bs <-- go l' ;; retS (b :: bs)
         end) l = perform_bools w l) as ->; [|done].
    intros l. induction l as [|a l IH]; [done|]. simpl. by rewrite IH.
  - assert (forall l : list (list subst),
      (fix go (l : list (list subst)) : ctx -> ctx * res (list bool) :=
         match l with
         | [] => retS []
         | a :: l' => b <-- as_failure (t <-- performs a ;; liftS (coerce_bool w t)) ;;
                      bs <-- go l' ;; retS (b :: bs)
         end) l = perform_bools w l) as ->; [|done].
    intros l. induction l as [|a l IH]; [done|]. simpl. by rewrite IH.
  - assert (forall l : list subst,
      (fix go (l : list subst) : ctx -> ctx * res (list string) :=
         match l with
         | [] => retS []
         | y :: l' => a <-- perform w y ;; r <-- go l' ;; retS (a :: r)
         end) l = perform_each w l) as ->; [|done].
    intros l'. induction l' as [|a l' IH]; [done|]. simpl. by rewrite IH.
Qed.
End unfold.

(** ** Induction over substitutions *)
Section subst_ind.
Context (P : subst -> Prop).
Definition Popt (o : option (list subst)) : Prop :=
  match o with Some l => Forall P l | None => True end.
Context
  (HText : forall s, P (SText s))
  (HLC : forall n d, Forall P n -> Popt d -> P (SLaunchConfig n d))
  (HEnv : forall n d, Forall P n -> Popt d -> P (SEnvVar n d))
  (HNot : forall v, Forall P v -> P (SNot v))
  (HAnd : forall l r, Forall P l -> Forall P r -> P (SAnd l r))
  (HOr : forall l r, Forall P l -> Forall P r -> P (SOr l r))
  (HAny : forall a, Forall (Forall P) a -> P (SAny a))
  (HAll : forall a, Forall (Forall P) a -> P (SAll a))
  (HEq : forall l r, Forall P l -> Forall P r -> P (SEquals l r))
  (HNeq : forall l r, Forall P l -> Forall P r -> P (SNotEquals l r))
  (HIf : forall cn i e, Forall P cn -> Forall P i -> Forall P e -> P (SIfElse cn i e))
  (HAnon : forall n, Forall P n -> P (SAnonName n))
  (HPath : forall l, Forall P l -> P (SPathJoin l))
  (HTF : P SThisFile) (HTD : P SThisDir) (HL : forall k, P (SLocal k))
  (HF : forall f a, Forall (Forall P) a -> P (SFun f a)).
Fixpoint subst_ind' (x : subst) : P x :=
  let fl := fix fl (l : list subst) : Forall P l :=
    match l return Forall P l with
    | [] => List.Forall_nil P
    | y :: l' => @List.Forall_cons _ _ y _ (subst_ind' y) (fl l')
    end in
  let fll := fix fll (l : list (list subst)) : Forall (Forall P) l :=
    match l return Forall (Forall P) l with
    | [] => List.Forall_nil _
    | y :: l' => @List.Forall_cons _ _ y _ (fl y) (fll l')
    end in
  let fo := fun (o : option (list subst)) =>
    match o return Popt o with Some l => fl l | None => I end in
  match x return P x with
  | SText s => HText s
  | SLaunchConfig n d => HLC n d (fl n) (fo d)
  | SEnvVar n d => HEnv n d (fl n) (fo d)
  | SNot v => HNot v (fl v)
  | SAnd l r => HAnd l r (fl l) (fl r)
  | SOr l r => HOr l r (fl l) (fl r)
  | SAny a => HAny a (fll a)
  | SAll a => HAll a (fll a)
  | SEquals l r => HEq l r (fl l) (fl r)
  | SNotEquals l r => HNeq l r (fl l) (fl r)
  | SIfElse c i e => HIf c i e (fl c) (fl i) (fl e)
  | SAnonName n => HAnon n (fl n)
  | SPathJoin l => HPath l (fl l)
  | SThisFile => HTF
  | SThisDir => HTD
  | SLocal k => HL k
  | SFun f a => HF f a (fll a)
  end.
End subst_ind.

(** ** What performing may change *)
(** Only reserved launch configurations are added, the locals cache may be filled. *)
Record sframe (c c' : ctx) : Prop := {
  sf_eq : c' = c <| lc := lc c' |> <| cache := cache c' |> <| nonce := nonce c' |>;
  sf_sub : lc c ⊆ lc c';
  sf_new : forall k, lc c !! k = None -> is_Some (lc c' !! k) -> exists n, k = ("anon" ++ n)%string;
  sf_cache : cache c' = cache c \/ (cache c = None /\ cache c' = Some (locals c ∪ globals c));
  sf_nonce : (nonce c <= nonce c')%nat }.

Lemma sframe_refl c : sframe c c.
Proof. constructor; [by destruct c|done| |by left|done]. intros k ->. by intros [? ?]. Qed.
Lemma sframe_trans a b c : sframe a b -> sframe b c -> sframe a c.
Proof.
  intros [E1 S1 N1 C1 M1] [E2 S2 N2 C2 M2]. constructor.
  - rewrite E2 E1. by destruct a.
  - by etrans.
  - intros k Hk Hs. destruct (lc b !! k) eqn:E; [by apply N1|by apply N2].
  - rewrite E1 in C2; simpl in C2.
    destruct C1 as [C1|[C1 C1']], C2 as [C2|[C2 C2']]; rewrite ?C1 ?C1' in C2 |- *; auto; try congruence.
    all: right; split; congruence.
  - lia.
Qed.

Definition frames {A} (m : ctx -> ctx * res A) : Prop := forall c c' r, m c = (c', r) -> sframe c c'.
Lemma frames_ret {A} (a : A) : frames (retS a).
Proof. intros c c' r [= <- <-]. apply sframe_refl. Qed.
Lemma frames_raise {A} e : frames (raiseS (A:=A) e).
Proof. intros c c' r [= <- <-]. apply sframe_refl. Qed.
Lemma frames_lift {A} (x : res A) : frames (liftS x).
Proof. intros c c' r [= <- <-]. apply sframe_refl. Qed.
Lemma frames_bind {A B} (m : ctx -> ctx * res A) (k : A -> ctx -> ctx * res B) :
  frames m -> (forall a, frames (k a)) -> frames (bindS m k).
Proof.
  intros Hm Hk c c' r. rewrite /bindS. destruct (m c) as [c1 [a|e|]] eqn:E; intros H; simplify_eq.
  - eapply sframe_trans; [by eapply Hm|by eapply Hk].
  - by eapply Hm.
  - by eapply Hm.
Qed.
Lemma frames_as_failure {A} (m : ctx -> ctx * res A) : frames m -> frames (as_failure m).
Proof.
  intros Hm c c' r. rewrite /as_failure. destruct (m c) as [c1 [a|e|]] eqn:E; intros H; simplify_eq;
    by eapply Hm.
Qed.
Lemma combined_frame c : sframe c (get_combined_locals c).1.
Proof.
  rewrite /get_combined_locals. destruct (cache c) eqn:E; [apply sframe_refl|]. simpl.
  constructor; simpl; [by destruct c|done| |by right|done]. intros k ->. by intros [? ?].
Qed.
Lemma nonce_frame c : sframe c (c <| nonce ::= S |>).
Proof.
  constructor; simpl; [by destruct c|done| |by left|lia]. intros k ->. by intros [? ?].
Qed.
Lemma frames_get_local k : frames (get_local k).
Proof.
  intros c c' r. rewrite /get_local. pose proof (combined_frame c).
  destruct (get_combined_locals c). by intros [= <- <-].
Qed.
Lemma anon_frame c n v : lc c !! ("anon" ++ n)%string = None ->
  sframe c (set_lc ("anon" ++ n) v (c <| nonce ::= S |>)).
Proof.
  intros H. constructor; simpl; [by destruct c| | |by left|lia].
  - by apply insert_subseteq.
  - intros k Hk [x Hx]. destruct (decide (k = ("anon" ++ n)%string)) as [->|Hne]; [by eexists|].
    rewrite lookup_insert_ne in Hx; congruence.
Qed.

Lemma performs_frames w l : Forall (fun x => frames (perform w x)) l -> frames (perform_substitutions w l).
Proof.
  induction 1 as [|x l Hx Hl IH]; simpl; [apply frames_ret|].
  apply frames_bind; [done|]. intros a. apply frames_bind; [done|]. intros. apply frames_ret.
Qed.
Lemma perform_bool_frames w l :
  Forall (fun x => frames (perform w x)) l -> frames (perform_bool w l).
Proof.
  intros H. apply frames_as_failure, frames_bind; [by apply performs_frames|]. intros. apply frames_lift.
Qed.
Lemma perform_bools_frames w ls :
  Forall (Forall (fun x => frames (perform w x))) ls -> frames (perform_bools w ls).
Proof.
  induction 1 as [|x l Hx Hl IH]; simpl; [apply frames_ret|].
  apply frames_bind; [by apply perform_bool_frames|]. intros a.
  apply frames_bind; [done|]. intros. apply frames_ret.
Qed.
Lemma perform_each_frames w l :
  Forall (fun x => frames (perform w x)) l -> frames (perform_each w l).
Proof.
  induction 1 as [|x l Hx Hl IH]; simpl; [apply frames_ret|].
  apply frames_bind; [done|]. intros a. apply frames_bind; [done|]. intros. apply frames_ret.
Qed.
Lemma perform_list_frames w ls :
  Forall (Forall (fun x => frames (perform w x))) ls -> frames (perform_list w ls).
Proof.
  induction 1 as [|x l Hx Hl IH]; simpl; [apply frames_ret|].
  apply frames_bind; [by apply performs_frames|]. intros a.
  apply frames_bind; [done|]. intros. apply frames_ret.
Qed.

Lemma perform_frames w x : frames (perform w x).
Proof.
  induction x using subst_ind'; intros c c' r0 Hp; rewrite perform_unfold in Hp; revert c c' r0 Hp;
    simpl.
  all: try match goal with |- forall c c' r0, ?f c = _ -> _ => change (frames f) end.
  - apply frames_ret.
  - apply frames_bind; [by apply performs_frames|]. intros a c c' r0.
    destruct (lc c !! a); [intros [= <- <-]; apply sframe_refl|].
    destruct d as [d|]; [|intros [= <- <-]; apply sframe_refl].
    by apply performs_frames.
  - apply frames_bind.
    { destruct d as [d|]; [|apply frames_ret]. apply frames_bind; [by apply performs_frames|].
      intros; apply frames_ret. }
    intros a. apply frames_bind; [by apply performs_frames|]. intros b c c' r0.
    destruct (env c !! b), a; intros [= <- <-]; apply sframe_refl.
  - apply frames_bind; [by apply perform_bool_frames|]. intros; apply frames_ret.
  - apply frames_bind; [by apply perform_bool_frames|]. intros.
    apply frames_bind; [by apply perform_bool_frames|]. intros; apply frames_ret.
  - apply frames_bind; [by apply perform_bool_frames|]. intros.
    apply frames_bind; [by apply perform_bool_frames|]. intros; apply frames_ret.
  - apply frames_bind; [by apply perform_bools_frames|]. intros; apply frames_ret.
  - apply frames_bind; [by apply perform_bools_frames|]. intros; apply frames_ret.
  - apply frames_bind; [by apply performs_frames|]. intros.
    apply frames_bind; [by apply performs_frames|]. intros; apply frames_ret.
  - apply frames_bind; [by apply performs_frames|]. intros.
    apply frames_bind; [by apply performs_frames|]. intros; apply frames_ret.
  - apply frames_bind; [by apply perform_bool_frames|]. intros [].
    + by apply performs_frames.
    + by apply performs_frames.
  - apply frames_bind; [by apply performs_frames|]. intros a c c' r0. simpl.
    destruct (lc c !! _) eqn:E; intros [= <- <-]; [apply sframe_refl|by apply anon_frame].
  - apply frames_bind; [by apply perform_each_frames|]. intros [|a b]; [apply frames_raise|apply frames_ret].
  - intros c c' r0. pose proof (combined_frame c). destruct (get_combined_locals c) as [c1 d].
    by destruct (d !! _); intros [= <- <-].
  - intros c c' r0. pose proof (combined_frame c). destruct (get_combined_locals c) as [c1 d].
    by destruct (d !! _); intros [= <- <-].
  - apply frames_bind; [apply frames_get_local|]. intros; apply frames_lift.
  - apply frames_bind; [by apply perform_list_frames|]. intros ts c c' r0 [= <- <-]. apply nonce_frame.
Qed.
Lemma perform_substitutions_frames w l : frames (perform_substitutions w l).
Proof. apply performs_frames, Forall_forall. intros. apply perform_frames. Qed.
Lemma perform_list_frame w l : frames (perform_list w l).
Proof. apply perform_list_frames, Forall_forall. intros. apply Forall_forall. intros. apply perform_frames. Qed.
Lemma perform_bool_frame w l : frames (perform_bool w l).
Proof. apply perform_bool_frames, Forall_forall. intros. apply perform_frames. Qed.
Lemma perform_bval_frame w b : frames (perform_bval w b).
Proof.
  destruct b; [apply frames_ret|]. apply frames_bind; [apply perform_substitutions_frames|].
  intros; apply frames_lift.
Qed.
Lemma perform_fval_frame w b : frames (perform_fval w b).
Proof.
  destruct b; simpl; [apply frames_ret| |].
  - apply frames_bind; [apply perform_substitutions_frames|]. intros; apply frames_lift.
  - apply frames_bind; [apply perform_substitutions_frames|]. intros.
    apply frames_bind; [apply perform_substitutions_frames|]. intros.
    destruct (py_float a0), (py_float a1); try apply frames_ret; apply frames_raise.
Qed.
Lemma evaluate_expression_frame w l : frames (evaluate_condition_expression w l).
Proof. apply frames_bind; [apply perform_substitutions_frames|]. intros; apply frames_lift. Qed.
Lemma lc_equals_frame w n e : frames (lc_equals w n e).
Proof.
  apply frames_bind.
  - destruct e; [|apply frames_ret]. apply frames_bind; [apply perform_substitutions_frames|].
    intros; apply frames_ret.
  - intros x c c' r [= <- <-]. apply sframe_refl.
Qed.
Lemma evaluate_frame w k : frames (evaluate w k).
Proof.
  destruct k; simpl.
  - apply evaluate_expression_frame.
  - apply frames_bind; [apply evaluate_expression_frame|]. intros; apply frames_ret.
  - apply lc_equals_frame.
  - apply frames_bind; [apply lc_equals_frame|]. intros; apply frames_ret.
  - intros c c' r [= <- <-]. apply nonce_frame.
Qed.
