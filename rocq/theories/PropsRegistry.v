(** C85: which parsing method a name stands for. *)
From Verif Require Import SpecRegistry RegistryFacts.

(** Whatever was exposed before, in any order, with or without success: a name stands for the
    method of the first class or function that was exposed under it. *)
Theorem C85_first : forall k n o l, called k n (expose_all l r_empty) = Ok o <-> first_exposed k n o l.
Proof. exact called_law. Qed.
(** Names of which nothing usable was exposed raise RuntimeError. *)
Theorem C85_unknown : forall k n l, called k n (expose_all l r_empty) = Exn XRuntime <-> never_exposed k n l.
Proof. exact unknown_law. Qed.
(** An exposure is accepted exactly when the object has a parsing method and the name is free, or,
    for a substitution, is that of the same object; else it raises RuntimeError. *)
Theorem C85_accepted : forall l k n o t, (expose k n o t (expose_all l r_empty)).2 = Ok tt <->
  parsable t /\ (never_exposed k n l \/ k = KSubst /\ first_exposed k n o l).
Proof. exact accept_law. Qed.
Theorem C85_rejected : forall l k n o t, (expose k n o t (expose_all l r_empty)).2 <> Ok tt ->
  expose k n o t (expose_all l r_empty) = (expose_all l r_empty, Exn XRuntime).
Proof.
  intros l k n o t H. destruct (expose_spec k n o t (expose_all l r_empty)) as [[_ E]|[(_ & _ & E & _)|(_ & _ & _ & _ & [E|E])]]; [exact E|destruct (H E)|destruct (H E)|exact E].
Qed.
(** A finding: the registry says that two different methods may not have the same name, but for
    actions the same class is not accepted a second time either. *)
Theorem C85_again_refuted : forall n o t, parsable t ->
  (expose KSubst n o t (expose_all [(KSubst, n, o, t)] r_empty)).2 = Ok tt /\
  (expose KAction n o t (expose_all [(KAction, n, o, t)] r_empty)).2 = Exn XRuntime.
Proof.
  intros n o t Hp. split.
  - apply accept_law. split; [exact Hp|]. right. split; [reflexivity|]. exists [], t, []. split; [reflexivity|]. split; [exact Hp|]. intros o' t' [].
  - assert ((expose KAction n o t (expose_all [(KAction, n, o, t)] r_empty)).2 <> Ok tt) as H.
    { rewrite accept_law. intros [_ [H|[H _]]]; [|discriminate H]. apply (H o t); [left; reflexivity|exact Hp]. }
    rewrite (C85_rejected _ _ _ _ _ H). reflexivity.
Qed.
Print Assumptions C85_first. Print Assumptions C85_unknown. Print Assumptions C85_accepted. Print Assumptions C85_rejected. Print Assumptions C85_again_refuted.

(** ** Extensions *)
(** The first parser that loads the extensions imports every sound one whose names are not taken
    (by what is registered or by extensions before it), whatever the others do: all its names stand
    for what it exposed. *)
Theorem C85_loaded : forall exts c s pre e post, exts = pre ++ e :: post -> l_loaded s = [] -> sound e -> ~ In (x_module e) (l_modules s) ->
  (forall e', In e' pre -> x_module e' <> x_module e) ->
  (forall k n, In (k, n) (names_of e) -> called k n (l_reg s) = Exn XRuntime /\ forall e', In e' pre -> ~ In (k, n) (names_of e')) ->
  In (x_module e) (l_modules (load_extensions exts s c)) /\
  forall k n, In (k, n) (names_of e) -> exists o, called k n (l_reg (load_extensions exts s c)) = Ok o /\ fst o = x_module e.
Proof. exact load_law. Qed.
(** An extension that is not imported is warned about. *)
Theorem C85_warned : forall exts c s e, l_loaded s = [] -> In e exts ->
  In (x_module e) (l_modules (load_extensions exts s c)) \/ In (x_module e) (l_warned (load_extensions exts s c)).
Proof. exact warned_law. Qed.
(** Other parsers load them again, but this changes no name, even though it runs the extensions
    that failed once more. *)
Theorem C85_reloaded : forall exts c cs s, past s -> l_loaded s = [] ->
  l_reg (fold_left (load_extensions exts) (c :: cs) s) = l_reg (load_extensions exts s c).
Proof. exact reload_law. Qed.
Print Assumptions C85_loaded. Print Assumptions C85_warned. Print Assumptions C85_reloaded.
(** A finding: an extension that fails is not undone; the names it exposed before stay. *)
Theorem C85_half_refuted : forall m n, exists e s, x_module e = m /\ l_modules s = [] /\ past s /\ l_loaded s = [] /\
  ~ In m (l_modules (load_extensions [e] s 1)) /\ exists o, called KAction n (l_reg (load_extensions [e] s 1)) = Ok o.
Proof.
  intros m n. exists {| x_module := m; x_body := [(KAction, n, TFunction); (KAction, n, TFunction)]; x_ok := true |}, {| l_reg := r_empty; l_next := 0; l_modules := []; l_warned := []; l_loaded := [] |}.
  assert (forall e, e = EWrapped (m, 0) -> (expose KAction n (m, 1) TFunction (r_put KAction n e r_empty)) = (r_put KAction n e r_empty, Exn XRuntime)) as H.
  { intros e ->. unfold expose. simpl. rewrite lookup_insert. reflexivity. }
  assert (expose KAction n (m, 0) TFunction r_empty = (r_put KAction n (EWrapped (m, 0)) r_empty, Ok tt)) as H0 by reflexivity.
  assert (import_body m [(KAction, n, TFunction); (KAction, n, TFunction)] r_empty 0 = (r_put KAction n (EWrapped (m, 0)) r_empty, 2, false)) as HB.
  { cbn [import_body]. rewrite H0, (H _ eq_refl). reflexivity. }
  repeat split; try reflexivity.
  - intros k n' o. unfold called. destruct k; discriminate.
  - unfold load_extensions, import_ext. simpl existsb. cbn [fold_left]. simpl existsb. cbn [x_module x_body l_reg l_next]. rewrite HB. intros [].
  - exists (m, 0). unfold load_extensions, import_ext. simpl existsb. cbn [fold_left]. simpl existsb. cbn [x_module x_body l_reg l_next]. rewrite HB. simpl. unfold called. simpl. rewrite lookup_insert. reflexivity.
Qed.
Print Assumptions C85_half_refuted.

(** ** Cases *)
Example ex_history : let l := [(KAction, "a", (0, 1), TClass None); (KAction, "a", (0, 2), TFunction); (KSubst, "a", (0, 3), TClass (Some true)); (KAction, "a", (0, 4), TFunction)] in
  called KAction "a" (expose_all l r_empty) = Ok (0, 2) /\ called KSubst "a" (expose_all l r_empty) = Ok (0, 3) /\ called KAction "b" (expose_all l r_empty) = Exn XRuntime.
Proof. repeat split; vm_compute; reflexivity. Qed.
Definition ex_exts : list ext :=
  [{| x_module := 1; x_body := [(KAction, "a", TFunction); (KAction, "b", TOther); (KAction, "c", TFunction)]; x_ok := true |};
   {| x_module := 2; x_body := [(KAction, "d", TClass (Some true)); (KSubst, "a", TFunction)]; x_ok := true |};
   {| x_module := 3; x_body := [(KAction, "d", TFunction)]; x_ok := true |}].
Definition ex_start : loader := {| l_reg := r_empty; l_next := 0; l_modules := []; l_warned := []; l_loaded := [] |}.
Example ex_loaded : let s := load_extensions ex_exts ex_start 1 in
  l_modules s = [2] /\ l_warned s = [3; 1] /\ called KAction "d" (l_reg s) = Ok (2, 2) /\ called KSubst "a" (l_reg s) = Ok (2, 3) /\ called KAction "a" (l_reg s) = Ok (1, 0) /\
  called KAction "c" (l_reg s) = Exn XRuntime.
Proof. repeat split; vm_compute; reflexivity. Qed.
(** The hypotheses of [C85_loaded] and [C85_reloaded] are met by the second extension. *)
Example ex_sound : exists e, nth_error ex_exts 1 = Some e /\ sound e /\ past ex_start /\
  forall k n, In (k, n) (names_of e) -> called k n (l_reg ex_start) = Exn XRuntime /\ forall e', In e' (firstn 1 ex_exts) -> ~ In (k, n) (names_of e').
Proof.
  eexists. split; [reflexivity|]. split.
  - split; [reflexivity|]. split; [repeat constructor; try (left; reflexivity); right; reflexivity|].
    constructor; [simpl; intros [H|[]]; discriminate H|]. constructor; [intros []|constructor].
  - split; [intros k n o; unfold called; destruct k; discriminate|]. intros k n Hi. split; [unfold called; destruct k; reflexivity|].
    intros e' [<-|[]] Hj. simpl in Hi, Hj. intuition congruence.
Qed.
