(** C98: what TimerAction, OpaqueFunction, OpaqueCoroutine and all that takes substitutions accept, and
    what becomes of it. *)
From Verif Require Import SpecChecked CheckedFacts.

(** C98: a check of an argument passes exactly if it is an instance of one of the types. *)
Theorem C98_check : forall (Sb : Type) (v : pyval Sb) (types : list pyclass),
  (ensure_argument_type v types = Ok tt <-> Exists (fun t => isinstance v t = true) types) /\
  (ensure_argument_type v types = Ok tt \/ ensure_argument_type v types = Exn XType).
Proof. intros Sb v types. split; [apply ensure_iff|apply ensure_cases]. Qed.
Print Assumptions C98_check.

(** C98: a timer accepts as its period a float, a text that is a number, a substitution, or texts and
    substitutions with at least one substitution among them, and nothing else: no int, and no texts
    alone; as actions anything that can be iterated; and as cancel_on_shutdown a bool or the like of a
    substitution. *)
Theorem C98_timer : forall (Sb : Type) (text : string -> Sb) (p a c : pyval Sb) (p' c' : pv Sb),
  timer_init text p a c = Ok (p', c') <-> is_period text p p' /\ can_iterate a /\ is_flag text c c'.
Proof. exact @timer_iff. Qed.
Print Assumptions C98_timer.

(** C98: it refuses everything else, with a ValueError for a text that is no number and a TypeError
    otherwise. *)
Theorem C98_timer_refuses : forall (Sb : Type) (text : string -> Sb) (p a c : pyval Sb) (e : exn),
  (timer_init text p a c = Exn e -> e = XType \/ e = XValue /\ exists s, p = VStr s /\ py_float s = None /\ can_iterate a) /\
  timer_init text p a c <> OutOfFuel.
Proof. intros Sb text p a c e. split; [apply timer_refuses|apply timer_total]. Qed.
Print Assumptions C98_timer_refuses.

(** C98: what a timer that was accepted waits for is always a float, however its substitutions are
    performed, if they do not raise; a float or text that was given is waited for as it is. *)
Theorem C98_timer_waits : forall (Sb : Type) (text : string -> Sb) (ST : Type) (yaml : string -> option (pv Sb))
    (perf : list Sb -> ST -> ST * res string) (p a c : pyval Sb) (p' c' : pv Sb) (s s' : ST) (v : pv Sb),
  timer_init text p a c = Ok (p', c') -> perform_typed_substitution yaml perf p' (Some (DScalar TFloat)) s = (s', Ok v) ->
  (exists f, v = PFloat f) /\ (forall f, p = VFloat f -> v = PFloat f /\ s' = s) /\
  (forall t, p = VStr t -> exists f, py_float t = Some f /\ v = PFloat f /\ s' = s).
Proof. exact @timer_waits. Qed.
Print Assumptions C98_timer_waits.

(** C98: where substitutions are wanted a text, a substitution, or several of them are accepted, and kept
    in their order; nothing else is, but a class of substitutions. *)
Theorem C98_substitutions : forall (Sb : Type) (text : string -> Sb) (v : pyval Sb) (r : list (pyval Sb)),
  (normalize_subs text v = Ok r <-> (exists xs, some_substitutions text v xs /\ r = map VSub xs) \/ v = VSubClass /\ r = [VSubClass]) /\
  ((forall r, normalize_subs text v <> Ok r) -> normalize_subs text v = Exn XType).
Proof. intros Sb text v r. split; [apply subs_iff|apply subs_exn]. Qed.
Print Assumptions C98_substitutions.
(** C98: it is NOT true that what is kept are substitutions: a class that was given instead of an object
    of it is kept, too. *)
Theorem C98_class_refuted : exists (v : pyval nat) (r : list (pyval nat)),
  normalize_subs (fun _ => 0) v = Ok r /\ ~ Forall (fun x => exists y, x = VSub y) r.
Proof. exists VSubClass, [VSubClass]. split; [reflexivity|]. intros H. inversion H as [|? ? [y Hy]]. discriminate. Qed.
Print Assumptions C98_class_refuted.

(** C98: an OpaqueFunction accepts what can be called, any arguments that can be iterated or none, and a
    dictionary or none; ... *)
Theorem C98_function : forall (Sb : Type) (f a k : pyval Sb),
  ((exists o, opaque_function_init f a k = Ok o) <->
   callable f = true /\ (exists l, gives_args a l) /\ (exists ks, gives_kwargs k ks)) /\
  ((forall o, opaque_function_init f a k <> Ok o) -> opaque_function_init f a k = Exn XType).
Proof. intros Sb f a k. split; [apply function_iff|apply function_fails]. Qed.
Print Assumptions C98_function.
(** ... every time it is executed it calls the function with the context and all the arguments, if they
    can be iterated again; ... *)
Theorem C98_function_calls : forall (Sb : Type) (n : nat) (f a k : pyval Sb) (o : opaque Sb) (l : list (pyval Sb)) (ks : list (string * pyval Sb)),
  opaque_function_init f a k = Ok o -> gives_args a l -> gives_kwargs k (named ks) -> ~ used_up a ->
  opaque_executions n o = repeat (Ok {| c_context := true; c_args := l; c_kwargs := ks |}) n.
Proof. intros Sb n f a k o l ks ->%function_keeps. apply keeps_again. Qed.
Print Assumptions C98_function_calls.
(** ... but arguments that can be iterated once reach the first call only. *)
Theorem C98_function_once : forall (Sb : Type) (n : nat) (f k : pyval Sb) (o : opaque Sb) (l : list (pyval Sb)) (ks : list (string * pyval Sb)),
  opaque_function_init f (VIterator l) k = Ok o -> gives_kwargs k (named ks) ->
  opaque_executions (S n) o =
    Ok {| c_context := true; c_args := l; c_kwargs := ks |} :: repeat (Ok {| c_context := true; c_args := []; c_kwargs := ks |}) n.
Proof. intros Sb n f k o l ks ->%function_keeps. apply keeps_once. Qed.
Print Assumptions C98_function_once.
(** C98: names that are no text are accepted, and make every call raise. *)
Theorem C98_function_names : forall (Sb : Type) (n : nat) (f a k : pyval Sb) (o : opaque Sb) (l : list (pyval Sb)) (ks : list (pyval Sb * pyval Sb)),
  opaque_function_init f a k = Ok o -> gives_args a l -> gives_kwargs k ks -> (forall k', ks <> named k') ->
  opaque_executions n o = repeat (Exn XType) n.
Proof. intros Sb n f a k o l ks ->%function_keeps. apply keeps_fails. Qed.
Print Assumptions C98_function_names.

(** C98: an OpaqueCoroutine accepts the same with a coroutine function, and passes the context unless it
    is told to ignore it. *)
Theorem C98_coroutine : forall (Sb : Type) (n : nat) (f a k i : pyval Sb),
  ((exists o, opaque_coroutine_init f a k i = Ok o) <->
   f = VFunction true /\ (exists l, gives_args a l) /\ (exists ks, gives_kwargs k ks) /\ exists b, i = VBool b) /\
  (forall o l ks b, opaque_coroutine_init f a k i = Ok o -> gives_args a l -> gives_kwargs k (named ks) -> i = VBool b ->
   (~ used_up a -> opaque_executions n o = repeat (Ok {| c_context := negb b; c_args := l; c_kwargs := ks |}) n) /\
   opaque_executions 1 o = [Ok {| c_context := negb b; c_args := l; c_kwargs := ks |}]).
Proof.
  intros Sb n f a k i. split; [apply coroutine_iff|]. intros o l ks b (b' & E & ->)%coroutine_keeps Ha Hk ->. injection E as <-.
  split; [by apply keeps_again|]. destruct a; try solve [apply (keeps_again 1); [assumption|assumption|intros []]].
  inversion Ha as [|? ? Hi| |]; subst; [inversion Hi|]. by apply (keeps_once 0).
Qed.
Print Assumptions C98_coroutine.

Example C98_examples :
  timer_init (Sb:=nat) (fun _ => 7) (VInt 5) (VList []) (VBool true) = Exn XType /\
  timer_init (Sb:=nat) (fun _ => 7) (VStr "five") (VList []) (VBool true) = Exn XValue /\
  timer_init (Sb:=nat) (fun _ => 7) (VList [VStr "1"]) (VList []) (VBool true) = Exn XType /\
  timer_init (Sb:=nat) (fun _ => 7) (VTuple [VStr "1"; VSub 3]) (VTuple []) (VSub 2) = Ok (PList [PSub 7; PSub 3], PList [PSub 2]) /\
  (exists o, opaque_function_init (Sb:=nat) (VFunction false) (VStr "ab") (VDict [(VStr "n", VInt 1)]) = Ok o /\
     opaque_executions 2 o = repeat (Ok {| c_context := true; c_args := [VStr "a"; VStr "b"]; c_kwargs := [("n", VInt 1)] |}) 2).
Proof. repeat split; try (vm_compute; reflexivity). eexists. split; vm_compute; reflexivity. Qed.
