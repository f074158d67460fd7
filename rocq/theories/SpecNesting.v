(** Specifications used by the theorems about visits that end (C102). *)
From Verif Require Export SpecVisit.

(** The functions that the user gives, and the loading of launch files, return or raise. *)
Definition functions_return (w : world) : Prop :=
  (forall f ts c, w_sfun w f ts c <> OutOfFuel) /\ (forall f c, (w_fun w f c).2 <> OutOfFuel) /\
  (forall src loc n, w_load w src loc n <> OutOfFuel).
(** [below w n e s x s']: in the course of a visit of [e] that begins in [s], the entity [x] comes to be visited in
    [s'], [n] levels below [e]: it is among those that an entity returned that is [n - 1] levels below. *)
Inductive below (w : world) : nat -> entity -> st -> entity -> st -> Prop :=
| below_here e s : below w 0 e s e s
| below_sub n fuel e s before k after s1 ts fs s2 x s3 :
    visit_one w fuel e s = (s1, Ok (before ++ k :: after)) -> visit_runs w before s1 ts fs s2 ->
    below w n k s2 x s3 -> below w (S n) e s x s3.
(** [deep w c known n l]: what the entities [l] say they contain, as far as it can be told in advance, goes [n]
    levels deep. *)
Inductive deep (w : world) (c : ctx) (known : nat -> option (list entity)) : nat -> list entity -> Prop :=
| deep_any l : deep w c known 0 l
| deep_sub n e l l' : In e l ->
    l' = describe_sub_entities w c known e \/
    (exists ls, describe_conditional_sub_entities w c known e = Ok ls /\ In l' ls) ->
    deep w c known n l' -> deep w c known (S n) l.
(** [plain n e]: [e] is written with at most [n] levels of launch descriptions and groups, and without includes,
    functions and tests. *)
Definition simple (k : action) : bool :=
  match k with
  | AGroup _ _ _ _ | AInclude _ _ | AOpaque _ | ATest _ _ _ | IInclude | ITimerHandle | ITimerCancel _ | IProcShutdown _
  | IProcSignal _ | IEscalate _ | ITestStop _ => false
  | _ => true
  end.
Inductive plain : nat -> entity -> Prop :=
| plain_action n a c k : simple k = true -> plain n (EAct a c k)
| plain_group n a c sc fw cfgs body : Forall (plain n) body -> plain (S n) (EAct a c (AGroup sc fw cfgs body))
| plain_description n l : Forall (plain n) l -> plain (S n) (ELaunch l).
(** [contents w s src ld]: the entities of the file that an include names are [ld]: those that were loaded before [s],
    or that are loaded now. *)
Definition contents (w : world) (s : st) (src : nat) (ld : list entity) : Prop :=
  match known_srcs s src with Some l => ld = l | None => exists loc n, w_load w src loc n = Ok ld end.
(** [file_deep w s src n]: what that file contains goes [n] levels deep, where all files that have been loaded, this
    one among them, are followed. *)
Definition file_deep (w : world) (s : st) (src n : nat) : Prop :=
  exists ld c known, contents w s src ld /\ known src = Some ld /\ (forall y, y <> src -> known y = known_srcs s y) /\ deep w c known n ld.
