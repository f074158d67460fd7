(** C99: launch descriptions that are added to while they are visited. *)
From Verif Require Import SpecGrowing GrowingFacts.

(** C99: a visit of a launch description that ends has visited all entities it has at its end, once
    and in order: those that were added on the way, whoever added them, are visited like the others. *)
Theorem C99_all : forall (run : nat -> list ent -> res (list (nat * ent) * list ent)) (fuel d : nat) (s s' : store) (ts : list tree),
  visit run fuel (Desc d) s = Ok (s', ts) ->
  exists l, ts = [T (Desc d) l] /\ map root l = lists s' d.
Proof.
  intros run fuel d s s' ts H. destruct (go_facts run fuel (One (Desc d)) s s' ts H) as (_ & _ & R & M).
  destruct ts as [|[e l] [|? ?]]; try discriminate. injection M as ->. exists l. split; [reflexivity|].
  destruct fuel as [|fuel]; [discriminate|]. unfold visit in H. cbn [go] in H.
  destruct (go run fuel (From d 0) (saw (Desc d) s)) as [[s1 us]| |] eqn:E; try discriminate. injection H as -> ->.
  apply go_facts in E as (_ & _ & _ & E). rewrite E. apply drop_0.
Qed.
Print Assumptions C99_all.

(** C99: ... and so it is with every description that is visited within a visit: what is visited there
    begins with what the description had before and is the beginning of what it has afterwards; what
    comes from a function is what the function returned. *)
Theorem C99_within : forall (run : nat -> list ent -> res (list (nat * ent) * list ent)) (fuel : nat) (e : ent) (s s' : store) (ts : list tree) (t u : tree),
  visit run fuel e s = Ok (s', ts) -> In u ts -> within t u ->
  match root t with
  | Desc d => exists l1 l2, map root (subs t) = lists s d ++ l1 /\ lists s' d = map root (subs t) ++ l2
  | Call n => exists before adds, run n before = Ok (adds, map root (subs t))
  end.
Proof. intros run fuel e s s' ts t u (_ & _ & R & _)%go_facts Hu W. exact (R t u Hu W). Qed.
Print Assumptions C99_within.

(** C99: nothing is lost or moved, and the visit is depth-first all the same. *)
Theorem C99_order : forall (run : nat -> list ent -> res (list (nat * ent) * list ent)) (fuel : nat) (e : ent) (s s' : store) (ts : list tree),
  visit run fuel e s = Ok (s', ts) ->
  grown s s' /\ exists l, ts = [T e l] /\ visited s' = visited s ++ preorder (T e l).
Proof.
  intros run fuel e s s' ts (G & V & _ & M)%go_facts. split; [exact G|].
  destruct ts as [|[e' l] [|? ?]]; try discriminate. injection M as ->. exists l. split; [reflexivity|].
  rewrite V. cbn [flat_map]. by rewrite app_nil_r.
Qed.
Print Assumptions C99_order.

(** C99: how far a visit is followed does not matter once it ends. *)
Theorem C99_enough : forall (run : nat -> list ent -> res (list (nat * ent) * list ent)) (fuel n : nat) (e : ent) (s : store),
  visit run fuel e s <> OutOfFuel -> visit run (n + fuel) e s = visit run fuel e s.
Proof. intros run fuel n e s. apply go_enough. Qed.
Print Assumptions C99_enough.

(** C99: so a function that adds its own action to the description it is in makes the visit go on
    forever. *)
Theorem C99_forever : forall (run : nat -> list ent -> res (list (nat * ent) * list ent)) (n d fuel : nat) (s : store),
  (forall before, run n before = Ok ([(d, Call n)], [])) -> lists s d = [Call n] -> visit run fuel (Desc d) s = OutOfFuel.
Proof.
  intros run n d [|fuel] s Hr Hl; [reflexivity|]. unfold visit. cbn [go]. rewrite (go_forever run n d Hr); [reflexivity| |].
  - cbn [lists saw]. rewrite Hl. by repeat constructor.
  - cbn [lists saw]. rewrite Hl. cbn. lia.
Qed.
Print Assumptions C99_forever.

(** Function 1 adds 2 to description 0, in which it is, and to 1, which is in 0; 2 returns 3 and adds
    4 to description 0 when it is called first. *)
Definition ex_run (n : nat) (before : list ent) : res (list (nat * ent) * list ent) :=
  match n with
  | 1 => Ok ([(0, Call 2); (1, Call 2)], [])
  | 2 => Ok (if existsb (fun e => bool_decide (e = Call 2)) before then [] else [(0, Call 4)], [Call 3])
  | _ => Ok ([], [])
  end.
Example C99_example :
  let s := {| lists := fun d => match d with 0 => [Call 1; Desc 1] | 1 => [Call 5] | _ => [] end; visited := [] |} in
  exists s', visit ex_run 30 (Desc 0) s = Ok (s', [T (Desc 0)
      [T (Call 1) []; T (Desc 1) [T (Call 5) []; T (Call 2) [T (Call 3) []]]; T (Call 2) [T (Call 3) []]; T (Call 4) []]]) /\
    lists s' 0 = [Call 1; Desc 1; Call 2; Call 4].
Proof. eexists. split; vm_compute; reflexivity. Qed.
