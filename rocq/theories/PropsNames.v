(** The properties of process names and environments (C33, C34). *)
From Coq Require Import ssreflect Sorting.Sorted.
From Verif Require Import SubstFacts SpecNames ExWorld NameFacts.

(** ** C33 *)
(** Preparing a process gives it the next number, whatever its name is. *)
Theorem C33_next_number : forall (w : world) c (s s' : st) d, prepare_executable w c s = (s', Ok d) ->
  (exists n, numbered d n (pcount s + 1)) /\ pcount s' = (pcount s + 1)%Z.
Proof. exact prepare_number. Qed.
Print Assumptions C33_next_number.

(** Nothing else decreases the counter. *)
Theorem C33_counter : forall (w : world) (s : st) ls (s' : st), reachable w s -> steps w s ls s' ->
  (0 <= pcount s <= pcount s')%Z.
Proof. exact count_steps. Qed.
Print Assumptions C33_counter.

(** So over any sequence of prepares the numbers increase ... *)
Theorem C33_increasing : forall (w : world) (s : st) ds (s' : st), prepares w s ds s' ->
  exists ks, Forall2 (fun d k => exists n, numbered d n k) ds ks /\ StronglySorted Z.lt ks /\
    Forall (fun k => pcount s < k)%Z ks.
Proof. exact prepares_numbers. Qed.
Print Assumptions C33_increasing.
(** ... and the names are pairwise different, as texts. *)
Theorem C33_different : forall (w : world) (s : st) ds (s' : st), prepares w s ds s' -> (0 <= pcount s)%Z ->
  NoDup (map d_name ds).
Proof. exact prepares_names. Qed.
Print Assumptions C33_different.

(** In terms of the events a user sees: two actions never announce processes of the same name. *)
Theorem C33_announced : forall (w : world) a b d d' (s : st), reachable w s ->
  announced_as a d s -> announced_as b d' s -> a <> b -> d_name d <> d_name d'.
Proof. exact names_differ. Qed.
Print Assumptions C33_announced.

(** Two actions whose names are such that a number could be confused: "p" and "p-1". *)
Definition ex_named (n : string) : pcfg :=
  mkPcfg [[SText "/bin/prog"]] None (Some [SText n]) None None None (BV false) None 0 false [SText "log"]
    [SText "5"] [SText "5"] false.
Definition ex_two : list label :=
  [LEmit (EvInclude [EAct (User 1) None (AExec (ex_named "p") HNone); EAct (User 2) None (AExec (ex_named "p-1") HNone)]);
   LRun true; LMain; LEvent 8; LTask 0; LTask 1; LSpawnOk 1 8; LSpawnOk 0 7; LTask 0; LTask 1].
Example C33_example :
  match exec w0 ex_two s0 with
  | Some s => omap (fun o => match o with OLife (EvStarted a d) => Some (a, d_name d) | _ => None end) (hist s) =
                [(User 1, "p-1"); (User 2, "p-1-2")] /\ pcount s = 2%Z
  | None => False
  end.
Proof. vm_compute. by repeat split. Qed.

(** ** C34 *)
(** The environment of a prepared process: the option env if given, otherwise the environment of
    the context, overridden by additional_env.  The context keeps its environment. *)
Theorem C34_environment : forall (w : world) c (s s' : st) d, prepare_executable w c s = (s', Ok d) ->
  exists c1 c2 base add, same_variables (cx s) c1 /\ env_option w (p_env c) (env (cx s)) c1 c2 base /\
    env_option w (p_addenv c) ∅ c2 (cx s') add /\ d_env d = add ∪ base /\ same_variables (cx s) (cx s').
Proof. exact prepare_env. Qed.
Print Assumptions C34_environment.

(** A process that is announced has the environment, the command and the working directory its
    action was prepared with. *)
Theorem C34_announced : forall (w : world) a d (s : st), reachable w s -> announced_as a d s ->
  exists c s1 s2 d0, config a s = Some c /\ prepare_executable w c s1 = (s2, Ok d0) /\ same_but_pid d0 d.
Proof. exact announced_prepared. Qed.
Print Assumptions C34_announced.

(** The context has HOME and, later in the list, a value set twice; env replaces, additional_env adds. *)
Definition ex_envs (e a : option (list (list subst * list subst))) : pcfg :=
  mkPcfg [[SText "/bin/prog"]] None (Some [SText "p"]) None e a (BV false) None 0 false [SText "log"]
    [SText "5"] [SText "5"] false.
Definition ex_env (e a : option (list (list subst * list subst))) : option (list (option string)) :=
  match prepare_executable w0 (ex_envs e a) s0 with
  | (s, Ok d) => Some (map (fun k => d_env d !! k) ["HOME"; "A"; "B"] ++ [env (cx s) !! "HOME"; env (cx s) !! "A"])
  | _ => None
  end.
Example C34_example :
  let t := fun x => [SText x] in
  ex_env None None = Some [Some "/root"; None; None; Some "/root"; None] /\
  ex_env None (Some [(t "A", t "1"); (t "HOME", t "/h"); (t "A", t "2")]) = Some [Some "/h"; Some "2"; None; Some "/root"; None] /\
  ex_env (Some [(t "A", t "1")]) None = Some [None; Some "1"; None; Some "/root"; None] /\
  ex_env (Some [(t "A", t "1")]) (Some [(t "B", t "2"); (t "A", t "3")]) = Some [None; Some "3"; Some "2"; Some "/root"; None].
Proof. vm_compute. by repeat split. Qed.
