(** Specifications used by the theorems about LaunchContext (C03, C04, C14). *)
From Verif Require Export Context.

(** ** Histories of the three scoped stores of a context *)
(** Operations on a context, one per method; [CRead] is a read of context.locals. *)
Inductive cop :=
| CPushLC | CPopLC | CSetLC (k v : string) | CDelLC (k : string)
| CPushEnv | CPopEnv | CSetEnv (k v : string) | CDelEnv (k : string) | CResetEnv
| CPushLocals | CPopLocals | CLocals (m : dict lval) | CGlobals (m : dict lval)
| CRead.

Definition do_cop (o : cop) (c : ctx) : ctx * res unit :=
  match o with
  | CPushLC => (push_lc c, Ok tt)
  | CPopLC => pop_lc c
  | CSetLC k v => (set_lc k v c, Ok tt)
  | CDelLC k => (del_lc k c, Ok tt)
  | CPushEnv => (push_env c, Ok tt)
  | CPopEnv => pop_env c
  | CSetEnv k v => (set_env k v c, Ok tt)
  | CDelEnv k => (del_env k c, Ok tt)
  | CResetEnv => (reset_env c, Ok tt)
  | CPushLocals => (push_locals c, Ok tt)
  | CPopLocals => pop_locals c
  | CLocals m => (extend_locals m c, Ok tt)
  | CGlobals m => (extend_globals m c, Ok tt)
  | CRead => ((get_combined_locals c).1, Ok tt)
  end.
(** A caller may catch the exception of a pop and go on. *)
Definition history (os : list cop) (c : ctx) : ctx :=
  fold_left (fun c o => (do_cop o c).1) os c.

Inductive store := StLC | StEnv | StLocals.
Definition push_of (k : store) : cop :=
  match k with StLC => CPushLC | StEnv => CPushEnv | StLocals => CPushLocals end.
Definition pop_of (k : store) : cop :=
  match k with StLC => CPopLC | StEnv => CPopEnv | StLocals => CPopLocals end.
Definition is_push (k : store) (o : cop) : bool :=
  match k, o with
  | StLC, CPushLC | StEnv, CPushEnv | StLocals, CPushLocals => true | _, _ => false end.
Definition is_pop (k : store) (o : cop) : bool :=
  match k, o with
  | StLC, CPopLC | StEnv, CPopEnv | StLocals, CPopLocals => true | _, _ => false end.
Definition pushes (k : store) (os : list cop) : nat := length (List.filter (is_push k) os).
Definition pops (k : store) (os : list cop) : nat := length (List.filter (is_pop k) os).

(** Every pop in [os] has a matching earlier push in [os], and every push a
    matching later pop. *)
Definition balanced (k : store) (os : list cop) : Prop :=
  (forall p q, os = p ++ q -> pops k p <= pushes k p)%nat /\ pops k os = pushes k os.

(** The visible content of a store: launch configurations, environment, locals. *)
Definition content (k : store) (c : ctx) : dict string + dict lval :=
  match k with StLC => inl (lc c) | StEnv => inl (env c) | StLocals => inr (locals c) end.

(** [os] touches store [k]. *)
Definition touches (k : store) (o : cop) : bool :=
  match k, o with
  | StLC, (CPushLC | CPopLC | CSetLC _ _ | CDelLC _) => true
  | StEnv, (CPushEnv | CPopEnv | CSetEnv _ _ | CDelEnv _ | CResetEnv) => true
  | StLocals, (CPushLocals | CPopLocals | CLocals _) => true
  | _, _ => false
  end.

(** ** What context.locals must show (no cache here) *)
(** Value of [key] after a history: walk backwards.  [skip] counts pops whose
    matching push has not been met yet. *)
Fixpoint last_local (key : string) (skip : nat) (rev_os : list cop) : option lval :=
  match rev_os with
  | [] => None
  | CPopLocals :: os => last_local key (S skip) os
  | CPushLocals :: os => last_local key (Nat.pred skip) os
  | CLocals m :: os =>
      match skip, m !! key with
      | O, Some v => Some v
      | _, _ => last_local key skip os
      end
  | _ :: os => last_local key skip os
  end.
Fixpoint last_global (key : string) (rev_os : list cop) : option lval :=
  match rev_os with
  | [] => None
  | CGlobals m :: os => match m !! key with Some v => Some v | None => last_global key os end
  | _ :: os => last_global key os
  end.
(** Extensions that have not been popped, newest first, else the newest global. *)
Definition visible (key : string) (os : list cop) : option lval :=
  match last_local key 0 (rev os) with
  | Some v => Some v
  | None => last_global key (rev os)
  end.

(** ** Registered handlers *)
Definition occurrences (i : hid) (l : list handler) : nat :=
  length (List.filter (fun h => bool_decide (h_id h = i)) l).
