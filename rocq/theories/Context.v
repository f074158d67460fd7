(** Methods of LaunchContext, launch/launch/launch_context.py. *)
From Verif Require Export State.

(** would_handle_event and register use [matches], event_handler.py:76-78;
    class tests as in class_tools.py:34-41; on_action_event_base.py:76-84. *)
Definition ev_class (e : event) : option (ecls * aid) :=
  match e with
  | EvComplete a => Some (CComplete, a)
  | EvStarted a _ => Some (CStart, a)
  | EvExited a _ _ => Some (CExit, a)
  | EvIO a _ _ _ => Some (CIO, a)
  | EvStdin a _ => Some (CIO, a)
  | _ => None
  end.
Definition ecls_eqb (x y : ecls) : bool :=
  match x, y with
  | CComplete, CComplete | CStart, CStart | CExit, CExit | CIO, CIO => true
  | _, _ => false
  end.
Definition tgt_matches (w : world) (t : tgt) (a : aid) : bool :=
  match t with TgtAny => true | TgtAct b => bool_decide (a = b) | TgtFun n => w_tgt w n a end.
Definition m_matches (w : world) (m : matcher) (e : event) : bool :=
  match m with
  | MInclude => match e with EvInclude _ => true | _ => false end
  | MShutdown => match e with EvShutdown _ _ => true | _ => false end
  | MTimer => match e with EvTimer _ => true | _ => false end
  | MShutdownProc => match e with EvShutdownProcess _ => true | _ => false end
  | MSignalProc => match e with EvSignalProcess _ _ => true | _ => false end
  | MAct c t => match ev_class e with
                | Some (c', a) => ecls_eqb c c' && tgt_matches w t a
                | None => false
                end
  | MFun n => w_match w n e
  end.
Definition matches (w : world) (h : handler) (e : event) : bool := m_matches w (h_match h) e.

(** launch_context.py:106-107 *)
Definition push_locals (c : ctx) : ctx := c <| locals_stack ::= cons (locals c) |>.
(** launch_context.py:109-113 *)
Definition pop_locals (c : ctx) : ctx * res unit :=
  match locals_stack c with
  | [] => (c, Exn XRuntime)
  | l :: r => (c <| locals := l |> <| locals_stack := r |> <| cache := None |>, Ok tt)
  end.
(** launch_context.py:115-123; dict.update with one key or several *)
Definition extend_globals (m : dict lval) (c : ctx) : ctx :=
  c <| globals := m ∪ globals c |> <| cache := None |>.
(** launch_context.py:125-128 *)
Definition extend_locals (m : dict lval) (c : ctx) : ctx :=
  c <| locals := m ∪ locals c |> <| cache := None |>.
(** launch_context.py:133-137: returns the dict and fills the cache *)
Definition get_combined_locals (c : ctx) : ctx * dict lval :=
  match cache c with
  | Some d => (c, d)
  | None => let d := locals c ∪ globals c in (c <| cache := Some d |>, d)
  end.
(** context.locals.key, launch_context.py:143-165 *)
Definition get_local (k : string) (c : ctx) : ctx * res lval :=
  let '(c', d) := get_combined_locals c in
  (c', match d !! k with Some v => Ok v | None => Exn XAttr end).

(** launch_context.py:167-168 *)
Definition push_env (c : ctx) : ctx := c <| env_stack ::= cons (env c) |>.
(** launch_context.py:170-184 *)
Definition pop_env (c : ctx) : ctx * res unit :=
  match env_stack c with
  | [] => (c, Exn XRuntime)
  | e :: r => (c <| env := e |> <| env_stack := r |>, Ok tt)
  end.
(** launch_context.py:186-189 *)
Definition reset_env (c : ctx) : ctx := c <| env := env_reset c |>.
(** launch_context.py:191-192 *)
Definition push_lc (c : ctx) : ctx := c <| lc_stack ::= cons (lc c) |>.
(** launch_context.py:194-197 *)
Definition pop_lc (c : ctx) : ctx * res unit :=
  match lc_stack c with
  | [] => (c, Exn XRuntime)
  | l :: r => (c <| lc := l |> <| lc_stack := r |>, Ok tt)
  end.
Definition set_lc (k v : string) (c : ctx) : ctx := c <| lc ::= <[k := v]> |>.
Definition del_lc (k : string) (c : ctx) : ctx := c <| lc ::= delete k |>.
Definition set_env (k v : string) (c : ctx) : ctx := c <| env ::= <[k := v]> |>.
Definition del_env (k : string) (c : ctx) : ctx := c <| env ::= delete k |>.

(** launch_context.py:209-211 *)
Definition would_handle_event (w : world) (e : event) (c : ctx) : bool :=
  existsb (fun h => matches w h e) (handlers c).
(** launch_context.py:213-223 *)
Definition register_event_handler (h : handler) (append : bool) (c : ctx) : ctx :=
  if append then c <| handlers ::= fun l => l ++ [h] |> else c <| handlers ::= cons h |>.
(** deque.remove(x): removes the first element that is x *)
Fixpoint remove_first (i : hid) (l : list handler) : option (list handler) :=
  match l with
  | [] => None
  | h :: l' => if bool_decide (h_id h = i) then Some l'
               else match remove_first i l' with Some r => Some (h :: r) | None => None end
  end.
(** launch_context.py:225-227; ValueError when absent *)
Definition unregister_event_handler (i : hid) (c : ctx) : ctx * res unit :=
  match remove_first i (handlers c) with
  | Some l => (c <| handlers := l |>, Ok tt)
  | None => (c, Exn XValue)
  end.
(** launch_context.py:229-237 (the queue is unbounded: put never waits) *)
Definition emit_ctx (e : event) (c : ctx) : ctx := c <| queue ::= fun q => q ++ [e] |>.
Definition emit (e : event) (s : st) : st := obs1 (OEmit e) (s <| cx ::= emit_ctx e |>).

(** create_future on the running loop: AttributeError when the context has no loop *)
Definition new_future (s : st) : st * nat :=
  (s <| futs ::= <[next s := FPending]> |> <| next ::= S |>, next s).
Definition f_get (f : nat) (s : st) : fstate := default FPending (futs s !! f).
Definition f_is_done (f : nat) (s : st) : bool := f_done (f_get f s).
(** Future.set_result: InvalidStateError when already done (a reference to a future
    that does not exist cannot occur) *)
Definition set_result (f : nat) (s : st) : st * res unit :=
  match futs s !! f with
  | Some FPending => (s <| futs ::= <[f := FOk]> |>, Ok tt)
  | _ => (s, Exn XInvalidState)
  end.

Definition on_ctx {A} (f : ctx -> ctx * res A) (s : st) : st * res A :=
  let '(c, r) := f (cx s) in (s <| cx := c |>, r).

(** LaunchContext(), launch_context.py:39-74.  [e] is os.environ. *)
Definition new_ctx (nonint : bool) (e : dict string) : ctx :=
  mkCtx ∅ [] e [] e ∅ ∅ [] None [] [] [] false false false nonint 0.
