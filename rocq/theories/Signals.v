(** Model of the signal managers (launch/launch/utilities/signal_management.py), on POSIX and
    in the main thread.  Python's own signal handlers are not modelled: the manager never
    touches them. *)
From Verif Require Export Base.

(** File descriptors given to [signal.set_wakeup_fd]: -1, the writing end of a manager's
    socket pair (each pair has its own number), or any other descriptor. *)
Inductive fd := NoFd | SockFd (s : nat) | ExtFd (e : nat).
Global Instance fd_eq_dec : EqDecision fd.
Proof. solve_decision. Defined.

(** signal_management.py:67-83 [__init__].  [sg_sock] is the socket pair while the manager is
    entered, [sg_data] what can be read from it.  Handlers are referred to by numbers. *)
Record mgr := {
  sg_sock : option nat;
  sg_data : list nat;
  sg_prev : fd;
  sg_handlers : gmap nat nat;
  sg_parent : option nat }.
Definition new_mgr : mgr := {| sg_sock := None; sg_data := []; sg_prev := NoFd; sg_handlers := ∅; sg_parent := None |}.

(** What can be observed: handlers called, data written to other descriptors, what
    [signal.set_wakeup_fd] returned, and failed assertions. *)
Inductive sobs :=
| SCalled (m : nat) (signum : nat) (h : nat)
| SWritten (e : nat) (data : list nat)
| SReturned (f : fd)
| SAssertion (m : nat)
| SRaised (m : nat) (h : nat).

(** [sg_patched]: the manager that handles calls of [signal.set_wakeup_fd]; none: python's own
    function.  [sg_wakeup]: the descriptor that python writes signals to. *)
Record sgst := {
  sg_wakeup : fd;
  sg_current : option nat;
  sg_patched : option nat;
  sg_mgrs : nat -> mgr;
  sg_next : nat;
  sg_obs : list sobs }.

Definition upd (f : nat -> mgr) (m : nat) (x : mgr) : nat -> mgr := fun k => if Nat.eqb k m then x else f k.
Definition with_mgr (m : nat) (g : mgr -> mgr) (st : sgst) : sgst :=
  {| sg_wakeup := sg_wakeup st; sg_current := sg_current st; sg_patched := sg_patched st;
     sg_mgrs := upd (sg_mgrs st) m (g (sg_mgrs st m)); sg_next := sg_next st; sg_obs := sg_obs st |}.
Definition observe (l : list sobs) (st : sgst) : sgst :=
  {| sg_wakeup := sg_wakeup st; sg_current := sg_current st; sg_patched := sg_patched st;
     sg_mgrs := sg_mgrs st; sg_next := sg_next st; sg_obs := sg_obs st ++ l |}.
Definition set_data (d : list nat) (x : mgr) : mgr :=
  {| sg_sock := sg_sock x; sg_data := d; sg_prev := sg_prev x; sg_handlers := sg_handlers x; sg_parent := sg_parent x |}.
Definition set_prev (f : fd) (x : mgr) : mgr :=
  {| sg_sock := sg_sock x; sg_data := sg_data x; sg_prev := f; sg_handlers := sg_handlers x; sg_parent := sg_parent x |}.

(** Writing to a descriptor: to the reader of the socket pair, if it is still open. *)
Definition write_fd (f : fd) (data : list nat) (st : sgst) : sgst :=
  match f with
  | NoFd => st
  | ExtFd e => observe [SWritten e data] st
  | SockFd s =>
      {| sg_wakeup := sg_wakeup st; sg_current := sg_current st; sg_patched := sg_patched st;
         sg_mgrs := fun k => let x := sg_mgrs st k in if bool_decide (sg_sock x = Some s) then set_data (sg_data x ++ data) x else x;
         sg_next := sg_next st; sg_obs := sg_obs st |}
  end.

(** signal_management.py:85-108 [__enter__], 153-160 [__install_signal_writers], 167-180 [__chain]. *)
Definition s_enter (m : nat) (st : sgst) : sgst :=
  let sock := sg_next st in
  {| sg_wakeup := SockFd sock;
     sg_current := Some m;
     sg_patched := match sg_current st with None => Some m | Some _ => sg_patched st end;
     sg_mgrs := upd (sg_mgrs st) m
       {| sg_sock := Some sock; sg_data := []; sg_prev := sg_wakeup st; sg_handlers := sg_handlers (sg_mgrs st m); sg_parent := sg_current st |};
     sg_next := S sock; sg_obs := sg_obs st |}.

(** signal_management.py:110-121 [__exit__], 162-165 [__uninstall_signal_writers], 182-185
    [__unchain].  The manager keeps the reference to its parent. *)
Definition s_exit (m : nat) (st : sgst) : sgst :=
  let x := sg_mgrs st m in
  match sg_sock x with
  | None => st   (* not entered: an error before anything is done *)
  | Some sock =>
      {| sg_wakeup := sg_prev x;
         sg_current := sg_parent x;
         sg_patched := match sg_parent x with None => None | Some _ => sg_patched st end;
         sg_mgrs := upd (sg_mgrs st) m
           {| sg_sock := None; sg_data := []; sg_prev := NoFd; sg_handlers := sg_handlers x; sg_parent := sg_parent x |};
         sg_next := sg_next st;
         sg_obs := sg_obs st ++ (if bool_decide (sg_wakeup st = SockFd sock) then [] else [SAssertion m]) |}
  end.

(** signal_management.py:170-180, 187-201: [signal.set_wakeup_fd] as other code calls it. *)
Definition s_set_wakeup (f : fd) (st : sgst) : sgst :=
  match sg_patched st with
  | Some r => observe [SReturned (sg_prev (sg_mgrs st r))] (with_mgr r (set_prev f) st)
  | None =>
      {| sg_wakeup := f; sg_current := sg_current st; sg_patched := None; sg_mgrs := sg_mgrs st; sg_next := sg_next st;
         sg_obs := sg_obs st ++ [SReturned (sg_wakeup st)] |}
  end.

(** signal_management.py:209-212: the handlers called for some data; [raises h] says that
    handler [h] raises, which ends the loop. *)
Fixpoint s_call (raises : nat -> bool) (m : nat) (hs : gmap nat nat) (data : list nat) : list sobs * bool :=
  match data with
  | [] => ([], true)
  | n :: data' =>
      match hs !! n with
      | None => s_call raises m hs data'
      | Some h =>
          if raises h then ([SCalled m n h; SRaised m h], false)
          else let '(l, ok) := s_call raises m hs data' in (SCalled m n h :: l, ok)
      end
  end.

(** signal_management.py:203-222 [__handle_signal]: data is read in pieces of at most [cap]
    bytes.  A manager that is not entered has no reader. *)
Fixpoint s_handle_loop (raises : nat -> bool) (cap : nat) (m : nat) (fuel : nat) (st : sgst) : sgst :=
  match fuel with
  | O => st
  | S fuel =>
      let x := sg_mgrs st m in
      match take cap (sg_data x) with
      | [] => st
      | data =>
          let st := with_mgr m (set_data (drop cap (sg_data x))) st in
          let '(l, ok) := s_call raises m (sg_handlers x) data in
          let st := observe l st in
          if ok then s_handle_loop raises cap m fuel (write_fd (sg_prev x) data st) else st
      end
  end.
Definition s_handle_signal (raises : nat -> bool) (cap : nat) (m : nat) (st : sgst) : sgst :=
  match sg_sock (sg_mgrs st m) with
  | None => st
  | Some _ => s_handle_loop raises cap m (S (length (sg_data (sg_mgrs st m)))) st
  end.

(** signal_management.py:224-245 [handle]. *)
Definition s_register (m signum : nat) (h : option nat) (st : sgst) : sgst :=
  with_mgr m (fun x =>
    {| sg_sock := sg_sock x; sg_data := sg_data x; sg_prev := sg_prev x;
       sg_handlers := match h with Some h => <[signum := h]> (sg_handlers x) | None => delete signum (sg_handlers x) end;
       sg_parent := sg_parent x |}) st.

(** ** Histories *)
Inductive sop :=
| SEnter (m : nat)
| SExit (m : nat)
| SSet (f : fd)                               (* other code calls signal.set_wakeup_fd *)
| SSignal (n : nat)                           (* a signal arrives *)
| SRead (m : nat)                             (* the event loop calls the manager's reader *)
| SHandle (m signum : nat) (h : option nat).  (* manager.handle(signum, handler) *)
Definition sstep (raises : nat -> bool) (cap : nat) (st : sgst) (o : sop) : sgst :=
  match o with
  | SEnter m => s_enter m st
  | SExit m => s_exit m st
  | SSet f => s_set_wakeup f st
  | SSignal n => write_fd (sg_wakeup st) [n] st
  | SRead m => s_handle_signal raises cap m st
  | SHandle m n h => s_register m n h st
  end.
Definition srun (raises : nat -> bool) (cap : nat) (st : sgst) (l : list sop) : sgst := fold_left (sstep raises cap) l st.
Definition s_start (f : fd) : sgst :=
  {| sg_wakeup := f; sg_current := None; sg_patched := None; sg_mgrs := fun _ => new_mgr; sg_next := 0; sg_obs := [] |}.
