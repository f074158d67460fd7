(** What a user can ask a process action, execute_local.py:725-757. *)
From Verif Require Export Service.

(** get_stdout, get_stderr, execute_local.py:727-750: only with cached_output.  An action
    that was never executed has empty buffers; the model does not know its options then. *)
Definition get_output (fd : stream) (a : aid) (s : st) : res string :=
  match procs s !! a with
  | None => Ok ""
  | Some p => if p_cached (x_cfg p) then Ok (b_text (match fd with Stdout => x_out p | Stderr => x_err p end))
              else Exn XRuntime
  end.
