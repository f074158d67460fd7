(** A concrete world, used by the examples only. *)
From Verif Require Export Service.
From stdpp Require Import pretty.

Definition ex_yaml (s : string) : option (pv subst) :=
  if String.eqb s "true" || String.eqb s "True" || String.eqb s "yes" then Some (PBool true)
  else if String.eqb s "false" || String.eqb s "False" || String.eqb s "no" then Some (PBool false)
  else if String.eqb s "[1, 2]" then Some (PList [PInt 1; PInt 2])
  else if String.eqb s "[" then None
  else match py_int s with
       | Some z => Some (PInt z)
       | None => match py_float s with Some f => Some (PFloat f) | None => Some (PStr s) end
       end.
Definition w0 : world := mkWorld
  ex_yaml
  (fun _ ts _ => Ok (concat_str ts))
  (fun n k => (n ++ "_" ++ pretty k)%string)
  (fun n _ => Nat.even n)
  (fun n e => match e with EvUser m => Nat.eqb n m | _ => false end)
  (fun n a => match a with User m => Nat.eqb n m | _ => false end)
  (fun n a => match a with User m => Nat.eqb n m | _ => false end)
  (fun _ _ => ([], Ok []))
  (fun _ _ _ => Ok [])
  (fun n => [SText "/launch/main.py"])
  (fun p => p)
  (fun p => "/launch")
  (fun p => [p])
  (fun _ _ => true)
  (fun _ => true).
Definition c0 : ctx := new_ctx false {["HOME" := "/root"]}.
(** Executing a list of labels. *)
Fixpoint exec (w : world) (ls : list label) (s : st) : option st :=
  match ls with
  | [] => Some s
  | l :: ls' => match step w l s with Some s' => exec w ls' s' | None => None end
  end.
Definition s0 : st := init false {["HOME" := "/root"]}.
(** [w0] with callables: 1 adds a local and emits, 2 raises, 3 registers handler 50 for
    event 5, 4 unregisters handler 51. *)
Definition h50 : handler := MkH (User 50) (MFun 5) false (HFun 0).
Definition w1 : world := mkWorld
  (w_yaml w0) (w_sfun w0) (w_rand w0) (w_cond w0) (w_match w0) (w_tgt w0) (w_pmatch w0)
  (fun n _ => if Nat.eqb n 1 then ([OpLocal "x" (LOther 1); OpEmit (EvUser 6)], Ok [])
              else if Nat.eqb n 2 then ([OpLocal "y" (LOther 2)], Exn XRuntime)
              else if Nat.eqb n 3 then ([OpRegister h50 true], Ok [])
              else if Nat.eqb n 4 then ([OpUnregister (User 51)], Ok [])
              else ([], Ok []))
  (w_load w0) (w_loc w0) (w_abspath w0) (w_launchdir w0) (w_shlex w0) (w_rematch w0) (w_output_ok w0).
(** A world with launch files: 1 declares x with a default; 2 requires x; 3 includes 4 in
    a group, giving x and y, and requires x itself; 4 requires y. *)
Definition w2 : world := mkWorld
  (w_yaml w0) (w_sfun w0) (w_rand w0) (w_cond w0) (w_match w0) (w_tgt w0) (w_pmatch w0) (w_fun w0)
  (fun n _ _ =>
    let decl x d := EAct (User (100 + n)) None (ADeclare x d None) in
    if Nat.eqb n 1 then Ok [decl "x" (Some [SText "d"])]
    else if Nat.eqb n 2 then Ok [decl "x" None]
    else if Nat.eqb n 3 then Ok [EAct (User 7) None (AGroup true true []
          [EAct (User 8) None (AInclude 4 [([SText "x"], [SText "1"]); ([SText "y"], [SText "2"])])]);
          decl "x" None]
    else if Nat.eqb n 4 then Ok [decl "y" None]
    else Exn XRuntime)
  (w_loc w0) (w_abspath w0) (w_launchdir w0) (w_shlex w0) (w_rematch w0) (w_output_ok w0).

(** A process action with the given respawn options, and the labels that execute it in a
    running service. *)
Definition ex_cfg (respawn : bool) (delay : option Q) (n : Z) : pcfg :=
  mkPcfg [[SText "/bin/prog"]] None (Some [SText "prog"]) None None None (BV respawn) delay n false [SText "log"]
    [SText "5"] [SText "5"] false.
Definition ex_proc (c : pcfg) : entity := EAct (User 1) None (AExec c HNone).
Definition ex_start (c : pcfg) : list label := [LEmit (EvInclude [ex_proc c]); LRun true; LMain; LEvent 5].
(** Taking one event. *)
Definition ex_event : list label := [LWake; LMain; LEvent 8].
(** Short names of observations. *)
Definition ex_tag (o : obs) : string :=
  match o with
  | OSpawn _ _ => "spawn" | OReap _ _ => "reap" | OLife (EvStarted _ _) => "started" | OLife (EvExited _ _ _) => "exited"
  | OSignal _ SIGINT => "sigint" | OSignal _ SIGTERM => "sigterm" | OSignal _ SIGKILL => "sigkill" | OSignal _ _ => "signal"
  | _ => ""
  end.
(** The history of the process action of [ex_start], by short names. *)
Definition ex_history (w : world) (ls : list label) : option (list string) :=
  match exec w ls s0 with Some s => Some (List.filter (fun x => negb (String.eqb x "")) (map ex_tag (rev (log s)))) | None => None end.
(** The process starts with pid 7 and exits with code 3. *)
Definition ex_up : list label := [LTask 0; LSpawnOk 0 7; LTask 0].
Definition ex_down : list label := [LExit 0 3; LTask 0].

Definition ex_shutdown : list label := LEmit (EvShutdown "x" false) :: ex_event ++ ex_event ++ ex_event.
