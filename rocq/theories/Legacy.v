(** Model of the test service of launch_testing/launch_testing/legacy/__init__.py and of the
    output tests of legacy/output.py. *)
From Verif Require Export Base.

(** ** bytes.splitlines *)
Definition crc : ascii := "013"%char.
(** [cur]: the line so far. *)
Fixpoint split_lines (cur : string) (s : string) : list string :=
  match s with
  | EmptyString => match cur with EmptyString => [] | _ => [cur] end
  | String c r =>
      if Ascii.eqb c nl then cur :: split_lines "" r
      else if Ascii.eqb c crc
      then match r with
           | String d r' => if Ascii.eqb d nl then cur :: split_lines "" r' else cur :: split_lines "" r
           | EmptyString => [cur]
           end
      else split_lines (cur ++ String c "") r
  end.
Definition splitlines (s : string) : list string := split_lines "" s.

(** ** The test service *)
(** Values of the dictionary of tests (34-86). *)
Inductive tstat := SArmed | SFinished | SDropped | SFailed | SSucceeded.
Global Instance tstat_eq_dec : EqDecision tstat.
Proof. solve_decision. Defined.
(** Names of tests (130, 191): of an action, or of its output and a suffix. *)
Definition tname : Type := nat * option nat.
(** Reasons of Shutdown events. *)
Inductive shut := AllFinished | AfterTest | TestFailed (t : tname) | FixtureDied (p : nat).
(** Expected output: a line (output.py:93-102) or a compiled pattern (105-114). *)
Inductive pat := PText (s : string) | PRegex (r : nat).
(** [bool(pattern)] *)
Definition truthy (p : pat) : bool := match p with PText EmptyString => false | _ => true end.
(** The dictionaries of tests and of return codes of processes, in order, and the variables
    [out] and [match_patterns] of the output tests. *)
Record lts := { lt_tests : list (tname * tstat); lt_rcs : list (nat * Z); lt_outs : list (tname * (string * list pat)) }.
(** d[k] = v: a new key is last. *)
Fixpoint dset {K V} `{EqDecision K} (k : K) (v : V) (l : list (K * V)) : list (K * V) :=
  match l with
  | [] => [(k, v)]
  | (k', v') :: l' => if bool_decide (k = k') then (k', v) :: l' else (k', v') :: dset k v l'
  end.
Fixpoint dget {K V} `{EqDecision K} (k : K) (l : list (K * V)) : option V :=
  match l with [] => None | (k', v) :: l' => if bool_decide (k = k') then Some v else dget k l' end.

Definition set_stat (t : tname) (s : tstat) (st : lts) : lts :=
  {| lt_tests := dset t s (lt_tests st); lt_rcs := lt_rcs st; lt_outs := lt_outs st |}.
Definition armed (s : tstat) : bool := bool_decide (s = SArmed).
Definition none_armed (st : lts) : bool := forallb (fun x => negb (armed (snd x))) (lt_tests st).
(** 43-51 [_finish], 53-59 [_drop], 61-72 [_fail], 74-86 [_succeed], with the Shutdown events
    they return.  (The tests they assert to be there are.) *)
Definition lt_finish (t : tname) (st : lts) : lts * list shut :=
  let st := set_stat t SFinished st in (st, if none_armed st then [AllFinished] else []).
Definition lt_drop (t : tname) (st : lts) : lts * list shut := (set_stat t SDropped st, []).
Definition drop_armed (st : lts) : lts :=
  {| lt_tests := map (fun x => if armed (snd x) then (fst x, SDropped) else x) (lt_tests st); lt_rcs := lt_rcs st; lt_outs := lt_outs st |}.
Definition lt_fail (t : tname) (st : lts) : lts * list shut := (drop_armed (set_stat t SFailed st), [TestFailed t]).
Definition lt_succeed (t : tname) (side : bool) (st : lts) : lts * list shut :=
  let st := set_stat t SSucceeded st in (st, if none_armed st then [AllFinished] else if side then [AfterTest] else []).
Definition set_rc (p : nat) (rc : Z) (st : lts) : lts :=
  {| lt_tests := lt_tests st; lt_rcs := dset p rc (lt_rcs st); lt_outs := lt_outs st |}.
Definition set_out (t : tname) (o : string * list pat) (st : lts) : lts :=
  {| lt_tests := lt_tests st; lt_rcs := lt_rcs st; lt_outs := dset t o (lt_outs st) |}.

(** The argument exit_allowed: codes, or whether exiting is allowed. *)
Inductive exits := AllowCodes (l : list Z) | AllowAny (b : bool).
Definition exit_ok (e : exits) (code : Z) : bool :=
  match e with AllowCodes l => existsb (Z.eqb code) l | AllowAny b => b end.
(** How an output test collects output: of lines or of patterns, its filter, the side effect. *)
Record otest := { ot_lines : bool; ot_filter : string -> string; ot_side : bool }.
(** The handlers that are registered: of a fixture (101-111), of a test that is a process
    (132-141) or another action (149-157), of an output test for the exit of the process
    (197-202), for the shutdown (210-216; the process has been started, so that it has a name),
    for output (222-233). *)
Inductive lhandler :=
| HFixture (a : nat) (allowed : exits)
| HProc (a : nat)
| HDone (a : nat)
| HOutExit (a : nat) (t : tname)
| HOutShut (t : tname) (side : bool)
| HOutIO (a : nat) (t : tname) (o : otest).
(** Events, with what the handlers look at: the return code and [context.is_shutdown]; the
    future of the action. *)
Inductive fut := NoFuture | FCancelled | FRaised | FResult.
Inductive levent := EExit (a : nat) (code : Z) (shutting_down : bool) | EDone (a : nat) (f : fut) | EOut (a : nat) (text : string) | EShut.

Section service.
(** Names of processes; [re r s]: pattern [r] is found in [s]. *)
Context (pname : nat -> nat) (re : nat -> string -> bool).
(** output.py:95-100, 107-112: [_collate], [_match] *)
Definition collate (o : otest) (out text : string) : string :=
  if ot_lines o then (out ++ text)%string else (out ++ join (String nl "") (splitlines text))%string.
Definition matched (out : string) (p : pat) : bool :=
  match p with PText s => existsb (contains s) (splitlines out) | PRegex r => re r out end.
Definition unmatched (t : tname) (st : lts) : bool :=
  match dget t (lt_outs st) with Some (_, ps) => existsb truthy ps | None => false end.
Definition lt_handle (h : lhandler) (e : levent) (st : lts) : lts * list shut :=
  match h, e with
  | HFixture a allowed, EExit b code sd =>
      if Nat.eqb a b && negb sd && negb (exit_ok allowed code)
      then (set_rc (pname a) (if Z.eqb code 0 then 1%Z else code) st, [FixtureDied (pname a)])
      else (st, [])
  | HProc a, EExit b code sd =>
      if Nat.eqb a b
      then if Z.eqb code 0 then lt_succeed (a, None) false st else lt_fail (a, None) (set_rc (pname a) code st)
      else (st, [])
  | HDone a, EDone b f =>
      if Nat.eqb a b
      then match f with
           | FCancelled => lt_drop (a, None) st
           | FRaised => lt_fail (a, None) st
           | NoFuture | FResult => lt_succeed (a, None) false st
           end
      else (st, [])
  | HOutExit a t, EExit b code sd => if Nat.eqb a b && unmatched t st then lt_finish t st else (st, [])
  | HOutShut t side, EShut =>
      (* what they return is not used *)
      let st := if unmatched t st then fst (lt_fail t st) else st in
      (fst (lt_succeed t side st), [])
  | HOutIO a t o, EOut b text =>
      if Nat.eqb a b
      then match dget t (lt_outs st) with
           | Some (out, ps) =>
               let out := collate o out (ot_filter o text) in
               let ps := List.filter (fun p => negb (matched out p)) ps in
               let st := set_out t (out, ps) st in
               if existsb truthy ps then (st, []) else lt_succeed t (ot_side o) st
           | None => (st, [])
           end
      else (st, [])
  | _, _ => (st, [])
  end.
(** One event: the handlers registered last come first (launch_context.py:213-223). *)
Definition lt_event (hs : list lhandler) (e : levent) (st : lts * list shut) : lts * list shut :=
  fold_left (fun st h => let '(st', l) := lt_handle h e (fst st) in (st', snd st ++ l)) (rev hs) st.
Definition lt_events (hs : list lhandler) (es : list levent) (st : lts) : lts * list shut :=
  fold_left (fun st e => lt_event hs e st) es (st, []).

(** ** Building the description *)
(** 88-117, 119-166, 168-242; [proc]: the action is a process. *)
Inductive ladd := AddFixture (a : nat) (proc : bool) (allowed : exits) | AddTest (a : nat) (proc : bool) | AddOutput (a : nat) (proc : bool) (suffix : nat) (o : otest) (ps : list pat).
(** 35-41 [_arm]; [None]: AssertionError. *)
Definition lt_arm (t : tname) (st : lts) : option lts :=
  match dget t (lt_tests st) with
  | Some _ => None
  | None => Some {| lt_tests := lt_tests st ++ [(t, SArmed)]; lt_rcs := lt_rcs st; lt_outs := lt_outs st |}
  end.
Definition lt_add (x : ladd) (s : list lhandler * lts) : option (list lhandler * lts) :=
  let '(hs, st) := s in
  match x with
  | AddFixture a proc allowed => Some (if proc then hs ++ [HFixture a allowed] else hs, st)
  | AddTest a proc =>
      match lt_arm (a, None) st with
      | Some st' => Some (hs ++ [if proc then HProc a else HDone a], st')
      | None => None
      end
  | AddOutput a proc suffix o ps =>
      let t := (a, Some suffix) in
      if proc && existsb truthy ps
      then match lt_arm t (set_out t ("", ps) st) with
           | Some st' => Some (hs ++ [HOutExit a t; HOutShut t (ot_side o); HOutIO a t o], st')
           | None => None
           end
      else None
  end.
Definition lt_init : lts := {| lt_tests := []; lt_rcs := []; lt_outs := [] |}.
Fixpoint lt_build (l : list ladd) (s : list lhandler * lts) : option (list lhandler * lts) :=
  match l with [] => Some s | x :: l' => match lt_add x s with Some s' => lt_build l' s' | None => None end end.
(** 244-261 [run]: [rc] is what the launch service returns. *)
Definition lt_verdict (rc : Z) (st : lts) : Z :=
  if Z.eqb rc 0
  then match List.find (fun x => negb (Z.eqb (snd x) 0)) (lt_rcs st) with
       | Some x => snd x
       | None => if existsb (fun x => bool_decide (snd x = SFailed)) (lt_tests st) then 1%Z else 0%Z
       end
  else rc.
End service.

(** ** The filter of lines *)
(** output.py:49-90 [create_output_lines_filter].  [prefixes] and [pats] as they are after the
    defaults; [pats] is an iterator ([map]): what it gives is gone.  [line_match r s]: pattern
    [r] matches at the beginning of [s].  On POSIX os.linesep is a newline. *)
Section filter.
Context (line_match : nat -> string -> bool) (prefixes : list string).
(** [any(pattern.match(line) for pattern in filtered_patterns)], and what the iterator has left. *)
Fixpoint any_pat (line : string) (pats : list nat) : bool * list nat :=
  match pats with
  | [] => (false, [])
  | r :: pats' => if line_match r line then (true, pats') else any_pat line pats'
  end.
Fixpoint filter_lines (lines : list string) (pats : list nat) : list string * list nat :=
  match lines with
  | [] => ([], pats)
  | line :: lines' =>
      if existsb (fun p => starts_with p line) prefixes then filter_lines lines' pats
      else let '(b, pats') := any_pat line pats in
           let '(l, pats'') := filter_lines lines' pats' in
           (if b then l else line :: l, pats'')
  end.
Definition ends_nl (s : string) : bool := match String.length s with O => false | S n => String.eqb (drop_str n s) (String nl "") end.
Definition lines_filter (output : string) (pats : list nat) : string * list nat :=
  let '(l, pats') := filter_lines (splitlines output) pats in
  (join (String nl "") (if ends_nl output then l ++ [String nl ""] else l), pats').
(** The filter on several outputs. *)
Fixpoint filter_outputs (outputs : list string) (pats : list nat) : list string :=
  match outputs with
  | [] => []
  | o :: l => let '(s, pats') := lines_filter o pats in s :: filter_outputs l pats'
  end.
End filter.
