(** Specifications for the theorems about the legacy test service (C71, C72). *)
From Verif Require Export Legacy.

(** A fixture process may exit with a code. *)
Definition may_exit (e : exits) (code : Z) : Prop := match e with AllowCodes l => In code l | AllowAny b => b = true end.

Section spec.
Context (pname : nat -> nat) (re : nat -> string -> bool).
(** The test a call adds. *)
Definition test_of (x : ladd) : option tname :=
  match x with AddFixture _ _ _ => None | AddTest a _ => Some (a, None) | AddOutput a _ s _ _ => Some (a, Some s) end.
(** The output of a process so far. *)
Definition outputs (a : nat) (es : list levent) : list string :=
  concat (map (fun e => match e with EOut b text => if Nat.eqb a b then [text] else [] | _ => [] end) es).
(** What an output test has collected, and the patterns that none of the collected outputs so
    far has matched. *)
Definition collected_output (o : otest) (texts : list string) : string :=
  fold_left (fun out text => collate o out (ot_filter o text)) texts "".
Definition still_missing (o : otest) (ps : list pat) (texts : list string) (p : pat) : Prop :=
  In p ps /\ forall n, 0 < n <= length texts -> matched re (collected_output o (take n texts)) p = false.
(** A pattern that counts is missing. *)
Definition missing (o : otest) (ps : list pat) (texts : list string) : Prop :=
  exists p, still_missing o ps texts p /\ truthy p = true.
(** [settles x pre e s]: event [e], after the events [pre], makes [s] of the test of [x]. *)
Definition settles (x : ladd) (pre : list levent) (e : levent) (s : tstat) : Prop :=
  match x, e with
  | AddTest a true, EExit b code _ => a = b /\ s = (if Z.eqb code 0 then SSucceeded else SFailed)
  | AddTest a false, EDone b f => a = b /\ s = (match f with FCancelled => SDropped | FRaised => SFailed | _ => SSucceeded end)
  | AddOutput a _ _ o ps, EExit b _ _ => a = b /\ missing o ps (outputs a pre) /\ s = SFinished
  | AddOutput a _ _ o ps, EOut b _ => a = b /\ ~ missing o ps (outputs a (pre ++ [e])) /\ s = SSucceeded
  | AddOutput a _ _ o ps, EShut => s = SSucceeded
  | _, _ => False
  end.
(** Event [e] makes a test fail, at least for a moment. *)
Definition fails (x : ladd) (pre : list levent) (e : levent) : Prop :=
  match x, e with
  | AddTest a true, EExit b code _ => a = b /\ code <> 0%Z
  | AddTest a false, EDone b FRaised => a = b
  | AddOutput a _ _ o ps, EShut => missing o ps (outputs a pre)
  | _, _ => False
  end.
(** The status of the test of [x]: the last thing that settled it; without one it is dropped by
    the failure of another test, else it is still armed. *)
Definition status_is (adds : list ladd) (es : list levent) (x : ladd) (s : tstat) : Prop :=
  (exists pre e post, es = pre ++ e :: post /\ settles x pre e s /\
     forall pre' e' post' s', es = pre' ++ e' :: post' -> length pre < length pre' -> ~ settles x pre' e' s') \/
  ((forall pre e post s', es = pre ++ e :: post -> ~ settles x pre e s') /\
   ((s = SDropped /\ exists y pre e post, In y adds /\ es = pre ++ e :: post /\ fails y pre e) \/
    (s = SArmed /\ forall y pre e post, In y adds -> es = pre ++ e :: post -> ~ fails y pre e))).
(** The return code an event leaves for a process: that of a test process that failed, or of a
    fixture process that was not allowed to exit like this, 1 for 0. *)
Definition leaves (adds : list ladd) (e : levent) (p : nat) (rc : Z) : Prop :=
  match e with
  | EExit a code sd =>
      p = pname a /\ rc = (if Z.eqb code 0 then 1%Z else code) /\
      ((In (AddTest a true) adds /\ code <> 0%Z) \/ (exists allowed, In (AddFixture a true allowed) adds /\ sd = false /\ ~ may_exit allowed code))
  | _ => False
  end.
(** [first_left]: what the run returns if the service returns 0 and a process left a code: the last code of the
    process that left one first. *)
Definition first_left (adds : list ladd) (es : list levent) (rc : Z) : Prop :=
  exists p pre e post rc0, es = pre ++ e :: post /\ leaves adds e p rc0 /\ (forall e' p' rc', In e' pre -> ~ leaves adds e' p' rc') /\
  exists pre' e' post', es = pre' ++ e' :: post' /\ leaves adds e' p rc /\ forall e'' rc', In e'' post' -> ~ leaves adds e'' p rc'.
End spec.

(** ** Output tests *)
(** A text without line ends; a text that occurs in another. *)
Definition no_end (s : string) : Prop := forall a b c, s = (a ++ String c b)%string -> c <> nl /\ c <> crc.
Definition occurs (s t : string) : Prop := exists a b, t = (a ++ s ++ b)%string.
(** All the outputs in a row. *)
Definition in_a_row (texts : list string) : string := fold_right String.append "" texts.
