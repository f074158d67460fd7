(** Specifications for the theorems about test helpers (C56 to C59, C61). *)
From Verif Require Export Testing.

(** ** ReadyAggregator *)
(** The calls in the order in which they counted, and those that called the parent function. *)
Definition counted (l : list robs) : list nat := omap (fun o => match o with RLeft k => Some k | _ => None end) l.
Definition parents (l : list robs) : list nat := omap (fun o => match o with RParent k => Some k | _ => None end) l.
(** How many calls were made. *)
Definition begun (l : list rop) : nat := length (List.filter (fun o => match o with RBegin => true | _ => false end) l).
Definition finished (st : rst) : Prop := forall k p, ra_calls st !! k = Some p -> p = RDone.

(** ** Sequences of messages in output *)
(** A place in the output: the number of a chunk, and an offset in it. *)
Definition pos := (nat * nat)%type.
Definition occurs (out : list string) (msg : string) (p : pos) : Prop :=
  exists a b, out !! fst p = Some (a ++ msg ++ b)%string /\ String.length a = snd p.
Definition not_before (p q : pos) : Prop := fst p < fst q \/ (fst p = fst q /\ snd p <= snd q).
Definition ending (msg : string) (p : pos) : pos := (fst p, snd p + String.length msg).
Definition at_pos (st : sqst) : pos := (sq_array st, sq_sub st).
(** The messages occur at places that follow each other without overlap, from [p] on. *)
Inductive in_order (out : list string) : pos -> list string -> Prop :=
| io_nil p : in_order out p []
| io_cons p m q l : occurs out m q -> not_before p q -> in_order out (ending m q) l -> in_order out p (m :: l).

(** The messages whose assertions succeeded. *)
Fixpoint keep_true {A} (l : list A) (b : list bool) : list A :=
  match l, b with x :: l', true :: b' => x :: keep_true l' b' | _ :: l', false :: b' => keep_true l' b' | _, _ => [] end.

(** ** Records of output and of events *)
Definition appended (l : list ihop) : list pio := omap (fun o => match o with IAppend e => Some e | _ => None end) l.
Definition mentioned (l : list ihop) : list string := map (fun o => match o with IAppend e => io_name e | ITrack n => n end) l.
(** A list without the later occurrences of its members. *)
Fixpoint firsts_from {A} (eqb : A -> A -> bool) (seen l : list A) : list A :=
  match l with
  | [] => []
  | x :: l' => if existsb (eqb x) seen then firsts_from eqb seen l' else x :: firsts_from eqb (x :: seen) l'
  end.
Definition first_names : list string -> list string := firsts_from String.eqb [].
Definition first_actions : list nat -> list nat := firsts_from Nat.eqb [].
Definition of_process (name : string) (l : list pio) : list pio := List.filter (fun e => String.eqb (io_name e) name) l.
Definition last_event (a : nat) (l : list pev) : option pev := last (List.filter (fun e => Nat.eqb (ev_action e) a) l).

(** ** Selecting processes *)
Definition args_match (args : cmdargs) (cmd : list string) : Prop :=
  match args with
  | AnyArgs => True
  | NoArgs => exists x, cmd = [x]
  | OneArg a => exists x l, cmd = x :: l /\ In a l
  | TheArgs l => forall a, In a l -> exists x l', cmd = x :: l' /\ In a l'
  end.
Definition name_contains (s t : string) : Prop := exists a b, t = (a ++ s ++ b)%string.
(** A process is selected by a query. *)
Definition selected (det : nat -> details) (q : pquery) (args : cmdargs) (p : nat) : Prop :=
  match q with
  | QAll => True
  | QAction a => p = a
  | QName s => name_contains s (de_name (det p)) /\ args_match args (de_cmd (det p))
  | QOther => False
  end.

(** The members of [procs] that a query selects, in order, for any way to decide it. *)
Definition exactly (det : nat -> details) (procs : list nat) (q : pquery) (args : cmdargs) (l : list nat) : Prop :=
  forall sel : nat -> bool, (forall p, sel p = true <-> selected det q args p) -> l = List.filter sel procs.
(** The process of an action has exited, last with one of the codes. *)
Definition exited_with (evs : list pev) (codes : list Z) (a : nat) : Prop :=
  exists c, last_event a evs = Some {| ev_action := a; ev_code := Some c |} /\ In c codes.
