(** Specifications for the theorems about matching output (C62). *)
From Verif Require Export TextMatch SpecTesting.

(** [s] occurs in [t] at position [i]. *)
Definition occurs_at (s t : string) (i : nat) : Prop := exists a b, t = (a ++ s ++ b)%string /\ String.length a = i.

(** Members found one after the other, from position [p] on, the last one ending at [j]. *)
Inductive one_by_one {A} (found : A -> nat -> nat -> Prop) : nat -> list A -> nat -> Prop :=
| obo_nil p : one_by_one found p [] p
| obo_cons p x l i j k : p <= i -> found x i j -> one_by_one found j l k -> one_by_one found p (x :: l) k.

(** The expectation is found in the text between [i] and [j]: a text occurs there, a pattern
    is found there by a search, the members of a sequence are found one after the other,
    without overlap but possibly with gaps, from [i] on. *)
Inductive found (search : nat -> string -> nat -> option (nat * nat)) (t : string) : expect -> nat -> nat -> Prop :=
| found_text s i : occurs_at s t i -> found search t (XText s) i (i + String.length s)
| found_pattern r p i j : p <= i -> search r t p = Some (i, j) -> found search t (XPattern r) i j
| found_seq e l i m j : found search t e i m -> one_by_one (found search t) m l j -> found search t (XSeq (e :: l)) i j.

(** What every search of the library for patterns guarantees. *)
Definition searching (search : nat -> string -> nat -> option (nat * nat)) : Prop :=
  forall r t p i j, p <= String.length t -> search r t p = Some (i, j) -> p <= i /\ i <= j /\ j <= String.length t.

(** Expectations that can be built: no iterable is empty, nothing is of another kind. *)
Inductive buildable : expect -> Prop :=
| b_text s : buildable (XText s)
| b_pattern r : buildable (XPattern r)
| b_seq e l : buildable e -> Forall buildable l -> buildable (XSeq (e :: l)).
(** ... only of texts *)
Inductive literal : expect -> Prop :=
| l_text s : literal (XText s)
| l_seq l : Forall literal l -> literal (XSeq l).

(** The line ends of a text are carriage return and newline, or newline; no carriage return
    precedes a carriage return and newline. *)
Definition plain_ends (t : string) : Prop := ~ exists a b, t = (a ++ String cr (String cr (String nl "")) ++ b)%string.
(** [u] is [t] with every pair of carriage return and newline replaced by newline. *)
Inductive unix_ends : string -> string -> Prop :=
| ue_nil : unix_ends "" ""
| ue_pair t u : unix_ends t u -> unix_ends (String cr (String nl t)) (String nl u)
| ue_char c t u : (c = cr -> forall t', t <> String nl t') -> unix_ends t u -> unix_ends (String c t) (String c u).

(** Lines: a member matches a line. *)
Definition line_ok (rematch : nat -> string -> nat -> option (nat * nat)) (e : expect) (line : string) : Prop :=
  match e with
  | XText s => name_contains s line
  | XPattern r => exists x, rematch r line 0 = Some x
  | _ => False
  end.
(** The expectation is found in lines [i] to [j - 1]. *)
Inductive found_lines (rematch : nat -> string -> nat -> option (nat * nat)) (ls : list string) : expect -> nat -> nat -> Prop :=
| fl_one e i line : ls !! i = Some line -> line_ok rematch e line -> found_lines rematch ls e i (S i)
| fl_seq e l i m j : found_lines rematch ls e i m -> one_by_one (found_lines rematch ls) m l j -> found_lines rematch ls (XSeq (e :: l)) i j.

(** Members found one right after the other, from position [p] on. *)
Inductive adjacent {A} (found : A -> nat -> nat -> Prop) : nat -> list A -> nat -> Prop :=
| adj_nil p : adjacent found p [] p
| adj_cons p x l j k : found x p j -> adjacent found j l k -> adjacent found p (x :: l) k.
(** A member for a single line. *)
Definition single (e : expect) : Prop := match e with XText _ | XPattern _ => True | _ => False end.

(** What a process wrote to a stream, as far as it was recorded. *)
Definition written (l : list ihop) (name : string) (stdout : bool) : string :=
  concat_str (map io_text (List.filter (fun e => Bool.eqb (io_stdout e) stdout) (of_process name (appended l)))).
(** The texts of a nested expectation, in order. *)
Fixpoint flat (e : expect) : list string :=
  match e with XText s => [s] | XSeq l => flat_map flat l | _ => [] end.
(** A text takes the positions from [i] to [j - 1]. *)
Definition placed (t : string) (s : string) (i j : nat) : Prop := occurs_at s t i /\ j = i + String.length s.
