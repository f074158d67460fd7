(** Theorems about matching output in tests (C62). *)
From Coq Require Import ssreflect.
From Verif Require Import StrFacts SpecTesting TestingFacts SpecTextMatch TextMatchFacts.

(** ** C62: matching output *)
(** Matching is done on the text with every carriage return and newline replaced by newline. *)
Theorem C62_normalize : forall t u, unix_ends t u <-> u = normalize t.
Proof. exact unix_ends_iff. Qed.
Print Assumptions C62_normalize.

(** An expectation is accepted exactly if it consists of texts, patterns and nonempty
    sequences; ValueError otherwise. *)
Theorem C62_build : forall search rematch strict e,
  ((exists m, build_text_match search rematch strict e = Ok m) <-> buildable e) /\
  ((exists m, build_line_match rematch strict e = Ok m) <-> buildable e) /\
  (~ buildable e -> build_text_match search rematch strict e = Exn XValue /\ build_line_match rematch strict e = Exn XValue).
Proof. exact build_law. Qed.
Print Assumptions C62_build.

(** What is reported as matched is there, from the starting position on, whatever the
    patterns are. *)
Theorem C62_sound : forall search rematch e m t p i j,
  searching search -> plain_ends t -> build_text_match search rematch false e = Ok m -> p <= String.length (normalize t) ->
  m t p = Some (i, j) -> found search (normalize t) e i j /\ p <= i /\ i <= j /\ j <= String.length (normalize t).
Proof. exact match_sound. Qed.
Print Assumptions C62_sound.

(** Texts, in however nested sequences: if they occur one after the other from the starting
    position on there is a match, and it begins and ends at least as early as any other. *)
Theorem C62_earliest : forall search rematch e m t p i j,
  plain_ends t -> literal e -> build_text_match search rematch false e = Ok m -> found search (normalize t) e i j -> p <= i ->
  exists i' j', m t p = Some (i', j') /\ p <= i' /\ i' <= i /\ j' <= j.
Proof. exact match_complete. Qed.
Print Assumptions C62_earliest.

(** Hence there is a match if and only if the texts occur one after the other, without
    overlap; how they are nested does not matter. *)
Theorem C62_texts : forall search rematch e m t,
  plain_ends t -> literal e -> build_text_match search rematch false e = Ok m ->
  ((exists r, m t 0 = Some r) <-> exists j, one_by_one (placed (normalize t)) 0 (flat e) j).
Proof. exact match_texts. Qed.
Print Assumptions C62_texts.

(** Strict matches: a text must be all the rest; the members of a sequence must follow each
    other immediately from the starting position on; and for texts that is sufficient. *)
Theorem C62_strict_text : forall search rematch s m t p, build_text_match search rematch true (XText s) = Ok m ->
  m t p = (if String.eqb (drop_str p (normalize t)) s then Some (p, p + String.length s) else None).
Proof. exact strict_text. Qed.
Print Assumptions C62_strict_text.
Theorem C62_strict_sound : forall search rematch l m t p i j,
  searching search -> plain_ends t -> build_text_match search rematch true (XSeq l) = Ok m -> p <= String.length (normalize t) ->
  m t p = Some (i, j) -> i = p /\ adjacent (found search (normalize t)) p l j.
Proof. exact strict_sound. Qed.
Print Assumptions C62_strict_sound.
Theorem C62_strict_texts : forall search rematch s l m t p,
  plain_ends t -> build_text_match search rematch true (XSeq (map XText (s :: l))) = Ok m -> p <= String.length (normalize t) -> forall i j,
  m t p = Some (i, j) <-> i = p /\ j = p + String.length (concat_str (s :: l)) /\ exists b, drop_str p (normalize t) = (concat_str (s :: l) ++ b)%string.
Proof. exact strict_texts. Qed.
Print Assumptions C62_strict_texts.

(** Lines: a match is there, from the starting line on, and it begins and ends at least as
    early as any other, also with patterns. *)
Theorem C62_lines : forall rematch e m ls p, build_line_match rematch false e = Ok m -> p <= length ls ->
  (forall i j, m ls p = Some (i, j) -> found_lines rematch ls e i j /\ p <= i) /\
  (forall i j, found_lines rematch ls e i j -> p <= i -> exists i' j', m ls p = Some (i', j') /\ i' <= i /\ j' <= j).
Proof. exact lines_law. Qed.
Print Assumptions C62_lines.
Theorem C62_lines_strict : forall rematch l m ls, Forall single l -> build_line_match rematch true (XSeq l) = Ok m ->
  ((exists r, m ls 0 = Some r) <-> exists pre post, ls = pre ++ post /\ Forall2 (line_ok rematch) l pre).
Proof. exact lines_strict. Qed.
Print Assumptions C62_lines_strict.
Theorem C62_lines_equal : forall rematch s m ls, build_line_match rematch true (XText s) = Ok m -> ((exists r, m ls 0 = Some r) <-> Forall (eq s) ls).
Proof. exact lines_equal. Qed.
Print Assumptions C62_lines_equal.

(** expect_output: exactly one kind of output and one kind of expectation must be given. *)
Theorem C62_arguments : forall search rematch strip_ansi splitlines text lines etext elines strip strict,
  (text = None <-> lines = None) \/ (etext = None <-> elines = None) ->
  expect_output search rematch strip_ansi splitlines text lines etext elines strip strict = Exn XValue.
Proof. exact expect_args. Qed.
Print Assumptions C62_arguments.
Theorem C62_expect_text : forall search rematch strip_ansi splitlines text e (strip : bool),
  let t := if strip then strip_ansi text else text in
  plain_ends t -> literal e -> buildable e ->
  exists b, expect_output search rematch strip_ansi splitlines (Some text) None (Some e) None strip false = Ok b /\
    (b = true <-> exists j, one_by_one (placed (normalize t)) 0 (flat e) j).
Proof. exact expect_texts. Qed.
Print Assumptions C62_expect_text.
Theorem C62_expect_sound : forall search rematch strip_ansi splitlines text e (strip : bool),
  let t := if strip then strip_ansi text else text in
  searching search -> plain_ends t ->
  expect_output search rematch strip_ansi splitlines (Some text) None (Some e) None strip false = Ok true -> exists i j, found search (normalize t) e i j.
Proof. exact expect_text_sound. Qed.
Print Assumptions C62_expect_sound.
Theorem C62_expect_lines : forall search rematch strip_ansi splitlines lines e (strip : bool),
  let ls := if strip then map strip_ansi lines else lines in
  buildable e -> is_pattern e = false ->
  exists b, expect_output search rematch strip_ansi splitlines None (Some lines) None (Some e) strip false = Ok b /\
    (b = true <-> exists i j, found_lines rematch ls e i j).
Proof. exact expect_lines. Qed.
Print Assumptions C62_expect_lines.
(** Lines with an expected text are joined, a text with expected lines is split. *)
Theorem C62_expect_join : forall search rematch strip_ansi splitlines lines e strip strict,
  expect_output search rematch strip_ansi splitlines None (Some lines) (Some e) None strip strict =
  expect_output search rematch strip_ansi splitlines (Some (join (String nl "") lines)) None (Some e) None strip strict.
Proof. exact expect_join. Qed.
Print Assumptions C62_expect_join.
Theorem C62_expect_split : forall search rematch strip_ansi splitlines text e strip strict,
  expect_output search rematch strip_ansi splitlines (Some text) None None (Some e) strip strict =
  expect_output search rematch strip_ansi splitlines None (Some (splitlines text)) None (Some e) strip strict.
Proof. exact expect_split. Qed.
Print Assumptions C62_expect_split.

(** assertInStdout and assertInStderr, for every history of recorded output: they pass if and
    only if the texts occur one after the other in what a selected process wrote to that
    stream, after removing escape sequences and filtering. *)
Theorem C62_assert : forall search rematch strip_ansi det l e q args filter strict (strip stdout : bool),
  let output p := filter ((fun t => if strip then strip_ansi t else t) (written l (de_name (det p)) stdout)) in
  let v := assert_in_stream search rematch strip_ansi det (ih_run l) e q args filter strict strip (if stdout then "stdout" else "stderr") in
  literal e -> buildable e -> (forall p, plain_ends (output p)) ->
  match resolve det (ih_processes (ih_run l)) q args strict with
  | Procs ps => (v = APasses <-> exists p j, In p ps /\ one_by_one (placed (normalize (output p))) 0 (flat e) j) /\ (v = APasses \/ v = AFails)
  | r => v = AUnresolved r
  end.
Proof. exact in_stream_texts. Qed.
Print Assumptions C62_assert.
Theorem C62_assert_stream : forall search rematch strip_ansi det h e q args filter strict strip stream ps,
  stream <> "stdout" -> stream <> "stderr" -> ps <> [] ->
  resolve det (ih_processes h) q args strict = Procs ps -> assert_in_stream search rematch strip_ansi det h e q args filter strict strip stream = AValue.
Proof. exact in_stream_stream. Qed.
Print Assumptions C62_assert_stream.
Theorem C62_assert_build : forall search rematch strip_ansi det h e q args filter strict strip stream ps, ~ buildable e ->
  resolve det (ih_processes h) q args strict = Procs ps -> assert_in_stream search rematch strip_ansi det h e q args filter strict strip stream = AValue.
Proof. exact in_stream_expect. Qed.
Print Assumptions C62_assert_build.

(** basic_output_filter removes exactly the lines that begin with a prefix or match a pattern,
    and keeps the others in order. *)
Theorem C62_filter : forall prefixes patterns pat lines, exists kept,
  output_filter prefixes patterns pat lines = concat_str kept /\ sublist kept lines /\
  forall line, In line kept <-> In line lines /\ (forall p, In p prefixes -> ~ exists b, line = (p ++ b)%string) /\ (forall r, In r patterns -> pat r line = false).
Proof. exact filter_law. Qed.
Print Assumptions C62_filter.

(** ** Findings *)
Definition no_re (r : nat) (t : string) (p : nat) : option (nat * nat) := None.
(** A strict match of a text allows nothing after it, that of a sequence of this text does. *)
Theorem C62_strict_refuted : exists s t m ms, build_text_match no_re no_re true (XText s) = Ok m /\ build_text_match no_re no_re true (XSeq [XText s]) = Ok ms /\
  m t 0 = None /\ ms t 0 <> None.
Proof. exists "a", "ab". do 2 eexists. split; [reflexivity|]. split; [reflexivity|]. vm_compute. split; [reflexivity|discriminate]. Qed.
Print Assumptions C62_strict_refuted.
(** After a carriage return before carriage return and newline, a text is found, but not the
    sequence of this text, since members replace line ends again. *)
Theorem C62_twice_refuted : exists s t m ms, build_text_match no_re no_re false (XText s) = Ok m /\ build_text_match no_re no_re false (XSeq [XText s]) = Ok ms /\
  m t 0 <> None /\ ms t 0 = None.
Proof.
  exists ("a" ++ String cr (String nl "b"))%string, ("a" ++ String cr (String cr (String nl "b")))%string. do 2 eexists. split; [reflexivity|]. split; [reflexivity|].
  vm_compute. split; [discriminate|reflexivity].
Qed.
Print Assumptions C62_twice_refuted.
(** With patterns the search for a sequence does not go back: the greedy pattern 0 ([a.*])
    takes all the rest, and the text b is not found after it although it could be. *)
Definition greedy (r : nat) (t : string) (p : nat) : option (nat * nat) :=
  match r, find_from "a" t p with 0, Some i => Some (i, String.length t) | _, _ => None end.
Theorem C62_greedy_refuted : searching greedy /\ exists m, build_text_match greedy greedy false (XSeq [XPattern 0; XText "b"]) = Ok m /\ m "ab" 0 = None.
Proof.
  split; [|by eexists]. intros r t p i j Hp. unfold greedy. destruct r; [|done]. destruct (find_from "a" t p) as [k|] eqn:E; [|done]. intros [= <- <-].
  apply find_from_bound in E as Hb. generalize (find_from_spec "a" t p). rewrite E. intros (? & _ & _). lia.
Qed.
Print Assumptions C62_greedy_refuted.
(** Strict lines match if there is no output; strict sequences of lines ignore what follows,
    and also text before and after in a line; a pattern for lines alone raises a TypeError. *)
Theorem C62_vacuous_refuted : forall sa sl s, expect_output no_re no_re sa sl None (Some []) None (Some (XText s)) false true = Ok true.
Proof. done. Qed.
Print Assumptions C62_vacuous_refuted.
Theorem C62_inside_refuted : forall sa sl, expect_output no_re no_re sa sl None (Some ["xay"; "z"]) None (Some (XSeq [XText "a"])) false true = Ok true.
Proof. done. Qed.
Print Assumptions C62_inside_refuted.
Theorem C62_pattern_refuted : forall search rematch sa sl lines r strip strict, expect_output search rematch sa sl None (Some lines) None (Some (XPattern r)) strip strict = Exn XType.
Proof. done. Qed.
Print Assumptions C62_pattern_refuted.

(** ** The hypotheses are met *)
Lemma ex_plain : plain_ends ("one" ++ String cr (String nl "two, three") )%string.
Proof.
  intros (a & b & E). do 4 (destruct a as [|? a]; [discriminate E|injection E as ? E]). 
  do 12 (destruct a as [|? a]; [discriminate E|try (injection E as ? E)]); done.
Qed.
Example ex_text : let t := ("one" ++ String cr (String nl "two, three"))%string in let e := XSeq [XText "one"; XSeq [XText (String nl "two"); XText "three"]] in
  literal e /\ buildable e /\ flat e = ["one"; String nl "two"; "three"] /\
  exists m, build_text_match no_re no_re false e = Ok m /\ m t 0 = Some (0, 14).
Proof.
  split; [repeat constructor|]. split; [repeat constructor|]. split; [done|]. by eexists.
Qed.
Example ex_searching : searching no_re.
Proof. done. Qed.
Example ex_lines : exists m, build_line_match no_re false (XSeq [XText "a"; XText "c"]) = Ok m /\ m ["xa"; "b"; "cc"; "c"] 0 = Some (0, 3) /\ m ["c"; "a"] 0 = None.
Proof. eexists. split; [reflexivity|]. by vm_compute. Qed.
Example ex_assert : let l := [IAppend {| io_name := "p-1"; io_action := 1; io_text := "hel"; io_stdout := true |}; IAppend {| io_name := "p-1"; io_action := 1; io_text := "x"; io_stdout := false |};
     IAppend {| io_name := "p-1"; io_action := 1; io_text := "lo"; io_stdout := true |}] in
  let det := fun _ => {| de_name := "p-1"; de_cmd := ["p"] |} in
  assert_in_stream no_re no_re (fun t => t) det (ih_run l) (XText "hello") (QName "p") AnyArgs (fun t => t) true true "stdout" = APasses /\
  assert_in_stream no_re no_re (fun t => t) det (ih_run l) (XText "hello") (QName "p") AnyArgs (fun t => t) true true "stderr" = AFails.
Proof. vm_compute. by repeat split. Qed.
