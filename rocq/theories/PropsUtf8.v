(** C87: the text of output that comes as bytes. *)
From Verif Require Import SpecUtf8 Utf8Facts.

(** Bytes are read as a text without an error exactly when they are its encoding. *)
Theorem C87_strict : forall l s, decode_strict l = Some s <-> text_of l s.
Proof. exact strict_iff. Qed.
(** Output that is the encoding of a text is logged as that text, ... *)
Theorem C87_text : forall l s, text_of l s -> decode_replace l = s.
Proof. exact replace_text. Qed.
(** ... and whatever bytes a process prints, the lines logged are its lines: a newline is never lost
    in a broken character, none is made up, and a broken line does not change any other. *)
Theorem C87_lines : forall l ls r, lines_of l ls r -> lines_of (decode_replace l) (map decode_replace ls) (decode_replace r).
Proof. exact replace_lines. Qed.
(** However the bytes are cut into chunks, as many lines are logged as were printed. *)
Theorem C87_count : forall chunks ls r ls' r', lines_of (concat chunks) ls r -> lines_of (decoded chunks) ls' r' -> length ls' = length ls.
Proof. exact decoded_count. Qed.
(** The chunks do not show in the text if no chunk ends inside a character. *)
Theorem C87_chunks : forall chunks, clean_cuts chunks -> decoded chunks = decode_replace (concat chunks).
Proof. exact decoded_clean. Qed.
(** What launch_testing joins for its assertions: there is a text exactly when every chunk by itself
    is the encoding of a text. *)
Theorem C87_joined : forall chunks s, joined chunks = Some s <-> exists ss, Forall2 text_of chunks ss /\ s = concat ss.
Proof. exact joined_iff. Qed.
(** A finding.  The text does depend on the chunks: every character that is cut in two is logged as
    something else, with U+FFFD in it, and an assertion about output in which it occurs raises
    UnicodeDecodeError, although what was printed is the encoding of a text. *)
Theorem C87_cut_refuted : forall c l1 l2, scalar c -> encode1 c = l1 ++ l2 -> l1 <> [] -> l2 <> [] ->
  decoded [encode1 c] = [c] /\ joined [encode1 c] = Some [c] /\
  In 0xFFFD (decoded [l1; l2]) /\ decoded [l1; l2] <> [c] /\ joined [l1; l2] = None.
Proof.
  intros c l1 l2 Hc He H1 H2. split; [|split; [|exact (broken c l1 l2 Hc He H1 H2)]].
  - unfold decoded. simpl. rewrite app_nil_r. apply replace_text. exact (text1 c Hc).
  - apply joined_iff. exists [[c]]. split; [|reflexivity]. constructor; [exact (text1 c Hc)|constructor].
Qed.
Print Assumptions C87_strict. Print Assumptions C87_text. Print Assumptions C87_lines. Print Assumptions C87_count.
Print Assumptions C87_chunks. Print Assumptions C87_joined. Print Assumptions C87_cut_refuted.

(** ** The ready listener *)
(** It gives its actions for an event exactly if that event alone is from stdout and holds the text. *)
Theorem C87_ready : forall txt from_stdout l, on_chunk txt from_stdout l = HActions <-> from_stdout = true /\ exists p q, text_of l (p ++ txt ++ q).
Proof. exact chunk_actions. Qed.
(** It raises exactly for bytes from stdout that are no text. *)
Theorem C87_ready_raises : forall txt from_stdout l, on_chunk txt from_stdout l = HRaise <-> from_stdout = true /\ ~ exists s, text_of l s.
Proof. exact chunk_raise. Qed.
(** A finding: a ready text that arrives in two chunks is not heard. *)
Theorem C87_ready_refuted : forall a b, a <> [] -> b <> [] -> Forall scalar a -> Forall scalar b ->
  on_chunk (a ++ b) true (encode (a ++ b)) = HActions /\
  on_chunk (a ++ b) true (encode a) = HNothing /\ on_chunk (a ++ b) true (encode b) = HNothing.
Proof. exact chunk_split. Qed.
Print Assumptions C87_ready. Print Assumptions C87_ready_raises. Print Assumptions C87_ready_refuted.

(** e acute, the euro sign and an emoji; a broken line between two whole ones; every cut of the euro
    sign. *)
Definition ex_s : list N := [0xE9; 10; 0x20AC; 10; 0x1F600].
Example C87_ex1 : encode ex_s = [0xC3; 0xA9; 10; 0xE2; 0x82; 0xAC; 10; 0xF0; 0x9F; 0x98; 0x80].
Proof. reflexivity. Qed.
Example C87_ex2 : text_of (encode ex_s) ex_s /\ decode_strict (encode ex_s) = Some ex_s.
Proof. split; [|reflexivity]. split; [|reflexivity]. unfold ex_s, scalar. repeat constructor; lia. Qed.
Example C87_ex3 : decode_replace [0xC3; 0xA9; 10; 0xE2; 0x82; 10; 0xFF; 65; 0xED; 0xA0] = [0xE9; 10; 0xFFFD; 10; 0xFFFD; 65; 0xFFFD; 0xFFFD].
Proof. reflexivity. Qed.
Example C87_ex4 : decoded [[0xE2]; [0x82; 0xAC]] = [0xFFFD; 0xFFFD; 0xFFFD] /\ decoded [[0xE2; 0x82]; [0xAC]] = [0xFFFD; 0xFFFD].
Proof. split; reflexivity. Qed.
Example C87_ex5 : clean_cuts [[0xC3; 0xA9]; [0xFF; 65]; [0xE2]; [10; 65]].
Proof.
  repeat split; unfold clean_cut.
  - right. right. right. right. exists [0xE9]. split; [|reflexivity]. constructor; [left; lia|constructor].
  - right. right. left. exists [0xFF], 65. split; [reflexivity|lia].
  - right. right. right. left. exists 10, [65]. split; [reflexivity|lia].
  - right. left. reflexivity.
Qed.
Example C87_ex6 : lines_of [0xC3; 0xA9; 10; 0xE2; 10; 65] [[0xC3; 0xA9]; [0xE2]] [65].
Proof. apply (lo_line [0xC3; 0xA9]); [intros [|[|[]]]; discriminate|]. apply (lo_line [0xE2]); [intros [|[]]; discriminate|]. apply lo_rest. intros [|[]]; discriminate. Qed.
Example C87_ex7 : on_chunk [82; 101] true [65; 82; 101; 10] = HActions /\ on_chunk [82; 101] false [65; 82; 101; 10] = HNothing.
Proof. split; reflexivity. Qed.
