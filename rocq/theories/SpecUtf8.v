(** Specifications for the theorems about decoding output (C87). *)
From Verif Require Export Utf8.

(** The characters: code points that are not surrogates. *)
Definition scalar (c : N) : Prop := c < 0xD800 \/ 0xE000 <= c < 0x110000.
(** The encoding of a character, RFC 3629. *)
Definition encode1 (c : N) : list N :=
  if c <? 0x80 then [c]
  else if c <? 0x800 then [0xC0 + c / 64; 0x80 + c mod 64]
  else if c <? 0x10000 then [0xE0 + c / 64 / 64; 0x80 + (c / 64) mod 64; 0x80 + c mod 64]
  else [0xF0 + c / 64 / 64 / 64; 0x80 + (c / 64 / 64) mod 64; 0x80 + (c / 64) mod 64; 0x80 + c mod 64].
Definition encode (s : list N) : list N := concat (map encode1 s).
(** Bytes that are the encoding of some text. *)
Definition text_of (l : list N) (s : list N) : Prop := Forall scalar s /\ l = encode s.
(** A cut between two chunks beside an ASCII byte, or after whole characters. *)
Definition clean_cut (l1 l2 : list N) : Prop :=
  l1 = [] \/ l2 = [] \/ (exists l b, l1 = l ++ [b] /\ b < 0x80) \/ (exists b l, l2 = b :: l /\ b < 0x80) \/ exists s, text_of l1 s.
(** All cuts in a list of chunks are clean. *)
Fixpoint clean_cuts (cs : list (list N)) : Prop :=
  match cs with
  | [] => True
  | c :: cs' => clean_cut c (concat cs') /\ clean_cuts cs'
  end.
(** The lines of a text: what is before each newline, and the rest. *)
Inductive lines_of : list N -> list (list N) -> list N -> Prop :=
| lo_rest r : ~ In 10 r -> lines_of r [] r
| lo_line l s ls r : ~ In 10 l -> lines_of s ls r -> lines_of (l ++ 10 :: s) (l :: ls) r.
