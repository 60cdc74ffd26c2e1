(** * Specifications of what the text formats make of texts they did not write (C59, C61, C63, C64). *)
From Verif Require Export Spec StSpec CsvSpec XmlSpec UrlSpec.

(** Text in which every bracket is escaped and every backslash is part of an escape.
    /repo/scheme/formats/structuredtext.py:12-16 *)
Inductive shielded : str -> Prop :=
| sh_nil : shielded []
| sh_char c s : ~ In c [92; 91; 93; 123; 125]%N -> shielded s -> shielded (c :: s)
| sh_escape c s : In c [92; 91; 93; 123; 125]%N -> shielded s -> shielded (92%N :: c :: s).
(** An opening bracket and the one that closes it.  /repo/scheme/formats/structuredtext.py:12-14 *)
Definition bracket_pair (opening closing : N) : Prop :=
  opening = 123%N /\ closing = 125%N \/ opening = 91%N /\ closing = 93%N.
(** A part of a query without a value: no equals sign, or nothing after it.
    Through [parse_qsl] (/repo/scheme/formats/urlencoded.py:37). *)
Definition valueless (piece : str) : Prop :=
  ~ In 61%N piece \/ exists name, piece = name ++ $"=" /\ ~ In 61%N name.
