(** * The grammar of XML documents, as far as it is modelled (C64). *)
From Verif Require Export Spec XmlText.
Open Scope N_scope.

(** White space of XML.  For /repo/scheme/formats/xml.py:37 *)
Definition xwhite (c : N) : Prop := c = 32 \/ c = 9 \/ c = 10 \/ c = 13.
(** Any characters of XML.  For /repo/scheme/formats/xml.py:37 *)
Definition xchar (c : N) : Prop :=
  c = 9 \/ c = 10 \/ c = 13 \/ 32 <= c < 55296 \/ 57344 <= c < 65534 \/ 65536 <= c < 1114112.
(** First characters of names; those outside of ASCII are left out.  For /repo/scheme/formats/xml.py:37 *)
Definition xletter (c : N) : Prop := 65 <= c <= 90 \/ 97 <= c <= 122 \/ c = 95.
(** Names without colons.  For /repo/scheme/formats/xml.py:37 *)
Definition xname (s : str) : Prop :=
  exists c r, s = c :: r /\ xletter c /\ Forall (fun d => xletter d \/ 48 <= d <= 57 \/ d = 45 \/ d = 46) r.

(** Digits, hexadecimal ones in either case.  For /repo/scheme/formats/xml.py:37 *)
Definition xdigit (base ch d : N) : Prop :=
  d < base /\ (d < 10 /\ ch = 48 + d \/ 10 <= d < 16 /\ (ch = 87 + d \/ ch = 55 + d)).
(** Numerals.  For /repo/scheme/formats/xml.py:37 *)
Inductive xnumeral (base : N) : str -> N -> Prop :=
| xnum_one : forall ch d, xdigit base ch d -> xnumeral base [ch] d
| xnum_more : forall s n ch d, xnumeral base s n -> xdigit base ch d -> xnumeral base (s ++ [ch]) (base * n + d).
(** What stands between [&] and [;] and the character it stands for.  For /repo/scheme/formats/xml.py:37 *)
Inductive xref : str -> N -> Prop :=
| xref_amp : xref $"amp" 38
| xref_lt : xref $"lt" 60
| xref_gt : xref $"gt" 62
| xref_quot : xref $"quot" 34
| xref_apos : xref $"apos" 39
| xref_dec : forall s c, xnumeral 10 s c -> xchar c -> xref ($"#" ++ s) c
| xref_hex : forall s c, xnumeral 16 s c -> xchar c -> xref ($"#x" ++ s) c.

(** What stands between the quotes and the value it gives the attribute.  For /repo/scheme/formats/xml.py:37 *)
Inductive xvalue (quote : N) : str -> str -> Prop :=
| xval_nil : xvalue quote [] []
| xval_char : forall c s v, xchar c -> ~ xwhite c -> c <> quote -> c <> 60 -> c <> 38 ->
    xvalue quote s v -> xvalue quote (c :: s) (c :: v)
| xval_white : forall c s v, xwhite c -> c <> 13 -> xvalue quote s v -> xvalue quote (c :: s) (32 :: v)
| xval_crlf : forall s v, xvalue quote s v -> xvalue quote (13 :: 10 :: s) (32 :: v)
| xval_cr : forall s v, (forall r, s <> 10 :: r) -> xvalue quote s v -> xvalue quote (13 :: s) (32 :: v)
| xval_ref : forall n c s v, xref n c -> xvalue quote s v -> xvalue quote ([38] ++ n ++ [59] ++ s) (c :: v).

(** Attributes, each after white space.  For /repo/scheme/formats/xml.py:37 *)
Inductive xattributes : str -> list (str * str) -> Prop :=
| xattr_nil : xattributes [] []
| xattr_cons : forall w n w1 w2 quote q v s l,
    Forall xwhite w -> w <> [] -> xname n -> n <> $"xmlns" -> Forall xwhite w1 -> Forall xwhite w2 ->
    quote = 34 \/ quote = 39 -> xvalue quote q v -> xattributes s l ->
    xattributes (w ++ n ++ w1 ++ [61] ++ w2 ++ [quote] ++ q ++ [quote] ++ s) ((n, v) :: l).

(** Text between tags and its characters: line ends are LF, references stand for their characters and
    [']]>'] does not appear.  For /repo/scheme/formats/xml.py:37 *)
Inductive xtext : str -> str -> Prop :=
| xtext_nil : xtext [] []
| xtext_char : forall c s d, xchar c -> c <> 13 -> c <> 60 -> c <> 38 ->
    ~ (c = 93 /\ exists r, s = 93 :: 62 :: r) -> xtext s d -> xtext (c :: s) (c :: d)
| xtext_crlf : forall s d, xtext s d -> xtext (13 :: 10 :: s) (10 :: d)
| xtext_cr : forall s d, (forall r, s <> 10 :: r) -> xtext s d -> xtext (13 :: s) (10 :: d)
| xtext_ref : forall n c s d, xref n c -> xtext s d -> xtext ([38] ++ n ++ [59] ++ s) (c :: d).

(** Elements; the text after a child is dropped.  For /repo/scheme/formats/xml.py:37 *)
Inductive xelement : str -> elem -> Prop :=
| xel_empty : forall n a l w, xname n -> xattributes a l -> NoDup (map fst l) -> Forall xwhite w ->
    xelement ($"<" ++ n ++ a ++ w ++ $"/>") (Elem n l None [])
| xel_full : forall n a l w t d c es w', xname n -> xattributes a l -> NoDup (map fst l) -> Forall xwhite w ->
    xtext t d -> xnodes c es -> Forall xwhite w' ->
    xelement ($"<" ++ n ++ a ++ w ++ $">" ++ t ++ c ++ $"</" ++ n ++ w' ++ $">")
      (Elem n l (match d with [] => None | _ => Some d end) es)
(** Children, each with the text after it.  For /repo/scheme/formats/xml.py:37 *)
with xnodes : str -> list elem -> Prop :=
| xnodes_nil : xnodes [] []
| xnodes_cons : forall s e t d c es, xelement s e -> xtext t d -> xnodes c es -> xnodes (s ++ t ++ c) (e :: es).

(** Documents: perhaps a byte order mark, perhaps the declaration the format writes, one element, white
    space around it.  For /repo/scheme/formats/xml.py:16, 37 *)
Definition xdocument (s : str) (e : elem) : Prop :=
  exists mark declaration w s' w',
    s = mark ++ declaration ++ w ++ s' ++ w'
    /\ (mark = [] \/ mark = [65279])
    /\ (declaration = [] \/ declaration = $"<?xml version=" ++ [34] ++ $"1.0" ++ [34] ++ $"?>")
    /\ Forall xwhite w /\ xelement s' e /\ Forall xwhite w'.
