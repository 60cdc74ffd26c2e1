(** * Grammars of the Token, UUID and Email fields (C15 to C17), independent of regular expressions. *)
From Verif Require Export Spec.
Open Scope N_scope.

(** The texts of [l] (at least one) with [sep] between them. *)
Definition joined (sep : N) (l : list str) (s : str) : Prop :=
  exists x rest, l = x :: rest /\ s = x ++ flat_map (fun y => sep :: y) rest.

(** A text satisfying [P], optionally followed by one newline. *)
Definition opt_newline (P : str -> Prop) (s : str) : Prop := P s \/ exists t, s = t ++ [10] /\ P t.

(** Word characters: ASCII letters, digits and the underscore; above ASCII, as the Unicode table
    says.  /repo/scheme/fields/token.py:14 *)
Definition is_word (E : env) (c : N) : Prop :=
  48 <= c <= 57 \/ 65 <= c <= 90 \/ c = 95 \/ 97 <= c <= 122 \/ (128 <= c /\ e_uword E c = true).

(** A segment: word characters and [-+.], starting and ending with a word character. *)
Definition segment (E : env) (s : str) : Prop :=
  Forall (fun c => is_word E c \/ In c $"-+.") s
  /\ (exists c r, s = c :: r /\ is_word E c) /\ (exists c r, s = r ++ [c] /\ is_word E c).

(** A token of the given segments. *)
Definition token_of (E : env) (segs : list str) (s : str) : Prop :=
  Forall (segment E) segs /\ joined 58 segs s.

(** /repo/scheme/fields/uuid.py:14 *)
Definition lower_hex (c : N) : Prop := 48 <= c <= 57 \/ 97 <= c <= 102.
Definition hex_group (n : nat) (s : str) : Prop := length s = n /\ Forall lower_hex s.
Definition uuid_text (s : str) : Prop :=
  exists a b c d e,
    s = a ++ $"-" ++ b ++ $"-" ++ c ++ $"-" ++ d ++ $"-" ++ e
    /\ hex_group 8 a /\ hex_group 4 b /\ hex_group 4 c /\ hex_group 4 d /\ hex_group 12 e.

(** Addresses.  /repo/scheme/fields/email.py:10-13 *)
Definition letter (c : N) : Prop := 65 <= c <= 90 \/ 97 <= c <= 122.
Definition decimal_digit (c : N) : Prop := 48 <= c <= 57.
Definition atext (c : N) : Prop := letter c \/ decimal_digit c \/ In c $"-!#$%&'*+/=?^_`{}|~".
(** Inside quotes: a character other than NUL, TAB, LF, CR, the quote and the backslash (a space is
    not allowed either), or a backslash and a character other than NUL, LF, CR. *)
Definition quoted_plain (c : N) : Prop :=
  1 <= c <= 127 /\ c <> 9 /\ c <> 10 /\ c <> 13 /\ c <> 32 /\ c <> 34 /\ c <> 92.
Definition quoted_escaped (c : N) : Prop := 1 <= c <= 127 /\ c <> 10 /\ c <> 13.
Definition quoted_piece (s : str) : Prop :=
  (exists c, s = [c] /\ quoted_plain c) \/ (exists c, s = [92; c] /\ quoted_escaped c).
Definition local_part (s : str) : Prop :=
  (exists atoms, Forall (fun a => a <> [] /\ Forall atext a) atoms /\ joined 46 atoms s)
  \/ (exists pieces, Forall quoted_piece pieces /\ s = [34] ++ concat pieces ++ [34]).
Definition domain_label (s : str) : Prop :=
  s <> [] /\ Forall (fun c => letter c \/ decimal_digit c \/ c = 45) s.
Definition domain (s : str) : Prop :=
  exists labels top, labels <> [] /\ Forall domain_label labels
    /\ Forall letter top /\ (2 <= length top <= 6)%nat
    /\ s = flat_map (fun l => l ++ $".") labels ++ top.
Definition address (s : str) : Prop :=
  exists l d, s = l ++ $"@" ++ d /\ local_part l /\ domain d.

Definition email_text (multiple : bool) (s : str) : Prop :=
  s = [] \/ if multiple then exists l, Forall address l /\ joined 44 l s else address s.

(** An address with a display name in front.  /repo/scheme/fields/email.py:16-17 *)
Definition named_address (s : str) : Prop :=
  exists name blanks a,
    s = name ++ blanks ++ $"<" ++ a ++ $">"
    /\ blanks <> [] /\ Forall (fun c => c = 32) blanks /\ address a
    /\ ((name <> [] /\ Forall (fun c => c <> 60) name)
        \/ exists q, name = [34] ++ q ++ [34] /\ q <> [] /\ Forall (fun c => c <> 34) q).
