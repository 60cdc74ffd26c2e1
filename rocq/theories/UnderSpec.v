(** * Underscores in numbers (C75). *)
From Verif Require Export Spec.

(** A decimal digit, of ASCII or of another script.  Texts as /repo/scheme/fields/integer.py:51,
    /repo/scheme/fields/float.py:48 and /repo/scheme/fields/decimal.py:83 read them. *)
Definition numeral (E : env) (c : N) : Prop :=
  (48 <= c <= 57)%N \/ (127 <= c)%N /\ is_space c = false /\ exists d, e_udigit E c = Some d.

(** The values of digits are below ten.  /repo/scheme/fields/integer.py:51 *)
Definition digit_table (E : env) : Prop := forall c d, e_udigit E c = Some d -> (d < 10)%N.

(** Every underscore of the text stands between two digits.  /repo/scheme/fields/integer.py:51 *)
Definition grouped (E : env) (s : str) : Prop :=
  forall a b, s = a ++ 95%N :: b ->
    exists a' c d b', a = a' ++ [c] /\ b = d :: b' /\ numeral E c /\ numeral E d.

(** The text without its underscores.  /repo/scheme/fields/integer.py:51 *)
Fixpoint ungrouped (s : str) : str :=
  match s with [] => [] | c :: s' => if (c =? 95)%N then ungrouped s' else c :: ungrouped s' end.
