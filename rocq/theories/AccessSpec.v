(** * What the claims about access to child fields and the text of errors say (C98, C42). *)
From Verif Require Export Access Spec.

(** [z] counts to position [i] among [n], from the start or, if negative, from the end.
    /repo/scheme/fields/tuple.py:121 *)
Definition counts_to (n : nat) (z : Z) (i : nat) : Prop :=
  (i < n)%nat /\ (z = Z.of_nat i \/ z = Z.of_nat i - Z.of_nat n)%Z.

(** The field has keyed child fields.  /repo/scheme/field.py:385-386 *)
Inductive keyed : field -> Prop :=
| keyed_tuple : forall p l, keyed (Fld p (KTuple l))
| keyed_structure : forall p d strict order, keyed (Fld p (KStructure d strict order)).

(** A key that is an integer; True and False are integers.  /repo/scheme/fields/tuple.py:121 *)
Definition integer_key (key : val) (z : Z) : Prop :=
  key = VInt z \/ exists b : bool, key = VBool b /\ z = (if b then 1 else 0)%Z.

(** The child fields with the keys that identify them.  /repo/scheme/field.py:384-386 *)
Inductive child : field -> val -> field -> Prop :=
| child_of_tuple : forall p l key z i f, integer_key key z -> counts_to (length l) z i ->
    nth_error l i = Some f -> child (Fld p (KTuple l)) key f
| child_of_structure : forall p l strict order k f, In (k, f) l ->
    child (Fld p (KStructure (SPlain l) strict order)) (VStr k) f.
