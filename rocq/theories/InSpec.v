(** * Specifications of inbound conversions (C75). *)
From Verif Require Export Spec.
Open Scope Z_scope.

(** [z] is the number [m * b ^ e], negated if [neg], without its fraction. *)
Definition towards_zero (b : Z) (neg : bool) (m e z : Z) : Prop :=
  (if neg then z <= 0 else 0 <= z)
  /\ Z.abs z * b ^ Z.max 0 (- e) <= m * b ^ Z.max 0 e < (Z.abs z + 1) * b ^ Z.max 0 (- e).

(** [int] of a float and of a decimal.  /repo/scheme/fields/integer.py:51 *)
Definition whole_part_of_float (f : spec_float) (z : Z) : Prop :=
  match f with
  | S754_zero _ => z = 0
  | S754_finite neg m e => towards_zero 2 neg (Zpos m) e z
  | _ => False
  end.
Definition whole_part_of_decimal (d : dec) (z : Z) : Prop :=
  match d with
  | DFin neg c e => towards_zero 10 neg (Z.of_N c) e z
  | _ => False
  end.

(** The decimal and the float are the same number.  /repo/scheme/fields/decimal.py:83 *)
Definition same_number (f : spec_float) (d : dec) : Prop :=
  match f, d with
  | S754_zero s, DFin neg c _ => neg = s /\ c = 0%N
  | S754_finite s m e, DFin neg c e' =>
      neg = s /\ Zpos m * 2 ^ Z.max 0 e * 10 ^ Z.max 0 (- e') = Z.of_N c * 10 ^ Z.max 0 e' * 2 ^ Z.max 0 (- e)
  | S754_infinity s, DInf neg => neg = s
  | S754_nan, DNan false false 0 => True
  | _, _ => False
  end.

(** What is already native for the field and is therefore not converted on the way in.
    /repo/scheme/fields/date.py:69, datetime.py:87, time.py:65, decimal.py:79, error.py:19, object.py:27 *)
Definition already_native (k : kind) (v : val) : Prop :=
  match k with
  | KInteger _ _ => exists z, v = VInt z
  | KFloat _ _ => exists f, v = VFloat f
  | KDecimal _ _ => exists d, v = VDec d
  | KDate _ _ => (exists d, v = VDate d) \/ exists d, v = VDateTime d
  | KTime _ _ => exists t, v = VTime t
  | KDateTime _ _ _ => exists d, v = VDateTime d
  | KError => exists e, v = VErr e
  | KObject => forall s, v <> VStr s
  | KBoolean | KText _ _ _ _ | KEmail _ _ _ _ | KEnumeration _ _ | KToken _ | KUUID => True
  | _ => False
  end.
