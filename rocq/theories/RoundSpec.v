(** * Rounding to binary64, to nearest with ties to even (C96). *)
From Verif Require Export Spec.
Open Scope Z_scope.

(** How many of the smallest positive floats, which is 2 to the power -1074, make up [m * 2^e].
    For /repo/scheme/fields/float.py:48 *)
Definition steps (m e : Z) : Z := m * 2 ^ (e + 1074).
(** How far the number [a / b] is from [m * 2^e], in units of one [b]-th of the smallest positive float.
    For /repo/scheme/fields/float.py:48 *)
Definition off (a b m e : Z) : Z := Z.abs (a * 2 ^ 1074 - b * steps m e).
(** The significand and exponent of a finite float that is not zero, normal or subnormal.
    For /repo/scheme/fields/float.py:48 *)
Definition binary64 (m e : Z) : Prop :=
  0 < m < 2 ^ 53 /\ -1074 <= e <= 971 /\ (2 ^ 52 <= m \/ e = -1074).
(** No float is closer to [a / b] than [m * 2^e], and if another one is as close then [m] is even.
    For /repo/scheme/fields/float.py:48 *)
Definition closest (a b m e : Z) : Prop :=
  forall m' e', 0 <= m' < 2 ^ 53 -> -1074 <= e' <= 971 ->
    off a b m e <= off a b m' e'
    /\ (off a b m' e' = off a b m e -> steps m' e' = steps m e \/ Z.even m = true).
(** At least half a unit beyond the largest float.  For /repo/scheme/fields/float.py:48 *)
Definition too_large (a b : Z) : Prop := b * ((2 ^ 54 - 1) * 2 ^ 970) <= a.
(** The float is the number [a / b], or [- a / b], correctly rounded.  For /repo/scheme/fields/float.py:48 *)
Definition rounded (neg : bool) (a b : Z) (f : spec_float) : Prop :=
  match f with
  | S754_zero s => s = neg /\ closest a b 0 (-1074) /\ ~ too_large a b
  | S754_finite s m e => s = neg /\ binary64 (Zpos m) e /\ closest a b (Zpos m) e /\ ~ too_large a b
  | S754_infinity s => s = neg /\ too_large a b
  | S754_nan => False
  end.

(** An optional sign: whether it is a minus.  For /repo/scheme/fields/float.py:48 *)
Definition sign_text (s : str) (neg : bool) : Prop :=
  s = $"-" /\ neg = true \/ (s = [] \/ s = $"+") /\ neg = false.
(** The characters of decimal digits.  For /repo/scheme/fields/float.py:48 *)
Definition digit_text (ds : list N) : str := map (fun d => 48 + d)%N ds.
(** The text writes the number [c * 10^x], or [- c * 10^x]: blanks, an optional sign, digits with an optional
    point among them, an optional exponent, blanks.  For /repo/scheme/fields/float.py:48 *)
Definition float_text (s : str) (neg : bool) (c x : Z) : Prop :=
  exists blanks sign a point b exponent z blanks',
    s = blanks ++ (sign ++ digit_text a ++ point ++ digit_text b ++ exponent) ++ blanks'
    /\ Forall (fun ch => is_ascii_space ch = true) blanks
    /\ Forall (fun ch => is_ascii_space ch = true) blanks'
    /\ sign_text sign neg
    /\ Forall (fun d => d < 10)%N (a ++ b) /\ a ++ b <> []
    /\ (point = $"." \/ point = [] /\ b = [])
    /\ (exponent = [] /\ z = 0
        \/ exists letter sign' eneg ds, exponent = letter ++ sign' ++ digit_text ds
             /\ (letter = $"e" \/ letter = $"E") /\ sign_text sign' eneg
             /\ ds <> [] /\ Forall (fun d => d < 10)%N ds
             /\ z = if eneg then - place_value ds else place_value ds)
    /\ c = place_value (a ++ b) /\ x = z - Z.of_nat (length b).

(** The value of a list of digits.  For /repo/scheme/fields/decimal.py:83. *)
Definition digit_values (l : list val) (ds : list N) : Prop :=
  Forall2 (fun v d => (d < 10)%N /\ (v = VInt (Z.of_N d) \/ v = VBool true /\ d = 1%N \/ v = VBool false /\ d = 0%N)) l ds.
(** The decimal that [Decimal((sign, digits, exponent))] makes: the exponent is an integer, or ['F'] for an
    infinity, ['n'] for a quiet and ['N'] for a signaling NaN.  For /repo/scheme/fields/decimal.py:83. *)
Definition decimal_triple (v : val) (d : dec) : Prop :=
  exists sign digits expo neg l ds,
    (v = VTuple [sign; digits; expo] \/ v = VList [sign; digits; expo])
    /\ (sign = VInt (if neg : bool then 1 else 0) \/ sign = VBool neg)
    /\ (digits = VTuple l \/ digits = VList l) /\ digit_values l ds
    /\ ((exists e, (expo = VInt e \/ expo = VBool true /\ e = 1 \/ expo = VBool false /\ e = 0)
                   /\ d = DFin neg (Z.to_N (place_value ds)) e)
        \/ expo = VStr $"F" /\ d = DInf neg
        \/ expo = VStr $"n" /\ d = DNan neg false (Z.to_N (place_value ds))
        \/ expo = VStr $"N" /\ d = DNan neg true (Z.to_N (place_value ds))).

(** The same text with some digits of other scripts replaced by the digits of ASCII of the same value.
    Texts as /repo/scheme/fields/integer.py:51, /repo/scheme/fields/float.py:48 and
    /repo/scheme/fields/decimal.py:83 read them. *)
Definition other_digits (E : env) (s s' : str) : Prop :=
  Forall2 (fun c c' => c = c' \/ (127 <= c)%N /\ is_space c = false
                       /\ exists d, e_udigit E c = Some d /\ (d < 10)%N /\ c' = (48 + d)%N) s s'.
