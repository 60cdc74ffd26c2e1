(** * Numbers and their textual forms: [int()], [float()], [decimal.Decimal()] and [str()] of them.

    These are the CPython library functions called by /repo/scheme/fields/integer.py:46-53,
    /repo/scheme/fields/float.py:46-50 and /repo/scheme/fields/decimal.py:75-85.

    Simplifications: CPython's limits on the number of digits of [int(str)] (3.11+) and on the
    exponents of [Decimal] are not modelled (both are unbounded here). *)
From Verif Require Export PyBase.
From Coq Require Export SpecFloat QArith.
Open Scope N_scope.

(** ** Decimal numerals *)

(** Digit values of [n], most significant first ([str(n)] for n >= 0).
    Used for [str] at /repo/scheme/formats/structuredtext.py:50 and others. *)
Fixpoint digits_aux (fuel : nat) (n : N) (acc : list N) : list N :=
  match fuel with
  | O => acc
  | S f => let acc' := (n mod 10) :: acc in
           if n / 10 =? 0 then acc' else digits_aux f (n / 10) acc'
  end.
(** The digits of [str(n)], with enough fuel for any [n]; see [digits_aux]:
    /repo/scheme/formats/structuredtext.py:50 *)
Definition digits (n : N) : list N := digits_aux (S (N.size_nat n)) n [].

(** ASCII rendering of a list of digit values.  Used for [str] at /repo/scheme/formats/structuredtext.py:50 *)
Definition render (l : list N) : str := map (fun d => 48 + d) l.

(** [str(n)] for a natural number (CPython long_to_decimal_string).
    Used at /repo/scheme/fields/sequence.py:194 ('[%d]') and others. *)
Definition N_text (n : N) : str := render (digits n).

(** [str(z)] for an integer.  Used at /repo/scheme/formats/structuredtext.py:50 *)
Definition Z_text (z : Z) : str :=
  match z with
  | Z0 => N_text 0
  | Zpos p => N_text (Npos p)
  | Zneg p => 45 :: N_text (Npos p)
  end.

(** Value of a list of digit values.
    Part of [int], [float] and [Decimal] of a text: /repo/scheme/fields/integer.py:51,
    /repo/scheme/fields/float.py:48, /repo/scheme/fields/decimal.py:83 *)
Definition digits_val (l : list N) : N := fold_left (fun a d => 10 * a + d) l 0.

(** An ASCII digit, for the same: /repo/scheme/fields/integer.py:51 *)
Definition is_digit (c : N) : bool := (48 <=? c) && (c <=? 57).

(** [_PyUnicode_TransformDecimalAndSpaceToASCII]: non ASCII spaces become a blank, non ASCII
    decimal digits the ASCII digit ([ud] is the Unicode table), anything else is invalid.
    Part of [int(text)] and [float(text)]: /repo/scheme/fields/integer.py:51,
    /repo/scheme/fields/float.py:48 *)
Definition to_ascii_num (ud : N -> option N) (s : str) : str :=
  map (fun c => if c <? 127 then c
                else if is_space c then 32
                else match ud c with Some d => 48 + d | None => 63 end) s.

(** Underscores are allowed only between two digits (PEP 515).
    Part of [int(text)] and [float(text)]: /repo/scheme/fields/integer.py:51,
    /repo/scheme/fields/float.py:48 *)
Fixpoint ununder (prev : bool) (s : str) : option str :=
  match s with
  | [] => Some []
  | c :: s' =>
      if c =? 95 then
        if prev then
          match s' with
          | d :: _ => if is_digit d then ununder false s' else None
          | [] => None
          end
        else None
      else match ununder (is_digit c) s' with Some r => Some (c :: r) | None => None end
  end.

(** Longest prefix of ASCII digits, as digit values, and the rest.
    Part of [int(text)] and the like: /repo/scheme/fields/integer.py:51 *)
Fixpoint take_digits (s : str) : list N * str :=
  match s with
  | [] => ([], [])
  | c :: s' => if is_digit c then let (d, r) := take_digits s' in ((c - 48) :: d, r) else ([], s)
  end.

(** Optional sign: [true] for a minus.  Part of [int(text)] and the like: /repo/scheme/fields/integer.py:51 *)
Definition take_sign (s : str) : bool * str :=
  match s with
  | c :: s' => if c =? 45 then (true, s') else if c =? 43 then (false, s') else (false, s)
  | [] => (false, [])
  end.

(** A number with its sign, for the same: /repo/scheme/fields/integer.py:51 *)
Definition signed (neg : bool) (n : N) : Z := if neg then (- Z.of_N n)%Z else Z.of_N n.

(** Body of [int(text)] once the text is ASCII.  /repo/scheme/fields/integer.py:51 *)
Definition parse_int_ascii (s : str) : option Z :=
  let (neg, r) := take_sign (strip is_ascii_space s) in
  match ununder false r with
  | None => None
  | Some r' => match take_digits r' with
               | ([], _) => None
               | (ds, []) => Some (signed neg (digits_val ds))
               | (_, _ :: _) => None
               end
  end.

(** [int(text)]; [None] is ValueError.  /repo/scheme/fields/integer.py:42, 44, 51 *)
Definition parse_int (ud : N -> option N) (s : str) : option Z := parse_int_ascii (to_ascii_num ud s).

(** ** Decimals *)

(** [decimal.Decimal]: sign, coefficient, exponent; infinities; quiet and signaling NaNs with
    payload.  /repo/scheme/fields/decimal.py:3, 16 *)
Inductive dec :=
| DFin (neg : bool) (coef : N) (exp : Z)
| DInf (neg : bool)
| DNan (neg : bool) (signaling : bool) (payload : N).

(** ASCII lower case.
    Part of [float(text)] and [Decimal(text)]: /repo/scheme/fields/float.py:48,
    /repo/scheme/fields/decimal.py:83 *)
Definition lower_ascii (c : N) : N := if (65 <=? c) && (c <=? 90) then c + 32 else c.

(** Digits, point, digits, exponent: the finite number grammar shared by [float] and [Decimal].
    Result: coefficient digits and exponent.
    Part of [float(text)] and [Decimal(text)]: /repo/scheme/fields/float.py:48,
    /repo/scheme/fields/decimal.py:83 *)
Definition parse_finite (s : str) : option (list N * Z) :=
  let (ip, r1) := take_digits s in
  let (fp, r2) := match r1 with
                  | c :: r => if c =? 46 then take_digits r else ([], r1)
                  | [] => ([], [])
                  end in
  match ip ++ fp with
  | [] => None
  | ds =>
      match r2 with
      | [] => Some (ds, (- zlen fp)%Z)
      | e :: r3 =>
          if (e =? 69) || (e =? 101) then
            let (eneg, r4) := take_sign r3 in
            match take_digits r4 with
            | ([], _) => None
            | (es, []) => Some (ds, (signed eneg (digits_val es) - zlen fp)%Z)
            | (_, _ :: _) => None
            end
          else None
      end
  end.

(** Body of [Decimal(text)] after stripping, removal of underscores and conversion of digits.
    /repo/scheme/fields/decimal.py:83 *)
Definition parse_dec_ascii (s : str) : option dec :=
  let (neg, r) := take_sign s in
  let low := map lower_ascii r in
  if str_eqb low $"inf" || str_eqb low $"infinity" then Some (DInf neg)
  else match low with
  | 110 :: 97 :: 110 :: p =>                     (* nan *)
      match take_digits p with
      | (ds, []) => Some (DNan neg false (digits_val ds))
      | _ => None
      end
  | 115 :: 110 :: 97 :: 110 :: p =>              (* snan *)
      match take_digits p with
      | (ds, []) => Some (DNan neg true (digits_val ds))
      | _ => None
      end
  | _ => match parse_finite r with
         | Some (ds, e) => Some (DFin neg (digits_val ds) e)
         | None => None
         end
  end.

(** [Decimal(text)] ([_decimal] numeric_as_ascii: strip, drop underscores, convert digits);
    [None] is InvalidOperation.  /repo/scheme/fields/decimal.py:29, 39, 73, 83 *)
Definition parse_dec (ud : N -> option N) (s : str) : option dec :=
  parse_dec_ascii
    (map (fun c => if c <? 127 then c else match ud c with Some d => 48 + d | None => 63 end)
       (filter (fun c => negb (c =? 95)) (strip is_space s))).

(** ['%+d' % z].  Part of [str(Decimal)]: /repo/scheme/fields/decimal.py:76 *)
Definition plus_text (z : Z) : str :=
  if (z <? 0)%Z then Z_text z else 43 :: Z_text z.

(** [str(Decimal)]: to-scientific-string of the General Decimal Arithmetic specification
    (decimal.py [__str__]). *)
Definition dec_text (d : dec) : str :=
  match d with
  | DInf neg => (if neg then [45] else []) ++ $"Infinity"
  | DNan neg sg p => (if neg then [45] else []) ++ (if sg then $"sNaN" else $"NaN")
                     ++ (if p =? 0 then [] else N_text p)
  | DFin neg c e =>
      let ds := N_text c in
      let n := zlen ds in
      let left := (e + n)%Z in
      let dot := if (e <=? 0)%Z && (-6 <? left)%Z then left else 1%Z in
      let ip_fp :=
        if (dot <=? 0)%Z then (($"0", 46 :: repeat 48 (Z.to_nat (- dot)) ++ ds))
        else if (n <=? dot)%Z then ((ds ++ repeat 48 (Z.to_nat (dot - n)), []))
        else (firstn (Z.to_nat dot) ds, 46 :: skipn (Z.to_nat dot) ds) in
      (if neg then [45] else []) ++ fst ip_fp ++ snd ip_fp
      ++ (if (left =? dot)%Z then [] else 69 :: plus_text (left - dot))
  end.

(** ** Numeric values, for exact comparison across [int], [float] and [Decimal] *)

(** An exact number, an infinity or NaN, as the comparisons of /repo/scheme/fields/integer.py:59-67,
    /repo/scheme/fields/float.py:56-64 and the equality of /repo/scheme/field.py:462 see it. *)
Inductive num := NQ (q : Q) | NInf (neg : bool) | NNan.

(** 10 to the power [e], for the values of decimals: /repo/scheme/fields/decimal.py:91-99 *)
Definition pow10 (e : Z) : Q :=
  match e with
  | Z0 => 1%Q
  | Zpos p => inject_Z (10 ^ Zpos p)
  | Zneg p => / inject_Z (10 ^ Zpos p)
  end%Q.

(** 2 to the power [e], for the values of floats: /repo/scheme/fields/float.py:56-64 *)
Definition pow2 (e : Z) : Q :=
  match e with
  | Z0 => 1%Q
  | Zpos p => inject_Z (2 ^ Zpos p)
  | Zneg p => / inject_Z (2 ^ Zpos p)
  end%Q.

(** The number that an [int] is, for comparisons: /repo/scheme/fields/integer.py:59-67 *)
Definition num_of_Z (z : Z) : num := NQ (inject_Z z).

(** The number that a [float] is, for comparisons: /repo/scheme/fields/float.py:56-64 *)
Definition num_of_float (f : spec_float) : num :=
  match f with
  | S754_zero _ => NQ 0
  | S754_infinity s => NInf s
  | S754_nan => NNan
  | S754_finite s m e => NQ (inject_Z (if s then Zneg m else Zpos m) * pow2 e)
  end.

(** The number that a [Decimal] is, for comparisons: /repo/scheme/fields/decimal.py:91-99 *)
Definition num_of_dec (d : dec) : num :=
  match d with
  | DFin neg c e => NQ (inject_Z (signed neg c) * pow10 e)
  | DInf neg => NInf neg
  | DNan _ _ _ => NNan
  end.

(** Python [==] and [<] on numbers (a NaN is never equal nor smaller).
    [==] at /repo/scheme/field.py:462, [in] at /repo/scheme/fields/enumeration.py:70 *)
Definition num_eqb (a b : num) : bool :=
  match a, b with
  | NQ x, NQ y => Qeq_bool x y
  | NInf s, NInf t => Bool.eqb s t
  | _, _ => false
  end.

(** [<] of exact numbers, for [num_ltb]: /repo/scheme/fields/integer.py:60, 64 *)
Definition Qlt_bool (x y : Q) : bool := negb (Qle_bool y x).

(** [<] of numbers (a NaN is not smaller than anything).  /repo/scheme/fields/integer.py:60, 64,
    /repo/scheme/fields/float.py:57, 61 *)
Definition num_ltb (a b : num) : bool :=
  match a, b with
  | NNan, _ | _, NNan => false
  | NQ x, NQ y => Qlt_bool x y
  | NInf true, NInf true => false
  | NInf true, _ => true
  | NInf false, _ => false
  | NQ _, NInf s => negb s
  end.

(** ** Floats *)

(** Correctly rounded binary64 value of [m * 10^e] (round half to even), with Coq's executable
    IEEE specification.  Part of [float(text)] and [float(Decimal)]: /repo/scheme/fields/float.py:48 *)
Definition float_of_scaled (neg : bool) (m : N) (e : Z) : spec_float :=
  match m with
  | 0 => S754_zero neg
  | Npos p =>
      if (0 <=? e)%Z then
        binary_normalize 53 1024 (if neg then Zneg p * 10 ^ e else Zpos p * 10 ^ e)%Z 0 neg
      else
        match (10 ^ (- e))%Z with
        | Zpos q => let '(mz, ez, lz) := SFdiv_core_binary 53 1024 (Zpos p) 0 (Zpos q) 0 in
                    binary_round_aux 53 1024 neg mz ez lz
        | _ => S754_nan
        end
  end.

(** Body of [float(text)] once the text is ASCII; [None] is ValueError.  /repo/scheme/fields/float.py:48 *)
Definition parse_float_ascii (s : str) : option spec_float :=
  match ununder false (strip is_ascii_space s) with
  | None => None
  | Some s' =>
      let (neg, r) := take_sign s' in
      let low := map lower_ascii r in
      if str_eqb low $"inf" || str_eqb low $"infinity" then Some (S754_infinity neg)
      else if str_eqb low $"nan" then Some S754_nan
      else match parse_finite r with
           | Some (ds, e) => Some (float_of_scaled neg (digits_val ds) e)
           | None => None
           end
  end.

(** [float(text)]; [None] is ValueError.  /repo/scheme/fields/float.py:42, 44, 48 *)
Definition parse_float (ud : N -> option N) (s : str) : option spec_float :=
  parse_float_ascii (to_ascii_num ud s).

(** [float(int)]; [None] is OverflowError.  /repo/scheme/fields/float.py:48 *)
Definition float_of_Z (z : Z) : option spec_float :=
  match binary_normalize 53 1024 z 0 false with
  | S754_infinity _ => None
  | f => Some f
  end.

(** [float(Decimal)]; [None] is ValueError (signaling NaN).  /repo/scheme/fields/float.py:48 *)
Definition float_of_dec (d : dec) : option spec_float :=
  match d with
  | DFin neg c e => Some (float_of_scaled neg c e)
  | DInf neg => Some (S754_infinity neg)
  | DNan _ sg _ => if sg then None else Some S754_nan
  end.

(** [int(float)]: truncation; [None] is ValueError/OverflowError.  /repo/scheme/fields/integer.py:51 *)
Definition Z_of_float (f : spec_float) : option Z :=
  match f with
  | S754_zero _ => Some 0%Z
  | S754_finite s m e =>
      let a := if (0 <=? e)%Z then (Zpos m * 2 ^ e)%Z else (Zpos m / 2 ^ (- e))%Z in
      Some (if s then (- a)%Z else a)
  | _ => None
  end.

(** [int(Decimal)]: truncation.  /repo/scheme/fields/integer.py:51 *)
Definition Z_of_dec (d : dec) : option Z :=
  match d with
  | DFin neg c e =>
      let a := if (0 <=? e)%Z then (Z.of_N c * 10 ^ e)%Z else (Z.of_N c / 10 ^ (- e))%Z in
      Some (if neg then (- a)%Z else a)
  | _ => None
  end.

(** [Decimal(float)]: exact conversion (Decimal.from_float).  /repo/scheme/fields/decimal.py:83 *)
Definition dec_of_float (f : spec_float) : dec :=
  match f with
  | S754_zero s => DFin s 0 0
  | S754_infinity s => DInf s
  | S754_nan => DNan false false 0
  | S754_finite s m e =>
      if (0 <=? e)%Z then DFin s (Npos m * 2 ^ Z.to_N e) 0
      else let d := 2 ^ Z.to_N (- e) in
           let g := N.gcd (Npos m) d in
           let k := N.log2 (d / g) in
           DFin s (Npos m / g * 5 ^ k) (- Z.of_N k)
  end.

(** [Decimal(int)].  /repo/scheme/fields/decimal.py:83 *)
Definition dec_of_Z (z : Z) : dec := DFin (z <? 0)%Z (Z.abs_N z) 0.

(** A signalling NaN, whose comparisons raise InvalidOperation.  /repo/scheme/fields/decimal.py:91-99,
    /repo/scheme/field.py:462 *)
Definition is_snan (d : dec) : bool := match d with DNan _ true _ => true | _ => false end.
