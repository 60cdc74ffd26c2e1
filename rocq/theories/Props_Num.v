(** Property theorems proved in NumProofs.v (generated by tools/mkprops.py). *)
From Verif Require Import Spec Demo NumProofs.
Open Scope Z_scope.

(** C03.  Unserializing a decimal rendering of an integer (blanks around, optional sign, any
    number of leading zeros) is the same as processing that integer natively. *)
Theorem C03_integer_text_unserialized :
  forall E desc recon n p mn mx partial anc s z,
    plain p -> int_text s z ->
    process_gen E desc recon n (Fld p (KInteger mn mx)) partial Inbound true anc (VStr s)
    = process_gen E desc recon n (Fld p (KInteger mn mx)) partial Inbound false anc (VInt z).
Proof. exact integer_text_unserialized. Qed.
Print Assumptions C03_integer_text_unserialized.

(** C03.  [str(z)] is a decimal rendering of [z]. *)
Theorem C03_integer_str_is_text :
  forall z, int_text (Z_text z) z.
Proof. exact integer_str_is_text. Qed.
Print Assumptions C03_integer_str_is_text.

(** C03.  Round trip: an accepted integer is serialized as itself, and unserializing either it
    or its text gives it back. *)
Theorem C03_integer_round_trip :
  forall E desc recon n p mn mx partial anc z r,
    plain p ->
    process_gen E desc recon n (Fld p (KInteger mn mx)) partial Outbound true anc (VInt z) = Ok r ->
    r = VInt z
    /\ process_gen E desc recon n (Fld p (KInteger mn mx)) partial Inbound true anc r = Ok (VInt z)
    /\ forall s, int_text s z ->
         process_gen E desc recon n (Fld p (KInteger mn mx)) partial Inbound true anc (VStr s)
         = Ok (VInt z).
Proof. exact integer_round_trip. Qed.
Print Assumptions C03_integer_round_trip.

(** C03.  Booleans are rejected in every phase. *)
Theorem C03_integer_rejects_bool :
  forall E desc recon n p mn mx partial ph ser anc b,
    plain p ->
    process_gen E desc recon n (Fld p (KInteger mn mx)) partial ph ser anc (VBool b)
    = invalid_type (path_of p (KInteger mn mx) anc).
Proof. exact integer_rejects_bool. Qed.
Print Assumptions C03_integer_rejects_bool.

Example C03_example :
  int_text $" -007
" (-7)
  /\ run0 (Fld p0 (KInteger (Some (-7)) None)) Inbound true (VStr $" -007
") = Ok (VInt (-7))
  /\ run0 (Fld p0 (KInteger (Some 0) None)) Outbound true (VInt 12) = Ok (VInt 12)
  /\ Z_text (-120) = $"-120".
Proof.
  split; [|repeat split; reflexivity].
  exists $" ", $"-", [0%N; 0%N; 7%N], [10%N].
  split; [reflexivity|]. split; [repeat constructor|]. split; [repeat constructor|].
  split; [discriminate|]. split; [repeat constructor|]. right. split; reflexivity.
Qed.

(** C05.  Unserializing [str(d)] is the same as processing [d] natively, for every decimal:
    sign, coefficient, exponent, infinities and NaNs included. *)
Theorem C05_decimal_text_unserialized :
  forall E desc recon n p mn mx partial anc d,
    plain p ->
    process_gen E desc recon n (Fld p (KDecimal mn mx)) partial Inbound true anc (VStr (dec_text d))
    = process_gen E desc recon n (Fld p (KDecimal mn mx)) partial Inbound false anc (VDec d).
Proof. exact decimal_text_unserialized. Qed.
Print Assumptions C05_decimal_text_unserialized.

(** C05.  Round trip through the field: what an accepted decimal is serialized to is
    unserialized to exactly that decimal. *)
Theorem C05_decimal_round_trip :
  forall E desc recon n p mn mx partial anc d s,
    plain p ->
    process_gen E desc recon n (Fld p (KDecimal mn mx)) partial Outbound true anc (VDec d) = Ok s ->
    s = VStr (dec_text d)
    /\ process_gen E desc recon n (Fld p (KDecimal mn mx)) partial Inbound true anc s = Ok (VDec d).
Proof. exact decimal_round_trip. Qed.
Print Assumptions C05_decimal_round_trip.

(** C05.  Bounds on native values, without NaN: accepted exactly within the bounds, unchanged;
    otherwise [minimum], [maximum], or an InvalidTypeError for anything but decimals. *)
Theorem C05_decimal_native_exact :
  forall E desc recon n p mn mx partial ph anc,
    plain p -> (forall m, mn = Some m \/ mx = Some m -> dec_is_nan m = false) ->
    let out v := process_gen E desc recon n (Fld p (KDecimal mn mx)) partial ph false anc v in
    let path := path_of p (KDecimal mn mx) anc in
    (forall d, dec_is_nan d = false ->
       (forall r, out (VDec d) = Ok r <-> r = VDec d /\ at_least decimal_le mn d /\ at_most decimal_le mx d)
       /\ (~ at_least decimal_le mn d -> out (VDec d) = fails path $"minimum")
       /\ (at_least decimal_le mn d -> ~ at_most decimal_le mx d -> out (VDec d) = fails path $"maximum"))
    /\ (forall v, v <> VNone -> (forall d, v <> VDec d) -> out v = invalid_type path).
Proof. exact decimal_native_exact. Qed.
Print Assumptions C05_decimal_native_exact.

(** C05.  A NaN compared with a bound escapes as InvalidOperation; without bounds it is
    accepted. *)
Theorem C05_decimal_nan :
  forall E desc recon n p mn mx partial ph anc d,
    plain p -> dec_is_nan d = true ->
    process_gen E desc recon n (Fld p (KDecimal mn mx)) partial ph false anc (VDec d)
    = match mn, mx with
      | None, None => Ok (VDec d)
      | _, _ => Raise (XPy InvalidOperation)
      end.
Proof. exact decimal_nan. Qed.
Print Assumptions C05_decimal_nan.

Example C05_example :
  let f := Fld p0 (KDecimal (Some (DFin false 5 (-1))) (Some (DFin false 2 3))) in
  run0 f Outbound true (VDec (DFin false 1230 (-2))) = Ok (VStr $"12.30")
  /\ run0 f Inbound true (VStr $"12.30") = Ok (VDec (DFin false 1230 (-2)))
  /\ run0 f Inbound true (VStr $"2.0E+3") = Ok (VDec (DFin false 20 2))
  /\ run0 f Inbound true (VStr $"0.49") = fails [$"(decimal)"] $"minimum"
  /\ run0 f Inbound true (VStr $"NaN") = Raise (XPy InvalidOperation)
  /\ dec_text (DFin true 7 (-9)) = $"-7E-9".
Proof. repeat split; reflexivity. Qed.
