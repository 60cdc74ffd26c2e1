(** Property theorems proved in RoundProofs.v (generated by tools/mkprops.py). *)
From Verif Require Import Spec Demo RoundSpec RoundProofs.
Open Scope Z_scope.

(** C96.  A decimal number is rounded correctly: the float is the nearest to it, the one with the even
    significand of two that are equally near; it is infinite exactly if the number is at least half a unit
    beyond the largest float. *)
Theorem C96_decimal_to_float :
  forall neg m e, rounded neg (Z.of_N m * 10 ^ Z.max 0 e) (10 ^ Z.max 0 (- e)) (float_of_scaled neg m e).
Proof. exact decimal_to_float. Qed.
Print Assumptions C96_decimal_to_float.

Example C96_example :
  (* 0.1, the halfway case 2^53 + 1, the smallest float, half of it, and what is too large *)
  float_of_scaled false 1 (-1) = S754_finite false 7205759403792794 (-56)
  /\ float_of_scaled false 9007199254740993 0 = S754_finite false 4503599627370496 1
  /\ float_of_scaled true 49 (-325) = S754_finite true 1 (-1074)
  /\ float_of_scaled true 24 (-325) = S754_zero true
  /\ float_of_scaled false 2 308 = S754_infinity false.
Proof. vm_compute. repeat split. Qed.

(** C96.  A Float field that unserializes an integer or a boolean processes the nearest float, and refuses
    integers beyond all floats as of an invalid type. *)
Theorem C96_float_from_integer :
  forall E desc recon n p mn mx partial anc,
    let k := KFloat mn mx in
    let given v := process_gen E desc recon n (Fld p k) partial Inbound true anc v in
    let native v := process_gen E desc recon n (Fld p k) partial Inbound false anc v in
    (forall z, too_large (Z.abs z) 1 -> given (VInt z) = invalid_type (path_of p k anc))
    /\ (forall z, ~ too_large (Z.abs z) 1 -> exists f, rounded (z <? 0) (Z.abs z) 1 f /\ given (VInt z) = native (VFloat f))
    /\ given (VBool true) = native (VFloat (S754_finite false 4503599627370496 (-52)))
    /\ given (VBool false) = native (VFloat (S754_zero false)).
Proof. exact float_from_integer. Qed.
Print Assumptions C96_float_from_integer.

Example C96_integer_example :
  ~ too_large 9007199254740993 1
  /\ process_gen env0 nodesc norecon 9 (Fld p0 (KFloat None None)) false Inbound true [] (VInt 9007199254740993)
     = Ok (VFloat (S754_finite false 4503599627370496 1)).
Proof. split; [vm_compute; intros H; now apply H|vm_compute; reflexivity]. Qed.

(** C96.  A Float field that unserializes a decimal processes the nearest float, infinite if it is too
    large. *)
Theorem C96_float_from_decimal :
  forall E desc recon n p mn mx partial anc neg c e,
    let k := KFloat mn mx in
    exists f, rounded neg (Z.of_N c * 10 ^ Z.max 0 e) (10 ^ Z.max 0 (- e)) f
      /\ process_gen E desc recon n (Fld p k) partial Inbound true anc (VDec (DFin neg c e))
         = process_gen E desc recon n (Fld p k) partial Inbound false anc (VFloat f).
Proof. exact float_from_decimal. Qed.
Print Assumptions C96_float_from_decimal.

Example C96_decimal_example :
  process_gen env0 nodesc norecon 9 (Fld p0 (KFloat None None)) false Inbound true [] (VDec (DFin true 25 (-1)))
  = Ok (VFloat (S754_finite true 5629499534213120 (-51))).
Proof. vm_compute. reflexivity. Qed.

(** C96.  A Float field that unserializes the text of a decimal number processes the nearest float,
    infinite if it is too large, however many digits the text has. *)
Theorem C96_float_from_text :
  forall E desc recon n p mn mx partial anc s neg c x,
    let k := KFloat mn mx in
    float_text s neg c x ->
    exists f, rounded neg (c * 10 ^ Z.max 0 x) (10 ^ Z.max 0 (- x)) f
      /\ process_gen E desc recon n (Fld p k) partial Inbound true anc (VStr s)
         = process_gen E desc recon n (Fld p k) partial Inbound false anc (VFloat f).
Proof. exact float_from_text. Qed.
Print Assumptions C96_float_from_text.

Example C96_text_example :
  float_text $" -1.5e-3" true 15 (-4)
  /\ process_gen env0 nodesc norecon 9 (Fld p0 (KFloat None None)) false Inbound true [] (VStr $" -1.5e-3")
     = Ok (VFloat (S754_finite true 6917529027641082 (-62))).
Proof.
  split; [|vm_compute; reflexivity].
  exists $" ", $"-", [1%N], $".", [5%N], $"e-3", (-3), [].
  split; [reflexivity|]. split; [repeat constructor|]. split; [constructor|]. split; [left; auto|].
  split; [repeat constructor|]. split; [discriminate|]. split; [left; reflexivity|]. split; [|split; reflexivity].
  right. exists $"e", $"-", true, [3%N]. split; [reflexivity|]. split; [left; reflexivity|].
  split; [left; auto|]. split; [discriminate|]. split; [repeat constructor|reflexivity].
Qed.

(** C75.  A Decimal field that unserializes a tuple or a list takes a sign, a sequence of digits and an
    exponent (or a letter for infinities and NaNs) as the decimal they make, and refuses every other tuple or list
    as of an invalid type. *)
Theorem C75_decimal_from_triple :
  forall E desc recon n p mn mx partial anc v,
    let k := KDecimal mn mx in
    (exists l, v = VTuple l \/ v = VList l) ->
    (forall d, decimal_triple v d ->
       process_gen E desc recon n (Fld p k) partial Inbound true anc v
       = process_gen E desc recon n (Fld p k) partial Inbound false anc (VDec d))
    /\ ((forall d, ~ decimal_triple v d) ->
       process_gen E desc recon n (Fld p k) partial Inbound true anc v = invalid_type (path_of p k anc)).
Proof. exact decimal_from_triple. Qed.
Print Assumptions C75_decimal_from_triple.

Example C75_triple_example :
  decimal_triple (VTuple [VInt 1; VTuple [VInt 1; VInt 2]; VInt (-1)]) (DFin true 12 (-1))
  /\ process_gen env0 nodesc norecon 9 (Fld p0 (KDecimal None None)) false Inbound true []
       (VTuple [VInt 1; VTuple [VInt 1; VInt 2]; VInt (-1)])
     = Ok (VDec (DFin true 12 (-1))).
Proof.
  split; [|vm_compute; reflexivity].
  exists (VInt 1), (VTuple [VInt 1; VInt 2]), (VInt (-1)), true, [VInt 1; VInt 2], [1%N; 2%N].
  split; [left; reflexivity|]. split; [left; reflexivity|]. split; [left; reflexivity|].
  split; [repeat constructor|]. left. exists (-1). split; [left; reflexivity|reflexivity].
Qed.

(** C75.  Integers, floats and decimals may be written with the digits of other scripts: the text is processed
    like the one with the digits of ASCII. *)
Theorem C75_digits_of_other_scripts :
  forall E desc recon n p k partial anc s s',
    match k with KInteger _ _ | KFloat _ _ | KDecimal _ _ => True | _ => False end ->
    other_digits E s s' ->
    process_gen E desc recon n (Fld p k) partial Inbound true anc (VStr s)
    = process_gen E desc recon n (Fld p k) partial Inbound true anc (VStr s').
Proof. exact digits_of_other_scripts. Qed.
Print Assumptions C75_digits_of_other_scripts.

Example C75_digits_of_other_scripts_example :
  forall E desc recon, e_udigit E 1635%N = Some 3%N ->
    other_digits E [1635; 46; 53]%N ($"3.5")
    /\ process_gen E desc recon 3%nat (Fld p0 (KDecimal None None)) false Inbound true [] (VStr [1635; 46; 53]%N)
       = Ok (VDec (DFin false 35 (-1)))
    /\ process_gen E desc recon 3%nat (Fld p0 (KInteger None None)) false Inbound true [] (VStr [49; 1635]%N)
       = Ok (VInt 13).
Proof.
  intros E desc recon H. split; [|split].
  - repeat first [apply Forall2_nil | apply Forall2_cons; [first [left; reflexivity
      | right; split; [discriminate|]; split; [reflexivity|]; exists 3%N; split; [exact H|]; split; reflexivity]|]].
  - rewrite (C75_digits_of_other_scripts E desc recon 3%nat p0 (KDecimal None None) false [] _ ($"3.5")); [reflexivity|exact I|].
    repeat first [apply Forall2_nil | apply Forall2_cons; [first [left; reflexivity
      | right; split; [discriminate|]; split; [reflexivity|]; exists 3%N; split; [exact H|]; split; reflexivity]|]].
  - rewrite (C75_digits_of_other_scripts E desc recon 3%nat p0 (KInteger None None) false [] _ ($"13")); [reflexivity|exact I|].
    repeat first [apply Forall2_nil | apply Forall2_cons; [first [left; reflexivity
      | right; split; [discriminate|]; split; [reflexivity|]; exists 3%N; split; [exact H|]; split; reflexivity]|]].
Qed.
