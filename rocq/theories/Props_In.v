(** Property theorems proved in InProofs.v (generated by tools/mkprops.py). *)
From Verif Require Import Spec Demo InSpec InProofs.
Open Scope Z_scope.

(** C75.  Integer given a float: it is processed as the integer that is the float without its
    fraction, whatever the other parameters; infinities and NaN are of an invalid type. *)
Theorem C75_integer_from_float :
  forall E desc recon n p mn mx partial anc f,
    let k := KInteger mn mx in
    let out := process_gen E desc recon n (Fld p k) partial Inbound true anc (VFloat f) in
    (forall z, whole_part_of_float f z -> out = process_gen E desc recon n (Fld p k) partial Inbound false anc (VInt z))
    /\ ((forall z, ~ whole_part_of_float f z) -> out = invalid_type (path_of p k anc)).
Proof. exact integer_from_float. Qed.
Print Assumptions C75_integer_from_float.

Example C75_integer_from_float_example :
  whole_part_of_float (S754_finite true 6755399441055744 (-50)) (-6)
  /\ run0 (Fld p0 (KInteger (Some (-9)%Z) None)) Inbound true (VFloat (S754_finite true 6755399441055744 (-50))) = Ok (VInt (-6))
  /\ run0 (Fld p0 (KInteger (Some (-5)%Z) None)) Inbound true (VFloat (S754_finite true 6755399441055744 (-50))) = fails [$"(integer)"] $"minimum"
  /\ run0 (Fld p0 (KInteger None None)) Inbound true (VFloat S754_nan) = invalid_type [$"(integer)"].
Proof. split; [|vm_compute; auto]. split; [lia|vm_compute; split; [discriminate|reflexivity]]. Qed.

(** C75.  Integer given a decimal: likewise. *)
Theorem C75_integer_from_decimal :
  forall E desc recon n p mn mx partial anc d,
    let k := KInteger mn mx in
    let out := process_gen E desc recon n (Fld p k) partial Inbound true anc (VDec d) in
    (forall z, whole_part_of_decimal d z -> out = process_gen E desc recon n (Fld p k) partial Inbound false anc (VInt z))
    /\ ((forall z, ~ whole_part_of_decimal d z) -> out = invalid_type (path_of p k anc)).
Proof. exact integer_from_decimal. Qed.
Print Assumptions C75_integer_from_decimal.

Example C75_integer_from_decimal_example :
  whole_part_of_decimal (DFin true 1999 (-3)) (-1)
  /\ run0 (Fld p0 (KInteger None None)) Inbound true (VDec (DFin true 1999 (-3))) = Ok (VInt (-1))
  /\ run0 (Fld p0 (KInteger None None)) Inbound true (VDec (DInf true)) = invalid_type [$"(integer)"].
Proof. split; [|vm_compute; auto]. split; [lia|vm_compute; split; [discriminate|reflexivity]]. Qed.

(** C75.  Decimal given a float: it is processed as a decimal that is exactly the same number,
    and given an integer as the integer with the exponent 0. *)
Theorem C75_decimal_from_number :
  forall E desc recon n p mn mx partial anc,
    let k := KDecimal mn mx in
    (forall f, exists d, same_number f d
       /\ process_gen E desc recon n (Fld p k) partial Inbound true anc (VFloat f)
          = process_gen E desc recon n (Fld p k) partial Inbound false anc (VDec d))
    /\ forall z, process_gen E desc recon n (Fld p k) partial Inbound true anc (VInt z)
                 = process_gen E desc recon n (Fld p k) partial Inbound false anc (VDec (DFin (z <? 0) (Z.abs_N z) 0)).
Proof. exact decimal_from_number. Qed.
Print Assumptions C75_decimal_from_number.

(* 0.75 is 75e-2 *)
Example C75_decimal_from_number_example :
  run0 (Fld p0 (KDecimal None None)) Inbound true (VFloat (S754_finite false 6755399441055744 (-53))) = Ok (VDec (DFin false 75 (-2)))
  /\ same_number (S754_finite false 6755399441055744 (-53)) (DFin false 75 (-2))
  /\ run0 (Fld p0 (KDecimal None (Some (DFin false 3 0)))) Inbound true (VInt 4) = fails [$"(decimal)"] $"maximum".
Proof. vm_compute. auto. Qed.

(** C75.  A value that is native already is not converted: serialized or not, it is processed
    in the same way.  In particular a Date field lets datetimes through, and Boolean, Text, Email,
    Enumeration, Token and UUID fields convert nothing at all. *)
Theorem C75_native_not_converted :
  forall E desc recon n p k partial anc v,
    already_native k v -> v <> VNone ->
    process_gen E desc recon n (Fld p k) partial Inbound true anc v
    = process_gen E desc recon n (Fld p k) partial Inbound false anc v.
Proof. exact native_not_converted. Qed.
Print Assumptions C75_native_not_converted.

Example C75_native_not_converted_example :
  let now := VDateTime (DateTime (Date 2024 2 29) (Tod 8 30 0 0) None) in
  run0 (Fld p0 (KDate None None)) Inbound true now = Ok now
  /\ run0 (Fld p0 (KDate (Some (Date 2024 1 1)) None)) Inbound true now = py TypeError
  /\ already_native (KDate None None) now.
Proof. vm_compute. repeat split; right; eexists; reflexivity. Qed.

(** C75.  Dates, times and datetimes are read from texts only, Binary from bytes only: anything
    else that is not native is of an invalid type. *)
Theorem C75_only_texts_are_read :
  forall E desc recon n p k partial anc v,
    match k with
    | KDate _ _ | KTime _ _ | KDateTime _ _ _ => forall s, v <> VStr s
    | KBinary _ _ => forall b, v <> VBytes b
    | _ => False
    end ->
    ~ already_native k v -> v <> VNone ->
    process_gen E desc recon n (Fld p k) partial Inbound true anc v = invalid_type (path_of p k anc).
Proof. exact only_texts_are_read. Qed.
Print Assumptions C75_only_texts_are_read.

Example C75_only_texts_are_read_example :
  run0 (Fld p0 (KDate None None)) Inbound true (VInt 20240229) = invalid_type [$"(date)"]
  /\ run0 (Fld p0 (KBinary None None)) Inbound true (VStr $"YWJj") = invalid_type [$"(binary)"].
Proof. vm_compute. auto. Qed.

(** C75.  Object: a text is imported, and one that cannot be imported is a ValidationError
    [import]; what is imported is then processed as it is. *)
Theorem C75_object_from_text :
  forall E desc recon n p partial anc s,
    let out := process_gen E desc recon n (Fld p KObject) partial Inbound true anc (VStr s) in
    (e_import E s = None -> out = fails (path_of p KObject anc) $"import")
    /\ (forall o, e_import E s = Some o -> o <> VNone ->
          out = process_gen E desc recon n (Fld p KObject) partial Inbound false anc o).
Proof. exact object_from_text. Qed.
Print Assumptions C75_object_from_text.

Example C75_object_from_text_example :
  e_import env0 $"no.such" = None
  /\ run0 (Fld p0 KObject) Inbound true (VStr $"no.such") = fails [$"(object)"] $"import".
Proof. vm_compute. auto. Qed.

(** C75.  Definition: a description is reconstructed, and one that cannot be, for whatever
    reason, is a ValidationError [invalid]; the field is then checked against the valid types. *)
Theorem C75_definition_from_description :
  forall E desc recon n p valid partial anc v,
    v <> VNone ->
    let k := KDefinition valid in
    let out := process_gen E desc recon n (Fld p k) partial Inbound true anc v in
    let path := path_of p k anc in
    (forall x, recon v = Raise x -> out = fails path $"invalid")
    /\ (forall g, recon v = Ok g -> out = process_gen E desc recon n (Fld p k) partial Inbound false anc (VField g))
    /\ (forall q k', recon v = Ok (Fld q k') -> plain p ->
          (match valid with Some (t :: ts) => In (kind_type k') (t :: ts) | _ => True end -> out = Ok (VField (Fld q k')))
          /\ (forall t ts, valid = Some (t :: ts) -> ~ In (kind_type k') (t :: ts) -> out = fails path $"invalidfield")).
Proof. exact definition_from_description. Qed.
Print Assumptions C75_definition_from_description.

Example C75_definition_from_description_example :
  let recon := fun v : val => match v with VInt 1 => Ok (Fld p0 KBoolean) | _ => py TypeError end in
  let f := Fld p0 (KDefinition (Some [$"boolean"])) in
  process_gen env0 nodesc recon 0 f false Inbound true [] (VInt 1) = Ok (VField (Fld p0 KBoolean))
  /\ process_gen env0 nodesc recon 0 f false Inbound true [] (VInt 2) = fails [$"(definition)"] $"invalid".
Proof. vm_compute. auto. Qed.
