(** Property theorems proved in ScalarProofs.v (generated by tools/mkprops.py). *)
From Verif Require Import Spec Demo ScalarProofs.
Open Scope Z_scope.

(** C01.  A nullable field maps null to null: for every field type, parameters, phase,
    serialization flag, ancestry and fuel. *)
Theorem C01_null_accepted :
  forall E desc recon n p k partial ph ser anc,
    p_nonnull p = false ->
    process_gen E desc recon n (Fld p k) partial ph ser anc VNone = Ok VNone.
Proof. exact null_accepted. Qed.
Print Assumptions C01_null_accepted.

(** C01.  A nonnull field rejects null with exactly the token [nonnull]. *)
Theorem C01_null_rejected :
  forall E desc recon n p k partial ph ser anc,
    p_nonnull p = true ->
    process_gen E desc recon n (Fld p k) partial ph ser anc VNone
    = fails (path_of p k anc) $"nonnull".
Proof. exact null_rejected. Qed.
Print Assumptions C01_null_rejected.

Example C01_example :
  run0 (Fld p_nn (KSequence (Fld p0 (KInteger (Some 3%Z) None)) (Some 2%Z) None false)) Inbound true VNone
  = fails [$"(sequence)"] $"nonnull"
  /\ run0 (Fld (p_const (VInt 7)) (KInteger (Some 3%Z) None)) Outbound true VNone = Ok VNone.
Proof. split; reflexivity. Qed.

(** C02.  Acceptance of native values by Integer, exactly. *)
Theorem C02_integer_native_accepts :
  forall E desc recon n p mn mx partial ph ser anc v r,
    plain p -> native ph ser ->
    (process_gen E desc recon n (Fld p (KInteger mn mx)) partial ph ser anc v = Ok r
     <-> null_ok p v r
         \/ exists z, v = VInt z /\ r = VInt z /\ at_least Z.le mn z /\ at_most Z.le mx z).
Proof. exact integer_native_accepts. Qed.
Print Assumptions C02_integer_native_accepts.

(** C02.  The error of a rejected native value: [minimum] below, [maximum] above, otherwise
    an InvalidTypeError [invalid]. *)
Theorem C02_integer_native_errors :
  forall E desc recon n p mn mx partial ph ser anc v,
    plain p -> native ph ser ->
    let out := process_gen E desc recon n (Fld p (KInteger mn mx)) partial ph ser anc v in
    let path := path_of p (KInteger mn mx) anc in
    (forall z m, v = VInt z -> mn = Some m -> z < m -> out = fails path $"minimum")
    /\ (forall z m, v = VInt z -> mx = Some m -> m < z -> at_least Z.le mn z ->
        out = fails path $"maximum")
    /\ ((forall z, v <> VInt z) -> v <> VNone -> out = invalid_type path).
Proof. exact integer_native_errors. Qed.
Print Assumptions C02_integer_native_errors.

Example C02_example :
  let f := Fld p0 (KInteger (Some 3%Z) (Some 9%Z)) in
  run0 f Inbound false (VInt 9) = Ok (VInt 9)
  /\ run0 f Inbound false (VInt 2) = fails [$"(integer)"] $"minimum"
  /\ run0 f Inbound false (VInt 10) = fails [$"(integer)"] $"maximum"
  /\ run0 f Outbound true (VBool true) = invalid_type [$"(integer)"].
Proof. repeat split; reflexivity. Qed.

(** C14.  Boolean accepts exactly the two booleans, unchanged, in every phase; anything else
    that is not null is an InvalidTypeError. *)
Theorem C14_boolean_exact :
  forall E desc recon n p partial ph ser anc v,
    plain p -> v <> VNone ->
    let out := process_gen E desc recon n (Fld p KBoolean) partial ph ser anc v in
    (forall r, out = Ok r <-> (v = VBool true \/ v = VBool false) /\ r = v)
    /\ ((forall b, v <> VBool b) -> out = invalid_type (path_of p KBoolean anc)).
Proof. exact boolean_exact. Qed.
Print Assumptions C14_boolean_exact.

Example C14_example :
  run0 (Fld p0 KBoolean) Outbound true (VBool false) = Ok (VBool false)
  /\ run0 (Fld p0 KBoolean) Inbound true (VInt 1) = invalid_type [$"(boolean)"].
Proof. split; reflexivity. Qed.

(** C04.  Acceptance of native values by Float, exactly: only floats; the bounds hold unless a
    NaN is involved. *)
Theorem C04_float_native_accepts :
  forall E desc recon n p mn mx partial ph ser anc v r,
    plain p -> native ph ser ->
    (process_gen E desc recon n (Fld p (KFloat mn mx)) partial ph ser anc v = Ok r
     <-> null_ok p v r
         \/ exists x, v = VFloat x /\ r = VFloat x
              /\ at_least (fun a b => a = S754_nan \/ b = S754_nan \/ float_le a b) mn x
              /\ at_most (fun a b => a = S754_nan \/ b = S754_nan \/ float_le a b) mx x).
Proof. exact float_native_accepts. Qed.
Print Assumptions C04_float_native_accepts.

(** C04.  NaN is accepted whatever the bounds are. *)
Theorem C04_float_nan_accepted :
  forall E desc recon n p mn mx partial ph ser anc,
    plain p -> native ph ser ->
    process_gen E desc recon n (Fld p (KFloat mn mx)) partial ph ser anc (VFloat S754_nan)
    = Ok (VFloat S754_nan).
Proof. exact float_nan_accepted. Qed.
Print Assumptions C04_float_nan_accepted.

(** C04.  Rejections of native values: [minimum], [maximum] or an InvalidTypeError. *)
Theorem C04_float_native_errors :
  forall E desc recon n p mn mx partial ph ser anc v,
    plain p -> native ph ser ->
    let out := process_gen E desc recon n (Fld p (KFloat mn mx)) partial ph ser anc v in
    let path := path_of p (KFloat mn mx) anc in
    (forall x m, v = VFloat x -> mn = Some m -> m <> S754_nan -> x <> S754_nan ->
       ~ float_le m x -> out = fails path $"minimum")
    /\ (forall x m, v = VFloat x -> mx = Some m -> m <> S754_nan -> x <> S754_nan ->
         at_least float_le mn x -> ~ float_le x m -> out = fails path $"maximum")
    /\ ((forall x, v <> VFloat x) -> v <> VNone -> out = invalid_type path).
Proof. exact float_native_errors. Qed.
Print Assumptions C04_float_native_errors.

Example C04_example :
  let f := Fld p0 (KFloat (Some (S754_finite false 1 0)) (Some (S754_finite false 3 1))) in
  run0 f Inbound false (VFloat (S754_finite false 5 (-1))) = Ok (VFloat (S754_finite false 5 (-1)))
  /\ run0 f Inbound false (VFloat (S754_infinity false)) = fails [$"(float)"] $"maximum"
  /\ run0 f Inbound false (VFloat S754_nan) = Ok (VFloat S754_nan)
  /\ run0 f Inbound false (VInt 2) = invalid_type [$"(float)"].
Proof. repeat split; reflexivity. Qed.

(** C06.  Text: the canonical text [t] of [s] exists and is unique; processing [s] in any phase
    gives [t] exactly when [t] meets the length bounds and the pattern, and otherwise the token of
    the first violated constraint. *)
Theorem C06_text_exact :
  forall E desc recon n p pat mn mx st partial ph ser anc s,
    plain p ->
    let out := process_gen E desc recon n (Fld p (KText pat mn mx st)) partial ph ser anc (VStr s) in
    let path := path_of p (KText pat mn mx st) anc in
    let matches t := forall i, pat = Some i -> e_pattern E i t = true in
    (exists! t, canonical_text st s t)
    /\ forall t, canonical_text st s t ->
        let len := Z.of_nat (length t) in
        (forall r, out = Ok r <->
                   r = VStr t /\ at_least Z.le mn len /\ at_most Z.le mx len /\ matches t)
        /\ (~ at_least Z.le mn len -> out = fails path $"min_length")
        /\ (at_least Z.le mn len -> ~ at_most Z.le mx len -> out = fails path $"max_length")
        /\ (at_least Z.le mn len -> at_most Z.le mx len -> ~ matches t ->
             out = fails path $"pattern").
Proof. exact text_exact. Qed.
Print Assumptions C06_text_exact.

(** C06.  Text: anything that is neither text nor null is an InvalidTypeError. *)
Theorem C06_text_invalid :
  forall E desc recon n p pat mn mx st partial ph ser anc v,
    plain p -> v <> VNone -> (forall s, v <> VStr s) ->
    process_gen E desc recon n (Fld p (KText pat mn mx st)) partial ph ser anc v
    = invalid_type (path_of p (KText pat mn mx st) anc).
Proof. exact text_invalid. Qed.
Print Assumptions C06_text_invalid.

Example C06_example :
  let f := Fld p0 (KText (Some 0%nat) (Some 2%Z) (Some 3%Z) true) in
  run0 f Inbound true (VStr $"  a b  ") = Ok (VStr $"a b")
  /\ run0 f Inbound true (VStr $" abcd ") = fails [$"(text)"] $"max_length"
  /\ run0 f Inbound true (VStr $"  a ") = fails [$"(text)"] $"min_length".
Proof. repeat split; reflexivity. Qed.

(** C13.  Enumeration accepts exactly the values equal to a member, unchanged; a value equal to
    an ignored value is treated as null; the rest are InvalidTypeErrors.  (Signaling NaNs, whose
    comparison raises, are left out.) *)
Theorem C13_enumeration_exact :
  forall E desc recon n p l ignored partial ph ser anc v,
    plain p -> v <> VNone -> snan_val v = false ->
    Forall (fun x => snan_val x = false) l ->
    (forall g, ignored = Some g -> Forall (fun x => snan_val x = false) g) ->
    let out := process_gen E desc recon n (Fld p (KEnumeration l ignored)) partial ph ser anc v in
    let path := path_of p (KEnumeration l ignored) anc in
    let equal x := veq (e_local E) x v = true in
    ((exists g x, ignored = Some g /\ In x g /\ equal x) ->
       out = if p_nonnull p then fails path $"nonnull" else Ok VNone)
    /\ (~ (exists g x, ignored = Some g /\ In x g /\ equal x) ->
        ((exists x, In x l /\ equal x) -> out = Ok v)
        /\ (~ (exists x, In x l /\ equal x) -> out = invalid_type path)).
Proof. exact enumeration_exact. Qed.
Print Assumptions C13_enumeration_exact.

Example C13_example :
  let f := Fld p0 (KEnumeration [VStr $"a"; VInt 2] (Some [VStr $"x"])) in
  run0 f Inbound true (VInt 2) = Ok (VInt 2)
  /\ run0 f Inbound true (VStr $"x") = Ok VNone
  /\ run0 f Inbound true (VStr $"b") = invalid_type [$"(enumeration)"].
Proof. repeat split; reflexivity. Qed.

(** C18.  A non structural field with a constant [c], given a non-null candidate whose
    unserialized and preprocessed form is [w]: if [w] differs from [c] the candidate is rejected
    with an InvalidTypeError, if [w] equals [c] the field behaves as without the constant.
    (Enumeration is covered by the next theorem; signaling NaNs left out.) *)
Theorem C18_constant_exact :
  forall E desc recon n p k c partial ph ser anc v w0 w,
    basic k = true -> (forall l g, k <> KEnumeration l g) ->
    v <> VNone -> c <> VNone -> snan_val w = false -> snan_val c = false ->
    (if ser && phase_eqb ph Inbound
     then unserialize_value E recon k (path_of p k anc) v = Ok w0 else w0 = v) ->
    preprocess E p k w0 = Ok w ->
    let out c := process_gen E desc recon n (Fld (with_constant p c) k) partial ph ser anc v in
    (veq (e_local E) w c = false -> out c = invalid_type (path_of p k anc))
    /\ (veq (e_local E) w c = true -> out c = out VNone).
Proof. exact constant_exact. Qed.
Print Assumptions C18_constant_exact.

(** C18.  Structural fields ignore [constant]. *)
Theorem C18_constant_ignored_by_structural :
  forall E desc recon n p k c partial ph ser anc v,
    kind_structural k = true ->
    process_gen E desc recon n (Fld (with_constant p c) k) partial ph ser anc v
    = process_gen E desc recon n (Fld p k) partial ph ser anc v.
Proof. exact constant_ignored_by_structural. Qed.
Print Assumptions C18_constant_ignored_by_structural.

(** C18.  REFUTED for Enumeration: violating the constant of an Enumeration raises KeyError
    (its error message cannot be formatted), not a ValidationError. *)
Theorem C18_constant_enumeration_refuted :
  exists E desc recon n p l v c,
    p_constant p = c /\ c <> v /\ In v l
    /\ process_gen E desc recon n (Fld p (KEnumeration l None)) false Inbound false [] v
       = Raise (XPy KeyError).
Proof. exact constant_enumeration_refuted. Qed.
Print Assumptions C18_constant_enumeration_refuted.

Example C18_example :
  run0 (Fld (p_const (VInt 5)) (KInteger None None)) Inbound true (VStr $" 5") = Ok (VInt 5)
  /\ run0 (Fld (p_const (VInt 5)) (KInteger None None)) Inbound true (VStr $"6")
     = invalid_type [$"(integer)"]
  /\ run0 (Fld (p_const (VInt 5)) (KTuple [Fld p0 KBoolean])) Inbound true (VList [VBool true])
     = Ok (VTuple [VBool true]).
Proof. repeat split; reflexivity. Qed.
