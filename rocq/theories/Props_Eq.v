(** Property theorems proved in EqProofs.v (generated by tools/mkprops.py). *)
From Verif Require Import Spec Demo CalSpec EqSpec EqProofs.
Open Scope Z_scope.

(** C91.  Two values are equal exactly when they are the same null, text, bytes, date, time or object,
    the same number, the same moment, or containers of the same kind with equal contents. *)
Theorem C91_equality_exact :
  forall L a b, dated a -> dated b -> (veq L a b = true <-> equal L a b).
Proof. exact equality_exact. Qed.
Print Assumptions C91_equality_exact.

(* True, 1, 1.0 and Decimal('1.00') are equal; a noon in UTC and the same instant at +02:00 too. *)
Example C91_equality_exact_example :
  let one := VFloat (S754_finite false 4503599627370496 (-52)) in
  let a := DateTime (Date 2020 1 1) (Tod 12 0 0 0) (Some TzUTC) in
  let b := DateTime (Date 2020 1 1) (Tod 14 0 0 0) (Some (TzFixed 120)) in
  equal (e_local env0) (VList [VBool true; VInt 1; one; VDateTime a]) (VList [one; VDec (DFin false 100 (-2)); VInt 1; VDateTime b])
  /\ ~ equal (e_local env0) (VTime (Tod 1 2 3 4)) (VTime (Tod 1 2 3 5))
  /\ ~ equal (e_local env0) (VList [VInt 1]) (VTuple [VInt 1]).
Proof.
  assert (D : forall y m d h x u t z, existing (DateTime (Date y m d) (Tod h x u t) z) -> dated (VDateTime (DateTime (Date y m d) (Tod h x u t) z)))
    by (intros; constructor; assumption).
  assert (Ht : forall h, (0 <= h <= 23)%Z -> forall z, existing (DateTime (Date 2020 1 1) (Tod h 0 0 0) z)).
  { intros h Hh z. split; [split; [cbn; split; discriminate|]|].
    - exists 31%Z. split; [constructor; cbn; auto|cbn; split; discriminate].
    - split; [exact Hh|]. cbn. repeat split; discriminate. }
  split; [|split].
  - refine (proj1 (C91_equality_exact _ _ _ _ _) _); [| |vm_compute; reflexivity];
      constructor; repeat apply Forall_cons; try apply Forall_nil; try (apply dated_other; exact I);
      apply D, Ht; split; discriminate.
  - intros H. apply C91_equality_exact in H; try (apply dated_other; exact I). vm_compute in H. discriminate.
  - intros H. apply C91_equality_exact in H; try (constructor; repeat constructor; apply dated_other; exact I). vm_compute in H. discriminate.
Qed.

(** C91.  Enumeration: a value equal to an ignored one is null, any other value is accepted, unchanged,
    exactly when it is equal to a member, and an InvalidTypeError otherwise.  (Signaling NaNs, whose
    comparison raises, are left out.) *)
Theorem C91_enumeration_by_equality :
  forall E desc recon n p l ignored partial ph ser anc v,
    plain p -> v <> VNone -> dated v -> snan_val v = false ->
    Forall (fun x => snan_val x = false /\ dated x) l ->
    (forall g, ignored = Some g -> Forall (fun x => snan_val x = false /\ dated x) g) ->
    let out := process_gen E desc recon n (Fld p (KEnumeration l ignored)) partial ph ser anc v in
    let path := path_of p (KEnumeration l ignored) anc in
    let among g := exists x, In x g /\ equal (e_local E) x v in
    ((exists g, ignored = Some g /\ among g) -> out = if p_nonnull p then fails path $"nonnull" else Ok VNone)
    /\ ((forall g, ignored = Some g -> ~ among g) ->
        (among l -> out = Ok v) /\ (~ among l -> out = invalid_type path)).
Proof. exact enumeration_by_equality. Qed.
Print Assumptions C91_enumeration_by_equality.

Example C91_enumeration_example :
  let f := Fld p0 (KEnumeration [VInt 2; VTime (Tod 1 2 3 4)] (Some [VStr $"x"])) in
  let among v := exists x, In x [VInt 2; VTime (Tod 1 2 3 4)] /\ equal (e_local env0) x v in
  among (VDec (DFin false 20 (-1))) /\ run0 f Inbound true (VDec (DFin false 20 (-1))) = Ok (VDec (DFin false 20 (-1)))
  /\ run0 f Inbound true (VTime (Tod 1 0 3 4)) = invalid_type [$"(enumeration)"].
Proof.
  cbv zeta. split; [|split; reflexivity]. exists (VInt 2). split; [left; reflexivity|].
  apply (equal_number _ _ _ (inject_Z 2) (dec_Q (DFin false 20 (-1)))); [constructor|constructor|reflexivity].
Qed.

(** C91.  Constants: a candidate whose unserialized and preprocessed form is not equal to the constant
    is refused with an InvalidTypeError; with one that is equal the field behaves as without constant. *)
Theorem C91_constant_by_equality :
  forall E desc recon n p k c partial ph ser anc v w0 w,
    basic k = true -> (forall l g, k <> KEnumeration l g) ->
    v <> VNone -> c <> VNone -> snan_val w = false -> snan_val c = false -> dated w -> dated c ->
    (if ser && phase_eqb ph Inbound
     then unserialize_value E recon k (path_of p k anc) v = Ok w0 else w0 = v) ->
    preprocess E p k w0 = Ok w ->
    let out c := process_gen E desc recon n (Fld (with_constant p c) k) partial ph ser anc v in
    (~ equal (e_local E) w c -> out c = invalid_type (path_of p k anc))
    /\ (equal (e_local E) w c -> out c = out VNone).
Proof. exact constant_by_equality. Qed.
Print Assumptions C91_constant_by_equality.

Example C91_constant_example :
  let f := Fld (p_const (VDateTime (DateTime (Date 2020 1 1) (Tod 12 0 0 0) (Some TzUTC)))) (KDateTime None None true) in
  run0 f Inbound true (VStr $"2020-01-01T12:00:00Z") = Ok (VDateTime (DateTime (Date 2020 1 1) (Tod 12 0 0 0) (Some TzUTC)))
  /\ run0 f Inbound true (VStr $"2020-01-01T12:00:01Z") = invalid_type [$"(datetime)"].
Proof. split; vm_compute; reflexivity. Qed.

(** C91.  Unique sequences: no two items of what is returned are equal; if every item is accepted, with
    hashable results, and a later one is equal to an earlier one, the sequence is refused with the token
    [duplicate]. *)
Theorem C91_unique_by_equality :
  forall E desc recon n p item mn mx partial ph ser anc l rs,
    p_preprocessor p = None -> defined E item -> Forall dated rs ->
    let path := path_of p (KSequence item mn mx true) anc in
    let run i x := process_gen E desc recon n item false ph ser (path ++ [index_seg i]) x in
    let out := process_gen E desc recon n (Fld p (KSequence item mn mx true)) partial ph ser anc (VList l) in
    (out = Ok (VList rs) ->
     forall i j x y, (i < j)%nat -> nth_error rs i = Some x -> nth_error rs j = Some y -> ~ equal (e_local E) y x)
    /\ (at_least Z.le mn (Z.of_nat (length l)) -> at_most Z.le mx (Z.of_nat (length l)) ->
        pointwise (fun i x y => run i x = Ok y) l rs -> Forall (fun y => hashable y = true) rs ->
        (exists i j x y, (i < j)%nat /\ nth_error rs i = Some x /\ nth_error rs j = Some y /\ equal (e_local E) y x) ->
        out = fails path $"duplicate").
Proof. exact unique_by_equality. Qed.
Print Assumptions C91_unique_by_equality.

Example C91_unique_example :
  let f := Fld p0 (KSequence (Fld p0 KField) None None true) in
  run0 f Inbound true (VList [VTime (Tod 1 2 3 4); VTime (Tod 1 0 3 4)]) = Ok (VList [VTime (Tod 1 2 3 4); VTime (Tod 1 0 3 4)])
  /\ run0 f Inbound true (VList [VBool true; VDec (DFin false 10 (-1))]) = fails [$"(sequence)"] $"duplicate".
Proof. split; vm_compute; reflexivity. Qed.
