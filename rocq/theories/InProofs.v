(** * Inbound conversions (C75). *)
(* @imports Spec Demo InSpec *)
From Coq Require Import Znumtheory ZifyBool ZifyN.
From Verif Require Import PyBaseFacts NumFacts ProcessFacts Spec Demo ScalarProofs InSpec.
Open Scope Z_scope.

Lemma converted_as E desc recon n p (k : kind) partial anc v w :
  basic k = true -> kind_ignored k = None -> v <> VNone -> w <> VNone ->
  unserialize_value E recon k (path_of p k anc) v = Ok w ->
  process_gen E desc recon n (Fld p k) partial Inbound true anc v
  = process_gen E desc recon n (Fld p k) partial Inbound false anc w.
Proof.
  intros Hb Hi Hv Hw Hu. rewrite !process_basic by exact Hb. unfold process_scalar. rewrite Hi.
  rewrite !is_null_some by assumption. cbn [bind andb phase_eqb]. rewrite Hu. reflexivity.
Qed.

Lemma not_converted E desc recon n p (k : kind) partial anc v x :
  basic k = true -> kind_ignored k = None -> v <> VNone ->
  unserialize_value E recon k (path_of p k anc) v = Raise x ->
  process_gen E desc recon n (Fld p k) partial Inbound true anc v = Raise x.
Proof.
  intros Hb Hi Hv Hu. rewrite !process_basic by exact Hb. unfold process_scalar. rewrite Hi.
  rewrite !is_null_some by assumption. cbn [bind andb phase_eqb]. rewrite Hu. reflexivity.
Qed.

Lemma towards_zero_eq b neg m e z :
  1 < b -> 0 <= m ->
  towards_zero b neg m e z <->
  z = (let a := if 0 <=? e then m * b ^ e else m / b ^ (- e) in if neg then - a else a).
Proof.
  intros Hb Hm. unfold towards_zero.
  assert (Ha : forall a, 0 <= a ->
    (a * b ^ Z.max 0 (- e) <= m * b ^ Z.max 0 e < (a + 1) * b ^ Z.max 0 (- e)
     <-> a = if 0 <=? e then m * b ^ e else m / b ^ (- e))).
  { intros a Ha. destruct (0 <=? e) eqn:He.
    - replace (Z.max 0 (- e)) with 0 by lia. replace (Z.max 0 e) with e by lia. rewrite Z.pow_0_r. lia.
    - replace (Z.max 0 (- e)) with (- e) by lia. replace (Z.max 0 e) with 0 by lia. rewrite Z.pow_0_r, Z.mul_1_r.
      assert (Hp : 0 < b ^ (- e)) by (apply Z.pow_pos_nonneg; lia). split.
      + intros H. apply Z.div_unique with (m - a * b ^ (- e)); lia.
      + intros ->. pose proof (Z.mul_div_le m (b ^ (- e)) Hp). pose proof (Z.mul_succ_div_gt m (b ^ (- e)) Hp). lia. }
  assert (Hn : 0 <= if 0 <=? e then m * b ^ e else m / b ^ (- e)).
  { destruct (0 <=? e) eqn:He; [apply Z.mul_nonneg_nonneg; [lia|apply Z.pow_nonneg; lia]|].
    apply Z.div_pos; [lia|apply Z.pow_pos_nonneg; lia]. }
  cbv zeta. rewrite (Ha (Z.abs z) (Z.abs_nonneg z)). destruct neg; lia.
Qed.

(** @prop C75 Integer given a float: it is processed as the integer that is the float without its
    fraction, whatever the other parameters; infinities and NaN are of an invalid type. *)
Lemma integer_from_float :
  forall E desc recon n p mn mx partial anc f,
    let k := KInteger mn mx in
    let out := process_gen E desc recon n (Fld p k) partial Inbound true anc (VFloat f) in
    (forall z, whole_part_of_float f z -> out = process_gen E desc recon n (Fld p k) partial Inbound false anc (VInt z))
    /\ ((forall z, ~ whole_part_of_float f z) -> out = invalid_type (path_of p k anc)).
Proof.
  intros E desc recon n p mn mx partial anc f k out.
  assert (Hz : forall z, whole_part_of_float f z <-> Z_of_float f = Some z).
  { intros z. destruct f; cbn [whole_part_of_float Z_of_float]; try (split; [intros []|discriminate]); [split; congruence|].
    rewrite towards_zero_eq by lia. cbv zeta. destruct s; split; congruence. }
  split.
  - intros z H. apply Hz in H. apply converted_as; try reflexivity; try discriminate. cbn [unserialize_value to_int k].
    rewrite H. reflexivity.
  - intros H. unfold out. erewrite not_converted; try reflexivity; try discriminate. cbn [unserialize_value to_int k].
    destruct (Z_of_float f) as [z|] eqn:Hf; [exfalso; exact (H z (proj2 (Hz z) eq_refl))|]. reflexivity.
Qed.

(** @example
Example C75_integer_from_float_example :
  whole_part_of_float (S754_finite true 6755399441055744 (-50)) (-6)
  /\ run0 (Fld p0 (KInteger (Some (-9)%Z) None)) Inbound true (VFloat (S754_finite true 6755399441055744 (-50))) = Ok (VInt (-6))
  /\ run0 (Fld p0 (KInteger (Some (-5)%Z) None)) Inbound true (VFloat (S754_finite true 6755399441055744 (-50))) = fails [$"(integer)"] $"minimum"
  /\ run0 (Fld p0 (KInteger None None)) Inbound true (VFloat S754_nan) = invalid_type [$"(integer)"].
Proof. split; [|vm_compute; auto]. split; [lia|vm_compute; split; [discriminate|reflexivity]]. Qed.
@end *)

(** @prop C75 Integer given a decimal: likewise. *)
Lemma integer_from_decimal :
  forall E desc recon n p mn mx partial anc d,
    let k := KInteger mn mx in
    let out := process_gen E desc recon n (Fld p k) partial Inbound true anc (VDec d) in
    (forall z, whole_part_of_decimal d z -> out = process_gen E desc recon n (Fld p k) partial Inbound false anc (VInt z))
    /\ ((forall z, ~ whole_part_of_decimal d z) -> out = invalid_type (path_of p k anc)).
Proof.
  intros E desc recon n p mn mx partial anc d k out.
  assert (Hz : forall z, whole_part_of_decimal d z <-> Z_of_dec d = Some z).
  { intros z. destruct d; cbn [whole_part_of_decimal Z_of_dec]; try (split; [intros []|discriminate]).
    rewrite towards_zero_eq by lia. cbv zeta. destruct neg; split; congruence. }
  split.
  - intros z H. apply Hz in H. apply converted_as; try reflexivity; try discriminate. cbn [unserialize_value to_int k].
    rewrite H. reflexivity.
  - intros H. unfold out. erewrite not_converted; try reflexivity; try discriminate. cbn [unserialize_value to_int k].
    destruct (Z_of_dec d) as [z|] eqn:Hf; [exfalso; exact (H z (proj2 (Hz z) eq_refl))|]. reflexivity.
Qed.

(** @example
Example C75_integer_from_decimal_example :
  whole_part_of_decimal (DFin true 1999 (-3)) (-1)
  /\ run0 (Fld p0 (KInteger None None)) Inbound true (VDec (DFin true 1999 (-3))) = Ok (VInt (-1))
  /\ run0 (Fld p0 (KInteger None None)) Inbound true (VDec (DInf true)) = invalid_type [$"(integer)"].
Proof. split; [|vm_compute; auto]. split; [lia|vm_compute; split; [discriminate|reflexivity]]. Qed.
@end *)

Lemma power_of_two_divisor j : forall q, 0 <= j -> 0 < q -> (q | 2 ^ j) -> exists i, 0 <= i <= j /\ q = 2 ^ i.
Proof.
  intros q Hj. revert q. pattern j. apply natlike_ind; [| |exact Hj].
  - intros q Hq H. exists 0. split; [lia|]. apply Z.divide_pos_le in H; [|reflexivity]. cbn in *. lia.
  - clear j Hj. intros j Hj IH q Hq H. rewrite Z.pow_succ_r in H by exact Hj.
    destruct (Zeven_odd_dec q) as [He|Ho].
    + apply Zeven_div2 in He. assert (Hd : (Z.div2 q | 2 ^ j)).
      { rewrite He in H. destruct H as [c Hc]. exists c. lia. }
      destruct (IH (Z.div2 q) ltac:(lia) Hd) as [i [Hi Hq']]. exists (Z.succ i). split; [lia|]. rewrite Z.pow_succ_r by lia. lia.
    + apply Gauss in H.
      * destruct (IH q Hq H) as [i [Hi Hq']]. exists i. split; [lia|exact Hq'].
      * apply Zgcd_1_rel_prime. apply Zodd_ex in Ho. destruct Ho as [c Hc].
        replace q with (1 + c * 2) by lia. rewrite Z.gcd_comm.
        apply Z.gcd_unique_alt; [lia|]. intros z. split.
        -- intros Hz. split; apply (Z.divide_trans _ 1); auto; apply Z.divide_1_l.
        -- intros [Hz1 Hz2]. replace 1 with (1 + c * 2 - c * 2) by lia. apply Z.divide_sub_r; [exact Hz2|]. apply Z.divide_mul_r, Hz1.
Qed.

Lemma dec_of_float_spec f : same_number f (dec_of_float f).
Proof.
  destruct f as [s|s| |s m e]; cbn [dec_of_float same_number]; auto.
  destruct (0 <=? e) eqn:He.
  - split; [reflexivity|]. replace (Z.max 0 (- e)) with 0 by lia. replace (Z.max 0 e) with e by lia.
    rewrite !Z.pow_0_r, !Z.mul_1_r, N2Z.inj_mul, N2Z.inj_pow, Z2N.id by lia. reflexivity.
  - cbv zeta. set (d := (2 ^ Z.to_N (- e))%N). set (g := N.gcd (Npos m) d).
    assert (Hd : Z.of_N d = 2 ^ (- e)) by (unfold d; rewrite N2Z.inj_pow, Z2N.id by lia; reflexivity).
    assert (Hd0 : d <> 0%N) by (unfold d; apply N.pow_nonzero; lia).
    assert (Hg0 : g <> 0%N) by (unfold g; intros H; apply N.gcd_eq_0_r in H; contradiction).
    destruct (N.gcd_divide_l (Npos m) d) as [a Ha]. destruct (N.gcd_divide_r (Npos m) d) as [b Hb]. fold g in Ha, Hb.
    assert (Hbg : (d / g = b)%N) by (rewrite Hb; apply N.div_mul, Hg0).
    assert (Hag : (N.pos m / g = a)%N) by (rewrite Ha; apply N.div_mul, Hg0).
    rewrite Hbg, Hag. split; [reflexivity|].
    assert (Hb0 : 0 < Z.of_N b) by lia.
    destruct (power_of_two_divisor (- e) (Z.of_N b) ltac:(lia) Hb0) as [i [Hi Hbi]].
    { rewrite <- Hd. exists (Z.of_N g). rewrite Hb. lia. }
    assert (Hlog : N.log2 b = Z.to_N i).
    { replace b with (2 ^ Z.to_N i)%N; [apply N.log2_pow2; lia|]. apply N2Z.inj. rewrite N2Z.inj_pow, Z2N.id by lia. symmetry. exact Hbi. }
    rewrite Hlog. rewrite Z2N.id by lia.
    replace (Z.max 0 (- e)) with (- e) by lia. replace (Z.max 0 e) with 0 by lia.
    replace (Z.max 0 (- - i)) with i by lia. replace (Z.max 0 (- i)) with 0 by lia.
    rewrite !Z.pow_0_r, !Z.mul_1_r, N2Z.inj_mul, N2Z.inj_pow, Z2N.id by lia.
    change (Z.of_N 5) with 5. change 10 with (2 * 5). rewrite Z.pow_mul_l, <- Hbi, <- Hd.
    replace (Zpos m) with (Z.of_N a * Z.of_N g) by lia. replace (Z.of_N d) with (Z.of_N b * Z.of_N g) by lia. ring.
Qed.


(** @prop C75 Decimal given a float: it is processed as a decimal that is exactly the same number,
    and given an integer as the integer with the exponent 0. *)
Lemma decimal_from_number :
  forall E desc recon n p mn mx partial anc,
    let k := KDecimal mn mx in
    (forall f, exists d, same_number f d
       /\ process_gen E desc recon n (Fld p k) partial Inbound true anc (VFloat f)
          = process_gen E desc recon n (Fld p k) partial Inbound false anc (VDec d))
    /\ forall z, process_gen E desc recon n (Fld p k) partial Inbound true anc (VInt z)
                 = process_gen E desc recon n (Fld p k) partial Inbound false anc (VDec (DFin (z <? 0) (Z.abs_N z) 0)).
Proof.
  intros E desc recon n p mn mx partial anc k. split.
  - intros f. exists (dec_of_float f). split; [apply dec_of_float_spec|]. apply converted_as; try reflexivity; discriminate.
  - intros z. apply converted_as; try reflexivity; discriminate.
Qed.

(** @example
(* 0.75 is 75e-2 *)
Example C75_decimal_from_number_example :
  run0 (Fld p0 (KDecimal None None)) Inbound true (VFloat (S754_finite false 6755399441055744 (-53))) = Ok (VDec (DFin false 75 (-2)))
  /\ same_number (S754_finite false 6755399441055744 (-53)) (DFin false 75 (-2))
  /\ run0 (Fld p0 (KDecimal None (Some (DFin false 3 0)))) Inbound true (VInt 4) = fails [$"(decimal)"] $"maximum".
Proof. vm_compute. auto. Qed.
@end *)

(** @prop C75 A value that is native already is not converted: serialized or not, it is processed
    in the same way.  In particular a Date field lets datetimes through, and Boolean, Text, Email,
    Enumeration, Token and UUID fields convert nothing at all. *)
Lemma native_not_converted :
  forall E desc recon n p k partial anc v,
    already_native k v -> v <> VNone ->
    process_gen E desc recon n (Fld p k) partial Inbound true anc v
    = process_gen E desc recon n (Fld p k) partial Inbound false anc v.
Proof.
  intros E desc recon n p k partial anc v H Hv.
  assert (Hb : basic k = true) by (destruct k; try reflexivity; destruct H).
  assert (Hu : unserialize_value E recon k (path_of p k anc) v = Ok v).
  { destruct k; cbn in H; try reflexivity; try contradiction; try (destruct H as [x ->]; reflexivity).
    - destruct H as [[x ->]|[x ->]]; reflexivity.
    - destruct v; try reflexivity. exfalso. exact (H _ eq_refl). }
  rewrite !process_basic by exact Hb. unfold process_scalar. destruct (is_null _ _ _ _ _) as [[]|]; try reflexivity.
  cbn [bind andb phase_eqb]. rewrite Hu. reflexivity.
Qed.

(** @example
Example C75_native_not_converted_example :
  let now := VDateTime (DateTime (Date 2024 2 29) (Tod 8 30 0 0) None) in
  run0 (Fld p0 (KDate None None)) Inbound true now = Ok now
  /\ run0 (Fld p0 (KDate (Some (Date 2024 1 1)) None)) Inbound true now = py TypeError
  /\ already_native (KDate None None) now.
Proof. vm_compute. repeat split; right; eexists; reflexivity. Qed.
@end *)

(** @prop C75 Dates, times and datetimes are read from texts only, Binary from bytes only: anything
    else that is not native is of an invalid type. *)
Lemma only_texts_are_read :
  forall E desc recon n p k partial anc v,
    match k with
    | KDate _ _ | KTime _ _ | KDateTime _ _ _ => forall s, v <> VStr s
    | KBinary _ _ => forall b, v <> VBytes b
    | _ => False
    end ->
    ~ already_native k v -> v <> VNone ->
    process_gen E desc recon n (Fld p k) partial Inbound true anc v = invalid_type (path_of p k anc).
Proof.
  intros E desc recon n p k partial anc v Hk Hn Hv.
  apply not_converted; try (destruct k; try reflexivity; contradiction); [exact Hv|].
  destruct k; try contradiction; destruct v; try reflexivity;
    try (exfalso; eapply Hk; reflexivity); exfalso; apply Hn; cbn; eauto.
Qed.

(** @example
Example C75_only_texts_are_read_example :
  run0 (Fld p0 (KDate None None)) Inbound true (VInt 20240229) = invalid_type [$"(date)"]
  /\ run0 (Fld p0 (KBinary None None)) Inbound true (VStr $"YWJj") = invalid_type [$"(binary)"].
Proof. vm_compute. auto. Qed.
@end *)

(** @prop C75 Object: a text is imported, and one that cannot be imported is a ValidationError
    [import]; what is imported is then processed as it is. *)
Lemma object_from_text :
  forall E desc recon n p partial anc s,
    let out := process_gen E desc recon n (Fld p KObject) partial Inbound true anc (VStr s) in
    (e_import E s = None -> out = fails (path_of p KObject anc) $"import")
    /\ (forall o, e_import E s = Some o -> o <> VNone ->
          out = process_gen E desc recon n (Fld p KObject) partial Inbound false anc o).
Proof.
  intros E desc recon n p partial anc s out. split.
  - intros H. apply not_converted; try reflexivity; [discriminate|]. cbn [unserialize_value]. rewrite H. reflexivity.
  - intros o H Ho. apply converted_as; try reflexivity; try discriminate; [exact Ho|]. cbn [unserialize_value]. rewrite H. reflexivity.
Qed.

(** @example
Example C75_object_from_text_example :
  e_import env0 $"no.such" = None
  /\ run0 (Fld p0 KObject) Inbound true (VStr $"no.such") = fails [$"(object)"] $"import".
Proof. vm_compute. auto. Qed.
@end *)

(** @prop C75 Definition: a description is reconstructed, and one that cannot be, for whatever
    reason, is a ValidationError [invalid]; the field is then checked against the valid types. *)
Lemma definition_from_description :
  forall E desc recon n p valid partial anc v,
    v <> VNone ->
    let k := KDefinition valid in
    let out := process_gen E desc recon n (Fld p k) partial Inbound true anc v in
    let path := path_of p k anc in
    (forall x, recon v = Raise x -> out = fails path $"invalid")
    /\ (forall g, recon v = Ok g -> out = process_gen E desc recon n (Fld p k) partial Inbound false anc (VField g))
    /\ (forall q k', recon v = Ok (Fld q k') -> plain p ->
          (match valid with Some (t :: ts) => In (kind_type k') (t :: ts) | _ => True end -> out = Ok (VField (Fld q k')))
          /\ (forall t ts, valid = Some (t :: ts) -> ~ In (kind_type k') (t :: ts) -> out = fails path $"invalidfield")).
Proof.
  intros E desc recon n p valid partial anc v Hv k out path.
  assert (H2 : forall g, recon v = Ok g -> out = process_gen E desc recon n (Fld p k) partial Inbound false anc (VField g)).
  { intros g H. apply converted_as; try reflexivity; try discriminate; [exact Hv|]. cbn [unserialize_value k]. rewrite H. reflexivity. }
  split; [|split].
  - intros x H. apply not_converted; try reflexivity; [exact Hv|]. cbn [unserialize_value k]. rewrite H. reflexivity.
  - exact H2.
  - intros q k' H Hp. specialize (H2 _ H). rewrite process_native in H2; try reflexivity; try discriminate; [|exact Hp|intros [_ X]; discriminate].
    fold path in H2. cbn [validate_value as_field k] in H2.
    assert (Hmem : forall l, smem (kind_type k') l = true <-> In (kind_type k') l).
    { intros l. unfold smem. rewrite existsb_exists. split.
      - intros [x [Hx He]]. apply str_eqb_eq in He. rewrite He. exact Hx.
      - intros Hx. exists (kind_type k'). split; [exact Hx|apply str_eqb_refl]. }
    split.
    + intros Hin. destruct valid as [[|t ts]|]; [rewrite H2; reflexivity| |rewrite H2; reflexivity].
      apply Hmem in Hin. rewrite Hin in H2. rewrite H2. reflexivity.
    + intros t ts -> Hnin. destruct (smem (kind_type k') (t :: ts)) eqn:Hm; [apply Hmem in Hm; contradiction|]. rewrite H2. reflexivity.
Qed.

(** @example
Example C75_definition_from_description_example :
  let recon := fun v : val => match v with VInt 1 => Ok (Fld p0 KBoolean) | _ => py TypeError end in
  let f := Fld p0 (KDefinition (Some [$"boolean"])) in
  process_gen env0 nodesc recon 0 f false Inbound true [] (VInt 1) = Ok (VField (Fld p0 KBoolean))
  /\ process_gen env0 nodesc recon 0 f false Inbound true [] (VInt 2) = fails [$"(definition)"] $"invalid".
Proof. vm_compute. auto. Qed.
@end *)
