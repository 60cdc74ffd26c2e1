(** * Binary fields: proofs.
    (* @imports Spec Demo *) *)
From Coq Require Import ZifyBool ZifyN ZifyNat.
From Verif Require Import PyBaseFacts NumFacts Induct Spec Demo ProcessFacts ScalarProofs.
Open Scope N_scope.
Ltac Zify.zify_post_hook ::= Z.div_mod_to_equations.

Lemma b64_char_val v : v < 64 -> b64_val (b64_char v) = Some v.
Proof.
  intros Hv. unfold b64_char.
  destruct (N.ltb_spec v 26) as [H1|H1]; [|destruct (N.ltb_spec v 52) as [H2|H2];
    [|destruct (N.ltb_spec v 62) as [H3|H3]; [|destruct (N.eqb_spec v 62) as [H4|H4]]]].
  - unfold b64_val. replace ((65 <=? 65 + v) && (65 + v <=? 90)) with true by lia. f_equal. lia.
  - unfold b64_val. replace ((65 <=? 97 + (v - 26)) && (97 + (v - 26) <=? 90)) with false by lia.
    replace ((97 <=? 97 + (v - 26)) && (97 + (v - 26) <=? 122)) with true by lia. f_equal. lia.
  - unfold b64_val. replace ((65 <=? 48 + (v - 52)) && (48 + (v - 52) <=? 90)) with false by lia.
    replace ((97 <=? 48 + (v - 52)) && (48 + (v - 52) <=? 122)) with false by lia.
    replace ((48 <=? 48 + (v - 52)) && (48 + (v - 52) <=? 57)) with true by lia. f_equal. lia.
  - subst v. reflexivity.
  - replace v with 63 by lia. reflexivity.
Qed.

Lemma b64_char_safe v : v < 64 -> urlsafe_char (b64_char v).
Proof.
  intros Hv. unfold b64_char, urlsafe_char.
  destruct (N.ltb_spec v 26); [lia|]. destruct (N.ltb_spec v 52); [lia|].
  destruct (N.ltb_spec v 62); [lia|]. destruct (N.eqb_spec v 62); lia.
Qed.

Lemma b64_char_neq v : v < 64 -> (b64_char v =? 61) = false.
Proof. intros Hv. assert (H := b64_char_safe v Hv). unfold urlsafe_char in H. lia. Qed.

Lemma dec_step s q l p v :
  v < 64 ->
  b64_decode_aux (b64_char v :: s) q l p =
  if q =? 0 then b64_decode_aux s 1 v 0
  else if q =? 1 then
    match b64_decode_aux s 2 (v mod 16) 0 with Some r => Some (l * 4 + v / 16 :: r) | None => None end
  else if q =? 2 then
    match b64_decode_aux s 3 (v mod 4) 0 with Some r => Some (l * 16 + v / 4 :: r) | None => None end
  else
    match b64_decode_aux s 0 0 0 with Some r => Some (l * 64 + v :: r) | None => None end.
Proof.
  intros Hv. cbn [b64_decode_aux]. rewrite b64_char_neq, b64_char_val by exact Hv. reflexivity.
Qed.

Lemma list_ind3 {A} (P : list A -> Prop) :
  P [] -> (forall x, P [x]) -> (forall x y, P [x; y]) ->
  (forall x y z r, P r -> P (x :: y :: z :: r)) -> forall l, P l.
Proof.
  intros H0 H1 H2 H3. fix IH 1. intros [|x [|y [|z r]]].
  - exact H0.
  - apply H1.
  - apply H2.
  - apply H3, IH.
Qed.

Lemma step0 s l p v : v < 64 -> b64_decode_aux (b64_char v :: s) 0 l p = b64_decode_aux s 1 v 0.
Proof. intros Hv. rewrite dec_step by exact Hv. reflexivity. Qed.
Lemma step1 s l p v r : v < 64 -> b64_decode_aux s 2 (v mod 16) 0 = Some r ->
  b64_decode_aux (b64_char v :: s) 1 l p = Some (l * 4 + v / 16 :: r).
Proof. intros Hv H. rewrite dec_step by exact Hv. rewrite H. reflexivity. Qed.
Lemma step2 s l p v r : v < 64 -> b64_decode_aux s 3 (v mod 4) 0 = Some r ->
  b64_decode_aux (b64_char v :: s) 2 l p = Some (l * 16 + v / 4 :: r).
Proof. intros Hv H. rewrite dec_step by exact Hv. rewrite H. reflexivity. Qed.
Lemma step3 s l p v r : v < 64 -> b64_decode_aux s 0 0 0 = Some r ->
  b64_decode_aux (b64_char v :: s) 3 l p = Some (l * 64 + v :: r).
Proof. intros Hv H. rewrite dec_step by exact Hv. rewrite H. reflexivity. Qed.

Lemma decode_encode b : bytes_ok b -> b64_decode (b64_encode b) = Some b.
Proof.
  unfold b64_decode, bytes_ok. induction b as [|x|x y|x y z r IH] using list_ind3; intros Hb.
  - reflexivity.
  - inversion Hb as [|? ? Hx _]; subst. cbn [b64_encode].
    rewrite step0 by lia. rewrite step1 with (r := []); [|lia|reflexivity].
    f_equal. f_equal. lia.
  - inversion Hb as [|? ? Hx Hb']; subst. inversion Hb' as [|? ? Hy _]; subst. cbn [b64_encode].
    rewrite step0 by lia. erewrite step1; [|lia|]. 2:{ erewrite step2; [reflexivity|lia|reflexivity]. }
    f_equal. f_equal; [lia|]. f_equal. lia.
  - inversion Hb as [|? ? Hx Hb']; subst. inversion Hb' as [|? ? Hy Hb'']; subst.
    inversion Hb'' as [|? ? Hz Hr]; subst. cbn [b64_encode].
    rewrite step0 by lia. erewrite step1; [|lia|].
    2:{ erewrite step2; [reflexivity|lia|]. erewrite step3; [reflexivity|lia|exact (IH Hr)]. }
    f_equal. f_equal; [lia|]. f_equal; [lia|]. f_equal. lia.
Qed.

Lemma encode_shape b :
  bytes_ok b ->
  exists t k, b64_encode b = t ++ repeat 61 k /\ Forall urlsafe_char t /\ (k <= 2)%nat
    /\ (length (b64_encode b) = 4 * ((length b + 2) / 3))%nat.
Proof.
  unfold bytes_ok. induction b as [|x|x y|x y z r IH] using list_ind3; intros Hb.
  - exists [], O. repeat split; auto.
  - inversion Hb as [|? ? Hx _]; subst.
    exists [b64_char (x / 4); b64_char (x mod 4 * 16)], 2%nat.
    split; [reflexivity|]. split; [|split; [lia|reflexivity]].
    repeat (constructor; [apply b64_char_safe; lia|]); constructor.
  - inversion Hb as [|? ? Hx Hb']; subst. inversion Hb' as [|? ? Hy _]; subst.
    exists [b64_char (x / 4); b64_char (x mod 4 * 16 + y / 16); b64_char (y mod 16 * 4)], 1%nat.
    split; [reflexivity|]. split; [|split; [lia|reflexivity]].
    repeat (constructor; [apply b64_char_safe; lia|]); constructor.
  - inversion Hb as [|? ? Hx Hb']; subst. inversion Hb' as [|? ? Hy Hb'']; subst.
    inversion Hb'' as [|? ? Hz Hr]; subst.
    destruct (IH Hr) as [t [k [H1 [H2 [H3 H4]]]]].
    exists (b64_char (x / 4) :: b64_char (x mod 4 * 16 + y / 16) :: b64_char (y mod 16 * 4 + z / 64)
            :: b64_char (z mod 64) :: t), k.
    cbn [b64_encode]. split; [rewrite H1; reflexivity|].
    split; [repeat (constructor; [apply b64_char_safe; lia|]); exact H2|].
    split; [exact H3|]. cbn [length]. rewrite H4.
    replace (S (S (S (length r))) + 2)%nat with (length r + 2 + 1 * 3)%nat by lia.
    rewrite Nat.div_add by lia. lia.
Qed.

(** @prop C07 A native byte string is accepted by Binary exactly when its number of bytes is within
    the bounds, unchanged; otherwise [min_length] or [max_length]; anything else but null is an
    InvalidTypeError. *)
Lemma binary_native_exact :
  forall E desc recon n p mn mx partial ph anc,
    plain p ->
    let out v := process_gen E desc recon n (Fld p (KBinary mn mx)) partial ph false anc v in
    let path := path_of p (KBinary mn mx) anc in
    (forall b, let len := Z.of_nat (length b) in
       (forall r, out (VBytes b) = Ok r <->
          r = VBytes b /\ at_least Z.le mn len /\ at_most Z.le mx len)
       /\ (~ at_least Z.le mn len -> out (VBytes b) = fails path $"min_length")
       /\ (at_least Z.le mn len -> ~ at_most Z.le mx len -> out (VBytes b) = fails path $"max_length"))
    /\ (forall v, v <> VNone -> (forall b, v <> VBytes b) -> out v = invalid_type path).
Proof.
  intros E desc recon n p mn mx partial ph anc Hp out path.
  assert (Hout : forall v, v <> VNone -> out v = validate_value E (KBinary mn mx : kind) path v).
  { intros v Hv. unfold out. rewrite process_native by (auto; intros [_ [=]]).
    unfold serial. cbn [andb]. fold path.
    destruct (validate_value E (KBinary mn mx : kind) path v); reflexivity. }
  split.
  - intros b len. rewrite (Hout (VBytes b)) by discriminate. cbn [validate_value]. unfold zlen.
    fold len.
    destruct (check_length_spec path mn mx len (VBytes b))
      as [[H1 [H2 H]]|[[[m [Hm Hx]] H]|[H1 [[m [Hm Hx]] H]]]]; rewrite H.
    + split; [|split; intros; contradiction].
      intros r. split; [intros [= <-]; auto | intros [-> _]; reflexivity].
    + assert (Hn : ~ at_least Z.le mn len) by (intros H3; specialize (H3 m Hm); lia).
      split; [|split; [reflexivity | intros; contradiction]].
      intros r. split; [discriminate | intros [_ [H3 _]]; contradiction].
    + assert (Hn : ~ at_most Z.le mx len) by (intros H3; specialize (H3 m Hm); lia).
      split; [|split; [intros; contradiction | reflexivity]].
      intros r. split; [discriminate | intros [_ [_ H3]]; contradiction].
  - intros v Hv Hb. rewrite Hout by exact Hv.
    destruct v; try reflexivity. exfalso. eapply Hb. reflexivity.
Qed.

(** @prop C07 Round trip: an accepted byte string is serialized to [4 * ceil(n / 3)] characters of
    the URL-safe alphabet followed by at most two [=], and unserializing gives it back. *)
Lemma binary_round_trip :
  forall E desc recon n p mn mx partial anc b s,
    plain p -> bytes_ok b ->
    process_gen E desc recon n (Fld p (KBinary mn mx)) partial Outbound true anc (VBytes b) = Ok s ->
    exists t k,
      s = VBytes (t ++ repeat 61 k)
      /\ Forall urlsafe_char t /\ (k <= 2)%nat
      /\ (length t + k = 4 * ((length b + 2) / 3))%nat
      /\ process_gen E desc recon n (Fld p (KBinary mn mx)) partial Inbound true anc s = Ok (VBytes b).
Proof.
  intros E desc recon n p mn mx partial anc b s Hp Hb H.
  rewrite process_native in H by (auto; try discriminate; intros [[=] _]).
  apply bind_Ok in H. destruct H as [a [H1 H2]].
  assert (Ha : a = VBytes b).
  { cbn [validate_value] in H1. unfold check_length in H1.
    destruct (below _ _ _); [discriminate|]. destruct (above _ _ _); [discriminate|]. congruence. }
  subst a. cbn in H2. injection H2 as <-.
  destruct (encode_shape b Hb) as [t [k [H3 [H4 [H5 H6]]]]].
  exists t, k. split; [rewrite H3; reflexivity|]. split; [exact H4|]. split; [exact H5|].
  split; [rewrite H3, app_length, repeat_length in H6; exact H6|].
  rewrite process_inbound by (auto; discriminate).
  cbn [unserialize_value]. rewrite decode_encode by exact Hb. cbn [bind]. exact H1.
Qed.

(** @example
Example C07_example :
  run0 (Fld p0 (KBinary (Some 1%Z) None)) Outbound true (VBytes [255; 254; 0; 63])
    = Ok (VBytes $"__4APw==")
  /\ run0 (Fld p0 (KBinary (Some 1%Z) None)) Inbound true (VBytes $"__4APw==")
    = Ok (VBytes [255; 254; 0; 63])
  /\ bytes_ok [255; 254; 0; 63].
Proof. repeat split; try reflexivity. repeat constructor. Qed.
@end *)

(** ** C08 *)

Definition cnt (s : list N) : N := N.of_nat (length (filter base64_char s)).

Lemma b64_val_char c : base64_char c = true <-> exists v, b64_val c = Some v.
Proof.
  unfold base64_char, b64_val. split.
  - intros H. destruct ((65 <=? c) && (c <=? 90)); [eauto|].
    destruct ((97 <=? c) && (c <=? 122)); [eauto|].
    destruct ((48 <=? c) && (c <=? 57)); [eauto|].
    destruct (c =? 43); [cbn; eauto|]. destruct (c =? 45); [cbn; eauto|].
    destruct (c =? 47); [cbn; eauto|]. destruct (c =? 95); [cbn; eauto|]. cbn in H. discriminate.
  - intros [v H]. destruct ((65 <=? c) && (c <=? 90)); [reflexivity|].
    destruct ((97 <=? c) && (c <=? 122)); [reflexivity|].
    destruct ((48 <=? c) && (c <=? 57)); [reflexivity|].
    destruct (c =? 43); [reflexivity|]. destruct (c =? 47); [reflexivity|].
    destruct (c =? 45); [reflexivity|]. destruct (c =? 95); [reflexivity|]. discriminate.
Qed.

Lemma decode_count s :
  ~ In 61 s -> forall q l p, q < 4 ->
  (b64_decode_aux s q l p = None <-> (q + cnt s) mod 4 <> 0).
Proof.
  unfold cnt. induction s as [|c s IH]; intros Hn q l p Hq; cbn [b64_decode_aux filter].
  - destruct (N.eqb_spec q 0) as [->|Hq0]; cbn [length]; split; intros H; try discriminate; try lia;
      try congruence.
  - destruct (N.eqb_spec c 61) as [->|Hc]; [exfalso; apply Hn; left; reflexivity|].
    assert (Hn' : ~ In 61 s) by (intros Hi; apply Hn; right; exact Hi).
    destruct (base64_char c) eqn:Hb.
    + destruct (proj1 (b64_val_char c) Hb) as [v Hv]. rewrite Hv. cbn [length].
      assert (Hq' : q = 0 \/ q = 1 \/ q = 2 \/ q = 3) by lia.
      destruct Hq' as [->|[->|[->| ->]]].
      * cbn [N.eqb]. rewrite IH by (auto; lia).
        replace (0 + N.of_nat (S (length (filter base64_char s))))
          with (1 + N.of_nat (length (filter base64_char s))) by lia. reflexivity.
      * change (1 =? 0) with false. change (1 =? 1) with true. cbv iota.
        specialize (IH Hn' 2 (v mod 16) 0 ltac:(lia)).
        replace (1 + N.of_nat (S (length (filter base64_char s))))
          with (2 + N.of_nat (length (filter base64_char s))) by lia. rewrite <- IH.
        destruct (b64_decode_aux s 2 (v mod 16) 0); split; intros; congruence.
      * change (2 =? 0) with false. change (2 =? 1) with false. change (2 =? 2) with true. cbv iota.
        specialize (IH Hn' 3 (v mod 4) 0 ltac:(lia)).
        replace (2 + N.of_nat (S (length (filter base64_char s))))
          with (3 + N.of_nat (length (filter base64_char s))) by lia. rewrite <- IH.
        destruct (b64_decode_aux s 3 (v mod 4) 0); split; intros; congruence.
      * change (3 =? 0) with false. change (3 =? 1) with false. change (3 =? 2) with false. cbv iota.
        specialize (IH Hn' 0 0 0 ltac:(lia)).
        assert (Hm : (3 + N.of_nat (S (length (filter base64_char s)))) mod 4
                     = (0 + N.of_nat (length (filter base64_char s))) mod 4) by lia.
        rewrite Hm, <- IH.
        destruct (b64_decode_aux s 0 0 0); split; intros; congruence.
    + destruct (b64_val c) as [v|] eqn:Hv.
      * exfalso. assert (base64_char c = true) by (apply b64_val_char; eauto). congruence.
      * apply IH; auto.
Qed.

(** @prop C08 REFUTED: malformed base64 makes [process] raise binascii.Error instead of a
    ValidationError. *)
Lemma binary_malformed_refuted :
  exists E desc recon n p b,
    plain p /\ p_nonnull p = false
    /\ process_gen E desc recon n (Fld p (KBinary None None)) false Inbound true [] (VBytes b)
       = Raise (XPy BinasciiError).
Proof.
  exists env0, nodesc, norecon, O, p0, $"A". repeat split; reflexivity.
Qed.

(** @prop C08 What holds: for data without padding characters binascii.Error escapes exactly when
    the number of alphabet characters is not a multiple of 4 (other characters are skipped
    silently), and unserialization never raises anything but it and structural errors. *)
Lemma binary_malformed_partial :
  forall E desc recon n p mn mx partial anc,
    plain p ->
    let out v := process_gen E desc recon n (Fld p (KBinary mn mx)) partial Inbound true anc v in
    (forall b, ~ In 61 b ->
       (out (VBytes b) = Raise (XPy BinasciiError)
        <-> (length (filter base64_char b) mod 4 <> 0)%nat))
    /\ (forall v x, out v = Raise (XPy x) -> x = BinasciiError)
    /\ (forall v, v <> VNone -> (forall b, v <> VBytes b) ->
         out v = invalid_type (path_of p (KBinary mn mx) anc)).
Proof.
  intros E desc recon n p mn mx partial anc Hp out.
  assert (Hout : forall v, v <> VNone ->
            out v = (do v1 <- unserialize_value E recon (KBinary mn mx : kind) (path_of p (KBinary mn mx) anc) v;
                     validate_value E (KBinary mn mx : kind) (path_of p (KBinary mn mx) anc) v1)).
  { intros v Hv. unfold out. apply process_inbound; auto. }
  assert (Hval : forall r x, validate_value E (KBinary mn mx : kind) (path_of p (KBinary mn mx) anc) (VBytes r)
                             <> Raise (XPy x)).
  { intros r x. cbn [validate_value]. unfold check_length.
    destruct (below _ _ _); [discriminate|]. destruct (above _ _ _); discriminate. }
  split; [|split].
  - intros b Hb. rewrite (Hout (VBytes b)) by discriminate. cbn [unserialize_value].
    assert (Hd := decode_count b Hb 0 0 0 ltac:(lia)). unfold b64_decode, cnt in *.
    rewrite N.add_0_l in Hd.
    assert (Hm : N.of_nat (length (filter base64_char b)) mod 4 <> 0
                 <-> (length (filter base64_char b) mod 4 <> 0)%nat).
    { assert (Hmm : N.of_nat (length (filter base64_char b) mod 4)
                    = N.of_nat (length (filter base64_char b)) mod 4) by (apply Nat2N.inj_mod).
      rewrite <- Hmm. split; intros H1 H2; apply H1; lia. }
    rewrite <- Hm, <- Hd.
    destruct (b64_decode_aux b 0 0 0) as [r|]; cbn [bind].
    + split; [intros H; exfalso; eapply Hval; exact H | discriminate].
    + split; reflexivity.
  - intros v x. destruct (match v with VNone => true | _ => false end) eqn:Hv.
    + destruct v; try discriminate. unfold out. rewrite process_basic by reflexivity.
      rewrite scalar_null. destruct (p_nonnull p); discriminate.
    + rewrite Hout by (intros ->; discriminate). cbn [unserialize_value].
      destruct v; cbn [bind terr]; try discriminate.
      destruct (b64_decode b) as [r|]; cbn [bind].
      * intros H. exfalso. eapply Hval. exact H.
      * intros [= <-]. reflexivity.
  - intros v Hv Hb. rewrite Hout by exact Hv. cbn [unserialize_value].
    destruct v; try reflexivity. exfalso. eapply Hb. reflexivity.
Qed.

(** @example
Example C08_example :
  run0 (Fld p0 (KBinary None None)) Inbound true (VBytes $"QUJD*R") = Raise (XPy BinasciiError)
  /\ run0 (Fld p0 (KBinary None None)) Inbound true (VBytes $"QU*JD") = Ok (VBytes $"ABC")
  /\ ~ In 61 $"QUJD*R".
Proof.
  repeat split; try reflexivity. cbv. intros H. repeat destruct H as [H|H]; try discriminate. exact H.
Qed.
@end *)
