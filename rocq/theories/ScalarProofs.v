(** * Scalar fields: proofs.
    (* @imports Spec Demo *) *)
From Coq Require Import Qpower.
From Verif Require Import PyBaseFacts NumFacts Induct Spec Demo ProcessFacts.
Open Scope Z_scope.

(** ** Workhorses *)

Lemma path_of_eq (p : params) (k : kind) anc {F} (k' : kindP val F) :
  kind_type k' = kind_type k ->
  match anc with [] => [guaranteed_name p (kind_type k')] | _ => anc end = path_of p k anc.
Proof.
  intros H. unfold path_of, guaranteed_name. rewrite H.
  destruct anc; [destruct (p_name p) as [[|]|]; reflexivity | reflexivity].
Qed.

Lemma kind_type_kmap {V F G} (g : F -> G) (k : kindP V F) : kind_type (kmap g k) = kind_type k.
Proof. destruct k; reflexivity. Qed.

Lemma process_basic E desc recon n p (k : kind) partial ph ser anc v :
  basic k = true ->
  process_gen E desc recon n (Fld p k) partial ph ser anc v =
  process_scalar E p k (unserialize_value E recon k) (serialize_value E desc k)
    ph ser (path_of p k anc) v.
Proof.
  intros Hb. rewrite process_Fld. unfold process_body.
  rewrite (path_of_eq p k anc) by apply kind_type_kmap.
  destruct k; try discriminate Hb; reflexivity.
Qed.

Definition no_builtin_pre {F} (k : kindP val F) : bool :=
  match k with KEmail _ _ _ _ => false | _ => true end.

Lemma preprocess_plain {F} E p (k : kindP val F) v :
  plain p -> no_builtin_pre k = true -> preprocess E p k v = Ok v.
Proof.
  intros [Hp _] Hk. unfold preprocess. rewrite Hp. destruct k; try reflexivity. discriminate Hk.
Qed.

Definition serial E desc {F} (k : kindP val F) (anc : list str) (ph : phase) (ser : bool) (v : val) :=
  if ser && phase_eqb ph Outbound then
    match serialize_value E desc k v with
    | Raise (XPy OverflowError) => verr anc $"overflow"
    | r => r
    end
  else Ok v.

Lemma native_eqb ph ser : native ph ser -> ser && phase_eqb ph Inbound = false.
Proof.
  intros H. destruct ph, ser; cbn; try reflexivity. exfalso. apply H. auto.
Qed.

Lemma scalar_plain {F} E p (k : kindP val F) unser ser_v ph ser anc v :
  plain p -> no_builtin_pre k = true -> kind_ignored k = None -> v <> VNone ->
  process_scalar E p k unser ser_v ph ser anc v =
  (do v1 <- (if ser && phase_eqb ph Inbound then unser anc v else Ok v);
   do v3 <- validate_value E k anc v1;
   if ser && phase_eqb ph Outbound then
     match ser_v v3 with
     | Raise (XPy OverflowError) => verr anc $"overflow"
     | r => r
     end
   else Ok v3).
Proof.
  intros Hp Hk Hi Hv. unfold process_scalar. rewrite Hi.
  rewrite is_null_some by exact Hv. cbn [bind].
  destruct (if ser && phase_eqb ph Inbound then unser anc v else Ok v) as [v1|x]; [|reflexivity].
  cbn [bind]. rewrite preprocess_plain by assumption. cbn [bind].
  destruct Hp as [_ Hc]. rewrite Hc. reflexivity.
Qed.

Lemma process_native E desc recon n p (k : kind) partial ph ser anc v :
  basic k = true -> plain p -> no_builtin_pre k = true -> kind_ignored k = None ->
  v <> VNone -> native ph ser ->
  process_gen E desc recon n (Fld p k) partial ph ser anc v =
  (do r <- validate_value E k (path_of p k anc) v;
   serial E desc k (path_of p k anc) ph ser r).
Proof.
  intros Hb Hp Hk Hi Hv Hn. rewrite process_basic by exact Hb.
  rewrite scalar_plain by assumption. rewrite native_eqb by exact Hn. reflexivity.
Qed.

Lemma process_inbound E desc recon n p (k : kind) partial anc v :
  basic k = true -> plain p -> no_builtin_pre k = true -> kind_ignored k = None ->
  v <> VNone ->
  process_gen E desc recon n (Fld p k) partial Inbound true anc v =
  (do v1 <- unserialize_value E recon k (path_of p k anc) v;
   validate_value E k (path_of p k anc) v1).
Proof.
  intros Hb Hp Hk Hi Hv. rewrite process_basic by exact Hb.
  rewrite scalar_plain by assumption. cbn.
  destruct (unserialize_value E recon k (path_of p k anc) v); [|reflexivity].
  cbn. destruct (validate_value E k (path_of p k anc) a); reflexivity.
Qed.

Lemma scalar_null {F} E p (k : kindP val F) unser ser_v ph ser anc :
  process_scalar E p k unser ser_v ph ser anc VNone =
  if p_nonnull p then verr anc $"nonnull" else Ok VNone.
Proof.
  unfold process_scalar. rewrite is_null_none. destruct (p_nonnull p); reflexivity.
Qed.

(** Two-sided bound check. *)
Lemma check_bounds_spec {A} (lt : A -> A -> bool) (le : A -> A -> Prop) anc mn mx x r :
  (forall a b, lt a b = false <-> le b a) ->
  (at_least le mn x /\ at_most le mx x /\ check_bounds lt anc mn mx x r = Ok r)
  \/ ((exists m, mn = Some m /\ ~ le m x) /\ check_bounds lt anc mn mx x r = verr anc $"minimum")
  \/ (at_least le mn x /\ (exists m, mx = Some m /\ ~ le x m)
      /\ check_bounds lt anc mn mx x r = verr anc $"maximum").
Proof.
  intros Hlt. unfold check_bounds, below, above, at_least, at_most.
  assert (Hmin : match mn with Some b => lt x b | None => false end = false <->
                 (forall m, mn = Some m -> le m x)).
  { destruct mn as [b|].
    - rewrite Hlt. split; [intros H m [= <-]; exact H | intros H; apply H; reflexivity].
    - split; [intros _ m [=] | reflexivity]. }
  assert (Hmax : match mx with Some b => lt b x | None => false end = false <->
                 (forall m, mx = Some m -> le x m)).
  { destruct mx as [b|].
    - rewrite Hlt. split; [intros H m [= <-]; exact H | intros H; apply H; reflexivity].
    - split; [intros _ m [=] | reflexivity]. }
  destruct (match mn with Some b => lt x b | None => false end) eqn:H1.
  - right. left. split; [|reflexivity].
    destruct mn as [b|]; [|discriminate]. exists b. split; [reflexivity|].
    rewrite <- Hlt. congruence.
  - destruct (match mx with Some b => lt b x | None => false end) eqn:H2.
    + right. right. split; [apply Hmin; reflexivity|]. split; [|reflexivity].
      destruct mx as [b|]; [|discriminate]. exists b. split; [reflexivity|].
      rewrite <- Hlt. congruence.
    + left. split; [apply Hmin; reflexivity|]. split; [apply Hmax; reflexivity|reflexivity].
Qed.

Lemma check_bounds_ok {A} (lt : A -> A -> bool) (le : A -> A -> Prop) anc mn mx x r r' :
  (forall a b, lt a b = false <-> le b a) ->
  check_bounds lt anc mn mx x r = Ok r' <-> (at_least le mn x /\ at_most le mx x /\ r' = r).
Proof.
  intros Hlt.
  destruct (check_bounds_spec lt le anc mn mx x r Hlt)
    as [[H1 [H2 H]]|[[[m [Hm Hx]] H]|[H1 [[m [Hm Hx]] H]]]]; rewrite H.
  - split; [intros [= <-]; auto | intros [_ [_ ->]]; reflexivity].
  - split; [discriminate | intros [H1 _]; exfalso; apply Hx, H1, Hm].
  - split; [discriminate | intros [_ [H2 _]]; exfalso; apply Hx, H2, Hm].
Qed.

Lemma zle_lt a b : (a <? b) = false <-> b <= a.
Proof. rewrite Z.ltb_ge. reflexivity. Qed.

(** ** C01 *)

(** @prop C01 A nullable field maps null to null: for every field type, parameters, phase,
    serialization flag, ancestry and fuel. *)
Lemma null_accepted :
  forall E desc recon n p k partial ph ser anc,
    p_nonnull p = false ->
    process_gen E desc recon n (Fld p k) partial ph ser anc VNone = Ok VNone.
Proof.
  intros E desc recon n p k partial ph ser anc Hn.
  rewrite process_Fld. unfold process_body.
  destruct k; cbn [kmap];
    try (rewrite scalar_null, Hn; reflexivity);
    unfold process_sequence, process_map, process_tuple, process_union, process_structure;
    rewrite is_null_none, Hn; reflexivity.
Qed.

(** @prop C01 A nonnull field rejects null with exactly the token [nonnull]. *)
Lemma null_rejected :
  forall E desc recon n p k partial ph ser anc,
    p_nonnull p = true ->
    process_gen E desc recon n (Fld p k) partial ph ser anc VNone
    = fails (path_of p k anc) $"nonnull".
Proof.
  intros E desc recon n p k partial ph ser anc Hn.
  rewrite process_Fld. unfold process_body.
  rewrite (path_of_eq p k anc) by apply kind_type_kmap.
  destruct k; cbn [kmap];
    try (rewrite scalar_null, Hn; reflexivity);
    unfold process_sequence, process_map, process_tuple, process_union, process_structure;
    rewrite is_null_none, Hn; reflexivity.
Qed.

(** @example
Example C01_example :
  run0 (Fld p_nn (KSequence (Fld p0 (KInteger (Some 3%Z) None)) (Some 2%Z) None false)) Inbound true VNone
  = fails [$"(sequence)"] $"nonnull"
  /\ run0 (Fld (p_const (VInt 7)) (KInteger (Some 3%Z) None)) Outbound true VNone = Ok VNone.
Proof. split; reflexivity. Qed.
@end *)

(** ** C02 *)

(** @prop C02 Acceptance of native values by Integer, exactly. *)
Lemma integer_native_accepts :
  forall E desc recon n p mn mx partial ph ser anc v r,
    plain p -> native ph ser ->
    (process_gen E desc recon n (Fld p (KInteger mn mx)) partial ph ser anc v = Ok r
     <-> null_ok p v r
         \/ exists z, v = VInt z /\ r = VInt z /\ at_least Z.le mn z /\ at_most Z.le mx z).
Proof.
  intros E desc recon n p mn mx partial ph ser anc v r Hp Hn. unfold null_ok.
  assert (Hv : v = VNone \/ v <> VNone) by (destruct v; auto; right; discriminate).
  destruct Hv as [->|Hv].
  - destruct (p_nonnull p) eqn:Hnn.
    + rewrite null_rejected by exact Hnn. split; [discriminate|].
      intros [[_ [H _]]|[z [H _]]]; discriminate.
    + rewrite null_accepted by exact Hnn. split; [intros [= <-]; auto|].
      intros [[_ [_ ->]]|[z [H _]]]; [reflexivity|discriminate].
  - rewrite process_native by (auto; reflexivity).
    unfold validate_value. destruct v; cbn [bind terr]; try congruence;
      try (split; [discriminate|]; intros [[H _]|[z' [H _]]]; discriminate).
    rewrite bind_Ok. split.
    + intros [a [H1 H2]]. apply (check_bounds_ok _ Z.le _ _ _ _ _ _ zle_lt) in H1.
      destruct H1 as [H3 [H4 ->]]. right. exists z. repeat split; auto.
      unfold serial in H2. destruct (ser && phase_eqb ph Outbound); cbn in H2; congruence.
    + intros [[H _]|[z' [H [-> [H3 H4]]]]]; [discriminate|]. injection H as <-.
      exists (VInt z). split.
      * apply (check_bounds_ok _ Z.le _ _ _ _ _ _ zle_lt). auto.
      * unfold serial. destruct (ser && phase_eqb ph Outbound); reflexivity.
Qed.

(** @prop C02 The error of a rejected native value: [minimum] below, [maximum] above, otherwise
    an InvalidTypeError [invalid]. *)
Lemma integer_native_errors :
  forall E desc recon n p mn mx partial ph ser anc v,
    plain p -> native ph ser ->
    let out := process_gen E desc recon n (Fld p (KInteger mn mx)) partial ph ser anc v in
    let path := path_of p (KInteger mn mx) anc in
    (forall z m, v = VInt z -> mn = Some m -> z < m -> out = fails path $"minimum")
    /\ (forall z m, v = VInt z -> mx = Some m -> m < z -> at_least Z.le mn z ->
        out = fails path $"maximum")
    /\ ((forall z, v <> VInt z) -> v <> VNone -> out = invalid_type path).
Proof.
  intros E desc recon n p mn mx partial ph ser anc v Hp Hn out path.
  assert (Hout : v <> VNone -> out = (do r <- validate_value E (KInteger mn mx : kind) path v;
                      serial E desc (KInteger mn mx : kind) path ph ser r)).
  { intros Hv. unfold out, path. apply process_native; auto. }
  split; [|split].
  - intros z m -> -> Hlt. rewrite Hout by discriminate. cbn [validate_value].
    unfold check_bounds, below. assert (H : (z <? m) = true) by lia. rewrite H. reflexivity.
  - intros z m -> -> Hlt Hmin. rewrite Hout by discriminate. cbn [validate_value].
    unfold check_bounds, below, above.
    assert (H : match mn with Some b => z <? b | None => false end = false).
    { destruct mn as [b|]; [|reflexivity]. specialize (Hmin b eq_refl). lia. }
    rewrite H. assert (H' : (m <? z) = true) by lia. rewrite H'. reflexivity.
  - intros Hz Hv. rewrite Hout by exact Hv.
    destruct v; try reflexivity. exfalso. apply (Hz z). reflexivity.
Qed.

(** @example
Example C02_example :
  let f := Fld p0 (KInteger (Some 3%Z) (Some 9%Z)) in
  run0 f Inbound false (VInt 9) = Ok (VInt 9)
  /\ run0 f Inbound false (VInt 2) = fails [$"(integer)"] $"minimum"
  /\ run0 f Inbound false (VInt 10) = fails [$"(integer)"] $"maximum"
  /\ run0 f Outbound true (VBool true) = invalid_type [$"(integer)"].
Proof. repeat split; reflexivity. Qed.
@end *)

(** ** C14 *)

(** @prop C14 Boolean accepts exactly the two booleans, unchanged, in every phase; anything else
    that is not null is an InvalidTypeError. *)
Lemma boolean_exact :
  forall E desc recon n p partial ph ser anc v,
    plain p -> v <> VNone ->
    let out := process_gen E desc recon n (Fld p KBoolean) partial ph ser anc v in
    (forall r, out = Ok r <-> (v = VBool true \/ v = VBool false) /\ r = v)
    /\ ((forall b, v <> VBool b) -> out = invalid_type (path_of p KBoolean anc)).
Proof.
  intros E desc recon n p partial ph ser anc v Hp Hv out.
  assert (Hout : out = match v with
                       | VBool _ => Ok v
                       | _ => terr (path_of p KBoolean anc) $"invalid" end).
  { unfold out. rewrite process_basic by reflexivity.
    rewrite scalar_plain by (auto; reflexivity).
    cbn [unserialize_value].
    destruct (ser && phase_eqb ph Inbound); cbn [bind validate_value];
      destruct v; cbn; try reflexivity; destruct (ser && phase_eqb ph Outbound); reflexivity. }
  rewrite Hout. split.
  - intros r. destruct v as [|b| | | | | | | | | | | | | | | ]; try congruence;
      try (split; [discriminate|]; intros [[H|H] _]; discriminate).
    split.
    + intros [= <-]. destruct b; auto.
    + intros [_ ->]. reflexivity.
  - intros Hb. destruct v; try reflexivity. exfalso. eapply Hb. reflexivity.
Qed.

(** @example
Example C14_example :
  run0 (Fld p0 KBoolean) Outbound true (VBool false) = Ok (VBool false)
  /\ run0 (Fld p0 KBoolean) Inbound true (VInt 1) = invalid_type [$"(boolean)"].
Proof. split; reflexivity. Qed.
@end *)

(** ** C04 *)

Lemma pow2_Qpower e : (pow2 e == Qpower (2 # 1) e)%Q.
Proof.
  assert (Hp : forall q, (inject_Z (2 ^ Zpos q) == Qpower_positive (2 # 1) q)%Q).
  { intros q. change (Qpower_positive (2 # 1) q) with (Qpower (inject_Z 2) (Zpos q)).
    apply Zpower_Qpower. lia. }
  unfold pow2, Qpower. destruct e as [|q|q]; [reflexivity|apply Hp|].
  rewrite Hp. reflexivity.
Qed.

Definition nan_or (R : spec_float -> spec_float -> Prop) (a b : spec_float) : Prop :=
  a = S754_nan \/ b = S754_nan \/ R a b.

Lemma num_of_float_Q f q : num_of_float f = NQ q -> (q == float_Q f)%Q.
Proof.
  destruct f; cbn; try discriminate; intros [= <-]; [reflexivity|].
  rewrite pow2_Qpower. reflexivity.
Qed.

Lemma float_ltb_spec a b :
  num_ltb (num_of_float a) (num_of_float b) = false <-> nan_or float_le b a.
Proof.
  unfold nan_or.
  assert (Hq : forall x y, num_of_float a = NQ x -> num_of_float b = NQ y ->
               (Qlt_bool x y = false <-> (float_Q b <= float_Q a)%Q)).
  { intros x y Hx Hy. apply num_of_float_Q in Hx. apply num_of_float_Q in Hy.
    unfold Qlt_bool. rewrite negb_false_iff, Qle_bool_iff, Hx, Hy. reflexivity. }
  destruct a as [sa|sa| |sa ma ea], b as [sb|sb| |sb mb eb]; cbn [num_of_float num_ltb] in *;
    try (destruct sa); try (destruct sb); cbn [float_le negb];
    try (rewrite (Hq _ _ eq_refl eq_refl));
    intuition (try discriminate; auto).
Qed.

(** @prop C04 Acceptance of native values by Float, exactly: only floats; the bounds hold unless a
    NaN is involved. *)
Lemma float_native_accepts :
  forall E desc recon n p mn mx partial ph ser anc v r,
    plain p -> native ph ser ->
    (process_gen E desc recon n (Fld p (KFloat mn mx)) partial ph ser anc v = Ok r
     <-> null_ok p v r
         \/ exists x, v = VFloat x /\ r = VFloat x
              /\ at_least (fun a b => a = S754_nan \/ b = S754_nan \/ float_le a b) mn x
              /\ at_most (fun a b => a = S754_nan \/ b = S754_nan \/ float_le a b) mx x).
Proof.
  intros E desc recon n p mn mx partial ph ser anc v r Hp Hn. unfold null_ok.
  assert (Hv : v = VNone \/ v <> VNone) by (destruct v; auto; right; discriminate).
  destruct Hv as [->|Hv].
  - destruct (p_nonnull p) eqn:Hnn.
    + rewrite null_rejected by exact Hnn. split; [discriminate|].
      intros [[_ [H _]]|[z [H _]]]; discriminate.
    + rewrite null_accepted by exact Hnn. split; [intros [= <-]; auto|].
      intros [[_ [_ ->]]|[z [H _]]]; [reflexivity|discriminate].
  - rewrite process_native by (auto; reflexivity).
    unfold validate_value. destruct v; cbn [bind terr]; try congruence;
      try (split; [discriminate|]; intros [[H _]|[z' [H _]]]; discriminate).
    rewrite bind_Ok. split.
    + intros [a [H1 H2]].
      apply (check_bounds_ok _ (nan_or float_le) _ _ _ _ _ _ float_ltb_spec) in H1.
      destruct H1 as [H3 [H4 ->]]. right. exists f. repeat split; auto.
      unfold serial in H2. destruct (ser && phase_eqb ph Outbound); cbn in H2; congruence.
    + intros [[H _]|[z' [H [-> [H3 H4]]]]]; [discriminate|]. injection H as <-.
      exists (VFloat f). split.
      * apply (check_bounds_ok _ (nan_or float_le) _ _ _ _ _ _ float_ltb_spec). auto.
      * unfold serial. destruct (ser && phase_eqb ph Outbound); reflexivity.
Qed.

(** @prop C04 NaN is accepted whatever the bounds are. *)
Lemma float_nan_accepted :
  forall E desc recon n p mn mx partial ph ser anc,
    plain p -> native ph ser ->
    process_gen E desc recon n (Fld p (KFloat mn mx)) partial ph ser anc (VFloat S754_nan)
    = Ok (VFloat S754_nan).
Proof.
  intros E desc recon n p mn mx partial ph ser anc Hp Hn.
  apply float_native_accepts; auto. right. exists S754_nan.
  unfold at_least, at_most. repeat split; auto.
Qed.

(** @prop C04 Rejections of native values: [minimum], [maximum] or an InvalidTypeError. *)
Lemma float_native_errors :
  forall E desc recon n p mn mx partial ph ser anc v,
    plain p -> native ph ser ->
    let out := process_gen E desc recon n (Fld p (KFloat mn mx)) partial ph ser anc v in
    let path := path_of p (KFloat mn mx) anc in
    (forall x m, v = VFloat x -> mn = Some m -> m <> S754_nan -> x <> S754_nan ->
       ~ float_le m x -> out = fails path $"minimum")
    /\ (forall x m, v = VFloat x -> mx = Some m -> m <> S754_nan -> x <> S754_nan ->
         at_least float_le mn x -> ~ float_le x m -> out = fails path $"maximum")
    /\ ((forall x, v <> VFloat x) -> v <> VNone -> out = invalid_type path).
Proof.
  intros E desc recon n p mn mx partial ph ser anc v Hp Hn out path.
  assert (Hout : v <> VNone -> out = (do r <- validate_value E (KFloat mn mx : kind) path v;
                      serial E desc (KFloat mn mx : kind) path ph ser r)).
  { intros Hv. unfold out, path. apply process_native; auto. }
  assert (Hspec := fun x => check_bounds_spec _ (nan_or float_le) path mn mx x (VFloat x) float_ltb_spec).
  split; [|split].
  - intros x m -> Hm Hm1 Hx1 Hlt. rewrite Hout by discriminate. cbn [validate_value].
    destruct (Hspec x) as [[H1 _]|[[_ H]|[H1 _]]].
    + destruct (H1 m Hm) as [H|[H|H]]; contradiction.
    + rewrite H. reflexivity.
    + destruct (H1 m Hm) as [H|[H|H]]; contradiction.
  - intros x m -> Hm Hm1 Hx1 Hmin Hlt. rewrite Hout by discriminate. cbn [validate_value].
    destruct (Hspec x) as [[_ [H1 _]]|[[[m' [Hm' Hx]] _]|[_ [_ H]]]].
    + destruct (H1 m Hm) as [H|[H|H]]; contradiction.
    + exfalso. apply Hx. right. right. apply Hmin, Hm'.
    + rewrite H. reflexivity.
  - intros Hz Hv. rewrite Hout by exact Hv.
    destruct v; try reflexivity. exfalso. eapply Hz. reflexivity.
Qed.

(** @example
Example C04_example :
  let f := Fld p0 (KFloat (Some (S754_finite false 1 0)) (Some (S754_finite false 3 1))) in
  run0 f Inbound false (VFloat (S754_finite false 5 (-1))) = Ok (VFloat (S754_finite false 5 (-1)))
  /\ run0 f Inbound false (VFloat (S754_infinity false)) = fails [$"(float)"] $"maximum"
  /\ run0 f Inbound false (VFloat S754_nan) = Ok (VFloat S754_nan)
  /\ run0 f Inbound false (VInt 2) = invalid_type [$"(float)"].
Proof. repeat split; reflexivity. Qed.
@end *)

(** ** C06 *)

Lemma stripped_strip s t : stripped s t <-> t = strip is_space s.
Proof.
  split.
  - intros [a [b [-> [Ha [Hb [Hhd Htl]]]]]]. symmetry. apply strip_app; auto.
  - intros ->. unfold strip.
    destruct (lstrip_spec is_space s) as (a & Hs & Ha & Hl).
    destruct (rstrip_spec is_space (lstrip is_space s)) as (b & Hr & Hb & Hlast).
    exists a, b. split; [|split; [|split; [|split]]].
    + rewrite <- Hr. exact Hs.
    + rewrite Forall_forall. apply forallb_forall. exact Ha.
    + rewrite Forall_forall. apply forallb_forall. exact Hb.
    + intros c r Hc. destruct (rstrip_head _ _ _ _ Hc) as [r' Hr']. eapply Hl, Hr'.
    + intros c r Hc. eapply Hlast, Hc.
Qed.

Lemma check_length_spec anc mn mx x r :
  (at_least Z.le mn x /\ at_most Z.le mx x /\ check_length anc mn mx x r = Ok r)
  \/ ((exists m, mn = Some m /\ x < m) /\ check_length anc mn mx x r = verr anc $"min_length")
  \/ (at_least Z.le mn x /\ (exists m, mx = Some m /\ m < x)
      /\ check_length anc mn mx x r = verr anc $"max_length").
Proof.
  unfold check_length, below, above, at_least, at_most.
  destruct mn as [a|]; [destruct (Z.ltb_spec x a)|].
  - right. left. split; [exists a; auto|reflexivity].
  - destruct mx as [b|]; [destruct (Z.ltb_spec b x)|].
    + right. right. repeat split; [intros m [= <-]; auto | exists b; auto].
    + left. repeat split; intros m [= <-]; auto.
    + left. repeat split; intros m [= <-]; auto.
  - destruct mx as [b|]; [destruct (Z.ltb_spec b x)|].
    + right. right. repeat split; [intros m [=] | exists b; auto].
    + left. repeat split; [intros m [=] | intros m [= <-]; auto].
    + left. repeat split; intros m [=].
Qed.

Lemma process_text E desc recon n p pat mn mx st partial ph ser anc v :
  plain p -> v <> VNone ->
  process_gen E desc recon n (Fld p (KText pat mn mx st)) partial ph ser anc v
  = validate_value E (KText pat mn mx st : kind) (path_of p (KText pat mn mx st) anc) v.
Proof.
  intros Hp Hv. rewrite process_basic by reflexivity.
  rewrite scalar_plain by (auto; reflexivity).
  replace (if ser && phase_eqb ph Inbound
           then unserialize_value E recon (KText pat mn mx st : kind) (path_of p (KText pat mn mx st) anc) v
           else Ok v) with (Ok v) by (destruct (ser && phase_eqb ph Inbound); reflexivity).
  cbn [bind].
  destruct (validate_value E (KText pat mn mx st : kind) (path_of p (KText pat mn mx st) anc) v) as [w|x];
    [|reflexivity].
  cbn [bind]. destruct (ser && phase_eqb ph Outbound); reflexivity.
Qed.


(** @prop C06 Text: the canonical text [t] of [s] exists and is unique; processing [s] in any phase
    gives [t] exactly when [t] meets the length bounds and the pattern, and otherwise the token of
    the first violated constraint. *)
Lemma text_exact :
  forall E desc recon n p pat mn mx st partial ph ser anc s,
    plain p ->
    let out := process_gen E desc recon n (Fld p (KText pat mn mx st)) partial ph ser anc (VStr s) in
    let path := path_of p (KText pat mn mx st) anc in
    let matches t := forall i, pat = Some i -> e_pattern E i t = true in
    (exists! t, canonical_text st s t)
    /\ forall t, canonical_text st s t ->
        let len := Z.of_nat (length t) in
        (forall r, out = Ok r <->
                   r = VStr t /\ at_least Z.le mn len /\ at_most Z.le mx len /\ matches t)
        /\ (~ at_least Z.le mn len -> out = fails path $"min_length")
        /\ (at_least Z.le mn len -> ~ at_most Z.le mx len -> out = fails path $"max_length")
        /\ (at_least Z.le mn len -> at_most Z.le mx len -> ~ matches t ->
             out = fails path $"pattern").
Proof.
  intros E desc recon n p pat mn mx st partial ph ser anc s Hp out path matches.
  assert (Hc : forall t, canonical_text st s t <-> t = if st then strip is_space s else s).
  { intros t. unfold canonical_text. destruct st; [apply stripped_strip | reflexivity]. }
  split.
  { exists (if st then strip is_space s else s). split.
    - apply Hc. reflexivity.
    - intros t Ht. symmetry. apply Hc, Ht. }
  intros t Ht len. apply Hc in Ht.
  assert (Hout : out = (do r <- check_length path mn mx len (VStr t);
                        match pat with
                        | Some i => if e_pattern E i t then Ok r else verr path $"pattern"
                        | None => Ok r
                        end)).
  { unfold out. rewrite process_text by (auto; discriminate).
    cbn [validate_value]. rewrite <- Ht. reflexivity. }
  assert (Hm : match pat with Some i => e_pattern E i t | None => true end = true <-> matches t).
  { unfold matches. destruct pat as [i|].
    - split; [intros H j [= <-]; exact H | intros H; apply H; reflexivity].
    - split; [intros _ j [=] | reflexivity]. }
  destruct (check_length_spec path mn mx len (VStr t))
    as [[H1 [H2 H]]|[[[m [Hm1 Hx]] H]|[H1 [[m [Hm1 Hx]] H]]]]; rewrite H in Hout; cbn [bind verr] in Hout.
  - split; [|split; [|split]].
    + intros r. rewrite Hout. destruct pat as [i|].
      * destruct (e_pattern E i t) eqn:Hi.
        -- split; [intros [= <-]; repeat split; auto; apply Hm; reflexivity|].
           intros [-> _]. reflexivity.
        -- split; [discriminate|]. intros [_ [_ [_ H3]]]. apply Hm in H3. discriminate.
      * split; [intros [= <-]; repeat split; auto; apply Hm; reflexivity|].
        intros [-> _]. reflexivity.
    + intros H3. contradiction.
    + intros _ H3. contradiction.
    + intros _ _ H3. rewrite Hout. destruct pat as [i|].
      * destruct (e_pattern E i t) eqn:Hi; [|reflexivity].
        exfalso. apply H3, Hm. reflexivity.
      * exfalso. apply H3, Hm. reflexivity.
  - assert (Hn : ~ at_least Z.le mn len).
    { intros H3. specialize (H3 m Hm1). lia. }
    split; [|split; [|split]]; try (intros; contradiction).
    + intros r. rewrite Hout. split; [discriminate | intros [_ [H3 _]]; contradiction].
    + intros _. exact Hout.
  - assert (Hn : ~ at_most Z.le mx len).
    { intros H3. specialize (H3 m Hm1). lia. }
    split; [|split; [|split]]; try (intros; contradiction).
    + intros r. rewrite Hout. split; [discriminate | intros [_ [_ [H3 _]]]; contradiction].
    + intros _ _. exact Hout.
Qed.

(** @prop C06 Text: anything that is neither text nor null is an InvalidTypeError. *)
Lemma text_invalid :
  forall E desc recon n p pat mn mx st partial ph ser anc v,
    plain p -> v <> VNone -> (forall s, v <> VStr s) ->
    process_gen E desc recon n (Fld p (KText pat mn mx st)) partial ph ser anc v
    = invalid_type (path_of p (KText pat mn mx st) anc).
Proof.
  intros E desc recon n p pat mn mx st partial ph ser anc v Hp Hv Hs.
  rewrite process_text by auto. cbn [validate_value].
  destruct v; try reflexivity. exfalso. eapply Hs. reflexivity.
Qed.

(** @example
Example C06_example :
  let f := Fld p0 (KText (Some 0%nat) (Some 2%Z) (Some 3%Z) true) in
  run0 f Inbound true (VStr $"  a b  ") = Ok (VStr $"a b")
  /\ run0 f Inbound true (VStr $" abcd ") = fails [$"(text)"] $"max_length"
  /\ run0 f Inbound true (VStr $"  a ") = fails [$"(text)"] $"min_length".
Proof. repeat split; reflexivity. Qed.
@end *)

(** ** C13 *)

Lemma vmem_r_ok L v l :
  snan_val v = false -> Forall (fun x => snan_val x = false) l ->
  vmem_r L v l = Ok (vmem L v l).
Proof.
  intros Hv. induction 1 as [|x l Hx Hl IH]; cbn; [reflexivity|].
  unfold veq_r. rewrite Hv, Hx. cbn. destruct (veq L x v); [reflexivity|exact IH].
Qed.

(** @prop C13 Enumeration accepts exactly the values equal to a member, unchanged; a value equal to
    an ignored value is treated as null; the rest are InvalidTypeErrors.  (Signaling NaNs, whose
    comparison raises, are left out.) *)
Lemma enumeration_exact :
  forall E desc recon n p l ignored partial ph ser anc v,
    plain p -> v <> VNone -> snan_val v = false ->
    Forall (fun x => snan_val x = false) l ->
    (forall g, ignored = Some g -> Forall (fun x => snan_val x = false) g) ->
    let out := process_gen E desc recon n (Fld p (KEnumeration l ignored)) partial ph ser anc v in
    let path := path_of p (KEnumeration l ignored) anc in
    let equal x := veq (e_local E) x v = true in
    ((exists g x, ignored = Some g /\ In x g /\ equal x) ->
       out = if p_nonnull p then fails path $"nonnull" else Ok VNone)
    /\ (~ (exists g x, ignored = Some g /\ In x g /\ equal x) ->
        ((exists x, In x l /\ equal x) -> out = Ok v)
        /\ (~ (exists x, In x l /\ equal x) -> out = invalid_type path)).
Proof.
  intros E desc recon n p l ignored partial ph ser anc v Hp Hv Hs Hl Hg out path equal.
  assert (Hmem : forall l', vmem (e_local E) v l' = true <-> exists x, In x l' /\ equal x).
  { intros l'. unfold vmem. rewrite existsb_exists. reflexivity. }
  assert (Hig : is_null (e_local E) p ignored path v
                = if match ignored with Some g => vmem (e_local E) v g | None => false end
                  then (if p_nonnull p then verr path $"nonnull" else Ok true)
                  else Ok false).
  { unfold is_null. assert (Hnn : is_none v = false) by (destruct v; auto; congruence).
    rewrite Hnn. destruct ignored as [g|]; [|reflexivity].
    rewrite vmem_r_ok by auto. reflexivity. }
  assert (Hout : out = (do nul <- is_null (e_local E) p ignored path v;
                        if nul then Ok VNone
                        else if vmem (e_local E) v l then Ok v else terr path $"invalid")).
  { unfold out. rewrite process_basic by reflexivity. unfold process_scalar.
    fold path. cbn [kind_ignored]. destruct (is_null (e_local E) p ignored path v) as [[|]|x];
      try reflexivity.
    cbn [bind]. cbn [unserialize_value].
    replace (if ser && phase_eqb ph Inbound then Ok v else Ok v) with (Ok v)
      by (destruct (ser && phase_eqb ph Inbound); reflexivity).
    cbn [bind]. rewrite preprocess_plain by (auto; reflexivity). cbn [bind].
    destruct Hp as [_ Hc]. rewrite Hc. cbn [is_none bind negb validate_value].
    rewrite vmem_r_ok by auto. cbn [bind].
    destruct (vmem (e_local E) v l); cbn [bind terr]; [|reflexivity].
    cbn [serialize_value]. destruct (ser && phase_eqb ph Outbound); reflexivity. }
  rewrite Hig in Hout.
  split.
  - intros [g [x [-> [Hx He]]]].
    assert (H : vmem (e_local E) v g = true) by (apply Hmem; eauto).
    rewrite H in Hout. rewrite Hout. destruct (p_nonnull p); reflexivity.
  - intros Hno.
    assert (H : match ignored with Some g => vmem (e_local E) v g | None => false end = false).
    { destruct ignored as [g|]; [|reflexivity].
      destruct (vmem (e_local E) v g) eqn:H; [|reflexivity].
      exfalso. apply Hno. apply Hmem in H. destruct H as [x [H1 H2]]. eauto. }
    rewrite H in Hout. cbn [bind] in Hout. rewrite Hout. split.
    + intros Hin. apply Hmem in Hin. rewrite Hin. reflexivity.
    + intros Hin. destruct (vmem (e_local E) v l) eqn:H2; [|reflexivity].
      exfalso. apply Hin, Hmem, H2.
Qed.

(** @example
Example C13_example :
  let f := Fld p0 (KEnumeration [VStr $"a"; VInt 2] (Some [VStr $"x"])) in
  run0 f Inbound true (VInt 2) = Ok (VInt 2)
  /\ run0 f Inbound true (VStr $"x") = Ok VNone
  /\ run0 f Inbound true (VStr $"b") = invalid_type [$"(enumeration)"].
Proof. repeat split; reflexivity. Qed.
@end *)

(** ** C18 *)


(** @prop C18 A non structural field with a constant [c], given a non-null candidate whose
    unserialized and preprocessed form is [w]: if [w] differs from [c] the candidate is rejected
    with an InvalidTypeError, if [w] equals [c] the field behaves as without the constant.
    (Enumeration is covered by the next theorem; signaling NaNs left out.) *)
Lemma constant_exact :
  forall E desc recon n p k c partial ph ser anc v w0 w,
    basic k = true -> (forall l g, k <> KEnumeration l g) ->
    v <> VNone -> c <> VNone -> snan_val w = false -> snan_val c = false ->
    (if ser && phase_eqb ph Inbound
     then unserialize_value E recon k (path_of p k anc) v = Ok w0 else w0 = v) ->
    preprocess E p k w0 = Ok w ->
    let out c := process_gen E desc recon n (Fld (with_constant p c) k) partial ph ser anc v in
    (veq (e_local E) w c = false -> out c = invalid_type (path_of p k anc))
    /\ (veq (e_local E) w c = true -> out c = out VNone).
Proof.
  intros E desc recon n p k c partial ph ser anc v w0 w Hb He Hv Hc Hw Hc' Hun Hpre out.
  assert (Hout : forall c', snan_val c' = false -> out c' =
     (do t <- (if is_none c' then Ok true else Ok (veq (e_local E) w c'));
      if negb t then terr (path_of p k anc) $"invalid"
      else do v3 <- validate_value E k (path_of p k anc) w;
           serial E desc k (path_of p k anc) ph ser v3)).
  { intros c' Hs. unfold out. rewrite process_basic by exact Hb.
    change (path_of (with_constant p c') k anc) with (path_of p k anc).
    unfold process_scalar.
    replace (kind_ignored k) with (@None (list val))
      by (destruct k; try reflexivity; exfalso; eapply He; reflexivity).
    rewrite is_null_some by exact Hv. cbn [bind].
    replace (if ser && phase_eqb ph Inbound
             then unserialize_value E recon k (path_of p k anc) v else Ok v) with (Ok w0)
      by (destruct (ser && phase_eqb ph Inbound); congruence).
    cbn [bind].
    change (preprocess E (with_constant p c') k w0) with (preprocess E p k w0).
    rewrite Hpre. cbn [bind with_constant p_constant].
    unfold veq_r. rewrite Hw, Hs. cbn [andb orb].
    destruct (is_none c'); cbn [bind negb]; [reflexivity|].
    destruct (veq (e_local E) w c'); cbn [negb]; [reflexivity|].
    destruct k; try reflexivity. exfalso. eapply He. reflexivity. }
  split.
  - intros Hne. rewrite Hout by exact Hc'.
    assert (Hn : is_none c = false) by (destruct c; auto; congruence).
    rewrite Hn, Hne. reflexivity.
  - intros Heq. rewrite (Hout c Hc'), (Hout VNone eq_refl).
    assert (Hn : is_none c = false) by (destruct c; auto; congruence).
    rewrite Hn, Heq. reflexivity.
Qed.

(** @prop C18 Structural fields ignore [constant]. *)
Lemma constant_ignored_by_structural :
  forall E desc recon n p k c partial ph ser anc v,
    kind_structural k = true ->
    process_gen E desc recon n (Fld (with_constant p c) k) partial ph ser anc v
    = process_gen E desc recon n (Fld p k) partial ph ser anc v.
Proof.
  intros E desc recon n p k c partial ph ser anc v Hk.
  rewrite !process_Fld. destruct k; try discriminate Hk; reflexivity.
Qed.

(** @prop C18 REFUTED for Enumeration: violating the constant of an Enumeration raises KeyError
    (its error message cannot be formatted), not a ValidationError. *)
Lemma constant_enumeration_refuted :
  exists E desc recon n p l v c,
    p_constant p = c /\ c <> v /\ In v l
    /\ process_gen E desc recon n (Fld p (KEnumeration l None)) false Inbound false [] v
       = Raise (XPy KeyError).
Proof.
  exists env0, nodesc, norecon, 0%nat, (p_const (VStr $"a")), [VStr $"a"; VStr $"b"],
    (VStr $"b"), (VStr $"a").
  repeat split; try discriminate. right. left. reflexivity.
Qed.

(** @example
Example C18_example :
  run0 (Fld (p_const (VInt 5)) (KInteger None None)) Inbound true (VStr $" 5") = Ok (VInt 5)
  /\ run0 (Fld (p_const (VInt 5)) (KInteger None None)) Inbound true (VStr $"6")
     = invalid_type [$"(integer)"]
  /\ run0 (Fld (p_const (VInt 5)) (KTuple [Fld p0 KBoolean])) Inbound true (VList [VBool true])
     = Ok (VTuple [VBool true]).
Proof. repeat split; reflexivity. Qed.
@end *)
