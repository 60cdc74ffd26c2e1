(** * Interpolation (C56, C57). *)
(* @imports Spec Demo ExtractSpec *)
From Coq Require Import ZifyBool ZifyN ZifyNat FinFun.
From Verif Require Import PyBaseFacts Induct Spec Demo ProcessFacts StructFacts StructProofs ScalarProofs ConfProofs
  RegexSpec RegexProofs ExtractSpec ExtractProofs.

(** ** C57: variable references *)

Lemma until_app c e r : ~ In c e -> until c (e ++ c :: r) = (e, c :: r).
Proof.
  induction e as [|x e IH]; intros H; cbn [app until].
  - rewrite N.eqb_refl. reflexivity.
  - destruct (N.eqb_spec x c) as [->|Hx]; [exfalso; apply H; left; reflexivity|].
    rewrite IH; [reflexivity|]. intros Hin. apply H. right. exact Hin.
Qed.

Lemma until_split c s : s = fst (until c s) ++ snd (until c s) /\ ~ In c (fst (until c s))
  /\ (forall x r, snd (until c s) = x :: r -> x = c).
Proof.
  induction s as [|x s [IH1 [IH2 IH3]]]; cbn [until].
  - split; [reflexivity|]. split; [intros []|discriminate].
  - destruct (N.eqb_spec x c) as [->|Hx]; cbn [fst snd app].
    + split; [reflexivity|]. split; [intros []|congruence].
    + split; [f_equal; exact IH1|]. split; [|exact IH3]. intros [H|H]; [congruence|contradiction].
Qed.

Lemma blank_forallb a : blank a <-> forallb is_space a = true.
Proof. unfold blank. rewrite forallb_forall, Forall_forall. reflexivity. Qed.

Lemma lstrip_blank a c r : blank a -> is_space c = false -> lstrip is_space (a ++ c :: r) = c :: r.
Proof.
  intros Ha Hc. induction Ha as [|x a Hx _ IH]; cbn [app lstrip]; [rewrite Hc; reflexivity|]. rewrite Hx. exact IH.
Qed.

Lemma variable_expr_iff s e : variable_expr s = Some e <-> reference s e.
Proof.
  unfold reference. split.
  - unfold variable_expr. destruct (lstrip_spec is_space s) as [a [Hs [Ha _]]].
    destruct (lstrip is_space s) as [|c1 [|c2 s1]]; try discriminate.
    + destruct c1 as [|p]; try discriminate. repeat (destruct p as [p|p|]; try discriminate).
    + assert (Hc : (c1 = 36%N /\ c2 = 123%N) \/ ~ (c1 = 36%N /\ c2 = 123%N)).
      { destruct (N.eq_dec c1 36), (N.eq_dec c2 123); tauto. }
      destruct Hc as [[-> ->]|Hc].
      2: { intros H. exfalso. apply Hc. destruct c1 as [|p]; try discriminate H.
           repeat (destruct p as [p|p|]; try discriminate H).
           destruct c2 as [|p]; try discriminate H. repeat (destruct p as [p|p|]; try discriminate H). auto. }
      destruct (until_split 125 s1) as [H1 [H2 H3]]. destruct (until 125 s1) as [e' [|c s2]]; [discriminate|].
      cbn [fst snd] in *. specialize (H3 _ _ eq_refl). subst c. destruct e' as [|x e']; [discriminate|].
      destruct (forallb is_space s2) eqn:Hb; [|discriminate]. intros [= <-].
      exists a, s2. split; [apply blank_forallb; exact Ha|]. split; [apply blank_forallb; exact Hb|].
      split; [discriminate|]. split; [exact H2|]. rewrite Hs, H1. reflexivity.
  - intros [a [b [Ha [Hb [He [Hn ->]]]]]]. unfold variable_expr.
    change (a ++ $"${" ++ e ++ $"}" ++ b) with (a ++ 36%N :: (123%N :: e ++ 125%N :: b)).
    rewrite lstrip_blank; [|exact Ha|reflexivity].
    rewrite until_app; [|exact Hn]. destruct e as [|x e]; [congruence|]. apply blank_forallb in Hb. rewrite Hb. reflexivity.
Qed.

(** @prop C57 In simple mode, a string of the form blank [${expr}] blank, with a non empty expression
    without closing brace, becomes the value of the expression, which is evaluated without its
    surrounding blanks; any other string is returned unchanged; anything else is a ValueError. *)
Lemma simple_interpolation_exact :
  forall ip v r, interpolate_parameters ip true v = r <-> referred ip v r.
Proof.
  intros ip v r. split.
  - intros <-. destruct v as [ | | | |s| | | | | |l|l|o l|i l|i s w l|e|f];
      try (apply referred_other; discriminate).
    destruct s as [|c s].
    + apply referred_text. intros e H. apply variable_expr_iff in H. discriminate.
    + cbn [interpolate_parameters]. destruct (variable_expr (c :: s)) as [e|] eqn:He.
      * apply variable_expr_iff in He. eapply referred_expression; [exact He|]. apply stripped_strip. reflexivity.
      * apply referred_text. intros e H. apply variable_expr_iff in H. congruence.
  - intros H. destruct H as [s e e' Hr Hs|s Hr|v Hv].
    + apply variable_expr_iff in Hr. apply stripped_strip in Hs. subst e'. destruct s as [|c s]; [discriminate|].
      cbn [interpolate_parameters]. rewrite Hr. reflexivity.
    + destruct s as [|c s]; [reflexivity|]. cbn [interpolate_parameters].
      destruct (variable_expr (c :: s)) as [e|] eqn:He; [|reflexivity]. apply variable_expr_iff in He. destruct (Hr _ He).
    + destruct v; try reflexivity. destruct (Hv s eq_refl).
Qed.

(** @example
Definition ip56 : interpolator := {|
  ip_eval := fun e => if str_eqb e $"n" then Ok (VInt 7)
                      else if str_eqb e $"l" then Ok (VList [VInt 1; VStr $"${n}"])
                      else if str_eqb e $"t" then Ok (VStr $"2") else py UndefinedParameterError;
  ip_render := fun s => Ok (VStr s) |}.
Example C57_simple :
  interpolate_parameters ip56 true (VStr $"  ${ n } ") = Ok (VInt 7)
  /\ interpolate_parameters ip56 true (VStr $"a${n}") = Ok (VStr $"a${n}")
  /\ interpolate_parameters ip56 true (VStr $"${}") = Ok (VStr $"${}")
  /\ interpolate_parameters ip56 true (VStr $"${a}b}") = Ok (VStr $"${a}b}")
  /\ interpolate_parameters ip56 true (VStr $"${q}") = py UndefinedParameterError
  /\ interpolate_parameters ip56 true (VInt 3) = py ValueError
  /\ referred ip56 (VStr $" ${ n }") (Ok (VInt 7)).
Proof.
  do 6 (split; [vm_compute; reflexivity|]).
  refine (referred_expression ip56 $" ${ n }" $" n " $"n" _ _).
  - exists $" ", []. split; [repeat constructor|]. split; [constructor|]. split; [discriminate|].
    split; [|reflexivity]. cbn. intuition discriminate.
  - exists $" ", $" ". split; [reflexivity|]. split; [repeat constructor|]. split; [repeat constructor|].
    split; [intros c r [= <- _]; reflexivity|]. intros c r H. destruct r as [|x [|y r]]; try discriminate. injection H as <-. reflexivity.
Qed.
@end *)

(** @prop C57 A string is a reference in at most one way, so that the value is well defined. *)
Lemma reference_unique :
  forall s e1 e2, reference s e1 -> reference s e2 -> e1 = e2.
Proof.
  intros s e1 e2 H1 H2. apply variable_expr_iff in H1, H2. congruence.
Qed.

(** @example
Example C57_unique : reference $"${ a }" $" a ".
Proof.
  exists [], []. split; [constructor|]. split; [constructor|]. split; [discriminate|].
  split; [|reflexivity]. cbn. intuition discriminate.
Qed.
@end *)

(** @prop C57 Outside simple mode a non empty string is rendered as a template, an empty one stays
    empty, anything else is a ValueError. *)
Lemma template_interpolation_exact :
  forall ip v r, interpolate_parameters ip false v = r <->
    (exists s, v = VStr s /\ s <> [] /\ r = ip_render ip s)
    \/ (v = VStr [] /\ r = Ok (VStr []))
    \/ ((forall s, v <> VStr s) /\ r = py ValueError).
Proof.
  intros ip v r. split.
  - intros <-. destruct v as [ | | | |s| | | | | |l|l|o l|i l|i s w l|e|f];
      try (right; right; split; [discriminate|reflexivity]).
    destruct s as [|c s]; [auto|]. left. exists (c :: s). split; [reflexivity|]. split; [discriminate|reflexivity].
  - intros [[s [-> [Hs ->]]]|[[-> ->]|[Hv ->]]].
    + destruct s; [congruence|reflexivity].
    + reflexivity.
    + destruct v; try reflexivity. destruct (Hv s eq_refl).
Qed.

(** @example
Example C57_template :
  interpolate_parameters ip56 false (VStr $"a ${n}") = Ok (VStr $"a ${n}")
  /\ interpolate_parameters ip56 false (VStr []) = Ok (VStr []).
Proof. vm_compute. auto. Qed.
@end *)

(** ** C56: one level *)

Lemma interpolate_Fld E recon n ip p k :
  interpolate E recon n ip (Fld p k)
  = interpolate_body E recon
      (fun g v => match n with O => py RecursionError | S m => interpolate E recon m ip g v end)
      ip (kmap (fun g => (g, interpolate E recon n ip g)) k).
Proof. destruct n; reflexivity. Qed.

Lemma interpolate_FUndef E recon n ip i v :
  interpolate E recon n ip (FUndef i) v =
  match e_undef E i with
  | Some (Fld p k) => match n with O => py RecursionError | S m => interpolate E recon m ip (Fld p k) v end
  | _ => py AttributeError
  end.
Proof. destruct n; reflexivity. Qed.

Lemma is_none_false v : v <> VNone -> is_none v = false.
Proof. destruct v; congruence || reflexivity. Qed.

Lemma equivalent_iff k v : is_equivalent k v = true <-> native_value k v.
Proof.
  split.
  - destruct k; cbn [is_equivalent native_value]; try discriminate; destruct v; try discriminate; intros H; eauto 6.
    destruct f; [discriminate|]. eauto.
  - destruct k; cbn [is_equivalent native_value]; try contradiction; intros H;
      repeat match goal with H : exists _, _ |- _ => destruct H | H : _ \/ _ |- _ => destruct H end; subst; reflexivity.
Qed.

Lemma equivalent_kmap {B} (h : field -> B) k v : is_equivalent (kmap h k) v = is_equivalent k v.
Proof. destruct k; reflexivity. Qed.

Lemma text_taken ip v s : interpolate_text ip v = Ok s <-> taken ip v s.
Proof.
  unfold interpolate_text, taken. split.
  - intros H. destruct v; try (left; split; [discriminate|congruence]). right. split; [eauto|].
    apply simple_interpolation_exact. exact H.
  - intros [[Hv ->]|[[x ->] H]].
    + destruct v; try reflexivity. destruct (Hv s eq_refl).
    + apply simple_interpolation_exact in H. exact H.
Qed.

(** @prop C56 Null stays null for every field.  A native value of a class that has one is left alone. *)
Lemma interpolate_native :
  forall E recon n ip p k v,
    v = VNone \/ native_value k v -> interpolate E recon n ip (Fld p k) v = Ok v.
Proof.
  intros E recon n ip p k v H. rewrite interpolate_Fld. unfold interpolate_body.
  destruct (is_none v) eqn:Hn; [destruct v; try discriminate; reflexivity|].
  destruct H as [-> |H]; [discriminate|]. 
  destruct k; cbn [native_value] in H; try contradiction; cbn [kmap];
    repeat match goal with H : exists _, _ |- _ => destruct H | H : _ \/ _ |- _ => destruct H end; subst; reflexivity.
Qed.

(** @example
Example C56_native :
  let i := interpolate env0 norecon 0 ip56 in
  i (Fld p0 KBoolean) (VBool false) = Ok (VBool false)
  /\ i (Fld p0 (KMap (Fld p0 KBoolean) None None)) VNone = Ok VNone
  /\ native_value KBoolean (VBool false).
Proof. split; [vm_compute; reflexivity|]. split; [vm_compute; reflexivity|]. exists false. reflexivity. Qed.
@end *)

(** @prop C56 Exactly the variable references are replaced: Boolean, Binary, Date, DateTime, Time,
    Definition, UUID and the like turn a reference into the value of its expression and leave other
    strings as they are; a value that is neither native nor a string is a ValueError. *)
Lemma scalar_interpolate_exact :
  forall E recon n ip p k v r,
    referring k -> v <> VNone -> ~ native_value k v ->
    (interpolate E recon n ip (Fld p k) v = r <-> referred ip v r).
Proof.
  intros E recon n ip p k v r Hk Hv Hn. rewrite interpolate_Fld. unfold interpolate_body.
  rewrite (is_none_false _ Hv). rewrite <- simple_interpolation_exact.
  assert (He : is_equivalent k v = false).
  { destruct (is_equivalent k v) eqn:He; [|reflexivity]. apply equivalent_iff in He. contradiction. }
  rewrite <- (equivalent_kmap (fun g => (g, interpolate E recon n ip g))) in He.
  destruct k; try contradiction; cbn [kmap] in He |- *;
    match goal with |- (if ?b then _ else _) = _ <-> _ => replace b with false by (symmetry; exact He) end; reflexivity.
Qed.

(** @example
Example C56_scalar :
  let i := interpolate env0 norecon 0 ip56 in
  i (Fld p0 KBoolean) (VStr $"${n}") = Ok (VInt 7)
  /\ i (Fld p0 KUUID) (VStr $"n") = Ok (VStr $"n")
  /\ i (Fld p0 KField) (VInt 3) = py ValueError
  /\ i (Fld p0 KBoolean) (VStr $"${q}") = py UndefinedParameterError.
Proof. vm_compute. auto. Qed.
@end *)

(** @prop C56 Text, Email and Token fields take their value as a template. *)
Lemma text_interpolate_exact :
  forall E recon n ip p k v,
    templated k -> v <> VNone ->
    interpolate E recon n ip (Fld p k) v
    = match v with VStr [] => Ok v | VStr s => ip_render ip s | _ => py ValueError end.
Proof.
  intros E recon n ip p k v Hk Hv. rewrite interpolate_Fld. unfold interpolate_body.
  rewrite (is_none_false _ Hv).
  destruct k; try contradiction; cbn [kmap]; destruct v as [ | | | |[|]| | | | | | | | | | | | ]; reflexivity.
Qed.

(** @example
Example C56_text :
  interpolate env0 norecon 0 {| ip_eval := fun _ => py NameError; ip_render := fun s => Ok (VStr (s ++ s)) |}
    (Fld p0 (KText None None None true)) (VStr $"ab") = Ok (VStr $"abab").
Proof. vm_compute. auto. Qed.
@end *)

(** @prop C56 Numbers: a reference (or another string) is replaced and the result converted to the
    class of the field; numbers are converted as they are.  A failed evaluation stays the failure. *)
Lemma number_interpolate_exact :
  forall E recon n ip p k v,
    numeric k -> v <> VNone -> ~ native_value k v ->
    (forall r, interpolate E recon n ip (Fld p k) v = Ok r <->
      (number k v /\ as_number E k v r)
      \/ (~ number k v /\ exists w, referred ip v (Ok w) /\ as_number E k w r))
    /\ (forall x, ~ number k v -> referred ip v (Raise x) ->
         interpolate E recon n ip (Fld p k) v = Raise x).
Proof.
  intros E recon n ip p k v Hk Hv Hnat. rewrite interpolate_Fld. unfold interpolate_body.
  rewrite (is_none_false _ Hv).
  assert (Hconv : forall {A} (b : bool) (inj : A -> val) (c : val -> option A) w r,
             converted b inj c w = Ok r <-> exists a, c w = Some a /\ r = inj a).
  { intros A b inj c w r. unfold converted. destruct (c w) as [a|]; cbn.
    - split; [intros [= <-]; eauto|intros [a' [[= <-] ->]]; reflexivity].
    - split; [discriminate|intros [a' [H _]]; discriminate]. }
  assert (Hstep : forall (c : val -> res val),
     (forall w r, c w = Ok r <-> as_number E k w r) -> ~ number k v ->
     (forall r, (do w <- interpolate_parameters ip true v; c w) = Ok r <->
      (number k v /\ as_number E k v r) \/ (~ number k v /\ exists w, referred ip v (Ok w) /\ as_number E k w r))
     /\ forall x, ~ number k v -> referred ip v (Raise x) ->
          (do w <- interpolate_parameters ip true v; c w) = Raise x).
  { intros c Hc Hnum. split.
    - intros r. split.
      + intros H. apply bind_Ok in H. destruct H as [w [Hw H]]. right. split; [exact Hnum|]. exists w.
        split; [apply simple_interpolation_exact; exact Hw|apply Hc; exact H].
      + intros [[H _]|[_ [w [Hw H]]]]; [contradiction|]. apply simple_interpolation_exact in Hw. rewrite Hw. cbn [bind]. apply Hc. exact H.
    - intros x _ H. apply simple_interpolation_exact in H. rewrite H. reflexivity. }
  assert (Hdirect : forall (c : val -> res val),
     (forall w r, c w = Ok r <-> as_number E k w r) -> number k v ->
     (forall r, c v = Ok r <->
      (number k v /\ as_number E k v r) \/ (~ number k v /\ exists w, referred ip v (Ok w) /\ as_number E k w r))
     /\ forall x, ~ number k v -> referred ip v (Raise x) -> c v = Raise x).
  { intros c Hc Hnum. split; [|contradiction]. intros r. rewrite Hc. split; [auto|]. intros [[_ H]|[H _]]; [exact H|contradiction]. }
  destruct k as [ | | | | |mn mx| | | | |mn mx|mn mx| | | | | | | | | | | ]; try contradiction; cbn [kmap].
  - assert (He : is_equivalent (KDecimal mn mx : kind) v = false).
    { destruct (is_equivalent (KDecimal mn mx : kind) v) eqn:He; [|reflexivity]. apply equivalent_iff in He. contradiction. }
    rewrite <- (equivalent_kmap (fun g => (g, interpolate E recon n ip g))) in He. cbn [kmap] in He.
    match goal with |- context [if ?b then _ else _] => replace b with false by (symmetry; exact He) end.
    apply Hstep; [intros w; apply Hconv|]. intros H. exact H.
  - assert (Hd : number (KFloat mn mx) v \/ ~ number (KFloat mn mx) v).
    { destruct v; cbn [number]; try (left; eauto; fail); right; intros [[? ?]|[[? ?]|[? ?]]]; discriminate. }
    destruct Hd as [Hd|Hd].
    + assert (Hc := Hdirect (fun w => converted false VFloat (to_float (e_udigit E)) w) ltac:(intros w; apply Hconv) Hd).
      destruct Hd as [[? ->]|[[? ->]|[? ->]]]; exact Hc.
    + assert (Hc := Hstep (fun w => converted false VFloat (to_float (e_udigit E)) w) ltac:(intros w; apply Hconv) Hd).
      destruct v; try (exfalso; apply Hd; cbn [number]; eauto; fail); exact Hc.
  - assert (Hd : number (KInteger mn mx) v \/ ~ number (KInteger mn mx) v).
    { destruct v; cbn [number]; try (left; eauto; fail); right; intros [[? ?]|[[? ?]|[? ?]]]; discriminate. }
    destruct Hd as [Hd|Hd].
    + assert (Hc := Hdirect (fun w => converted false VInt (to_int (e_udigit E)) w) ltac:(intros w; apply Hconv) Hd).
      destruct Hd as [[? ->]|[[? ->]|[? ->]]]; exact Hc.
    + assert (Hc := Hstep (fun w => converted false VInt (to_int (e_udigit E)) w) ltac:(intros w; apply Hconv) Hd).
      destruct v; try (exfalso; apply Hd; cbn [number]; eauto; fail); exact Hc.
Qed.

(** @example
Example C56_number :
  let i := interpolate env0 norecon 0 ip56 in
  i (Fld p0 (KInteger None None)) (VStr $"${t}") = Ok (VInt 2)
  /\ i (Fld p0 (KInteger None None)) (VInt 4) = Ok (VInt 4)
  /\ i (Fld p0 (KInteger None None)) (VStr $"x") = py ValueError
  /\ i (Fld p0 (KInteger None None)) (VStr $"${q}") = py UndefinedParameterError.
Proof. vm_compute. auto. Qed.
@end *)

(** @prop C56 Enumerations leave their own values alone; anything else is taken as a reference to one
    of them, and refused when it is none.  (A signaling NaN cannot be compared.) *)
Lemma enumeration_interpolate_exact :
  forall E recon n ip p l ig v,
    v <> VNone -> snan_val v = false -> (forall x, In x l -> snan_val x = false) ->
    let member w := exists x, In x l /\ veq (e_local E) x w = true in
    let out := interpolate E recon n ip (Fld p (KEnumeration l ig)) v in
    (member v -> out = Ok v)
    /\ (~ member v -> forall w, snan_val w = false -> referred ip v (Ok w) ->
          (member w -> out = Ok w) /\ (~ member w -> out = py CannotInterpolateError))
    /\ (~ member v -> forall x, referred ip v (Raise x) -> out = Raise x).
Proof.
  intros E recon n ip p l ig v Hv Hsv Hl member out.
  assert (Hmem : forall w, member w <-> vmem (e_local E) w l = true).
  { intros w. unfold member, vmem. rewrite existsb_exists. reflexivity. }
  assert (Hnot : forall w, ~ member w -> vmem (e_local E) w l = false).
  { intros w H. destruct (vmem (e_local E) w l) eqn:Hm; [|reflexivity]. apply Hmem in Hm. contradiction. }
  assert (Hout : out = (if vmem (e_local E) v l then Ok v else
      do w <- interpolate_parameters ip true v;
      do b' <- vmem_r (e_local E) w l; if b' then Ok w else py CannotInterpolateError)).
  { unfold out. rewrite interpolate_Fld. unfold interpolate_body. rewrite (is_none_false _ Hv). cbn [kmap].
    rewrite vmem_r_nosnan; [|exact Hsv|exact Hl]. reflexivity. }
  rewrite Hout. split; [|split].
  - intros H. apply Hmem in H. rewrite H. reflexivity.
  - intros H w Hw Hr. rewrite (Hnot _ H). apply simple_interpolation_exact in Hr. rewrite Hr. cbn [bind].
    rewrite vmem_r_nosnan; [|exact Hw|exact Hl]. cbn [bind]. split; intros K.
    + apply Hmem in K. rewrite K. reflexivity.
    + rewrite (Hnot _ K). reflexivity.
  - intros H x Hr. rewrite (Hnot _ H). apply simple_interpolation_exact in Hr. rewrite Hr. reflexivity.
Qed.

(** @example
Example C56_enumeration :
  let f := Fld p0 (KEnumeration [VInt 7; VStr $"a"] None) in
  let i := interpolate env0 norecon 0 ip56 in
  i f (VStr $"a") = Ok (VStr $"a") /\ i f (VStr $"${n}") = Ok (VInt 7)
  /\ i f (VStr $"${t}") = py CannotInterpolateError /\ i f (VStr $"b") = py CannotInterpolateError.
Proof. vm_compute. auto. Qed.
@end *)

Lemma container_taken E recon n ip p k v s :
  kind_structural k = true -> (forall l, k <> KUnion l) -> taken ip v s -> v <> VNone ->
  interpolate E recon n ip (Fld p k) v
  = match kmap (fun g => (g, interpolate E recon n ip g)) k with
    | KMap c _ _ =>
        match as_dict s with
        | None => py CannotInterpolateError
        | Some items =>
            do r <- gather (fun kv => do o <- unless_missing (work E c (snd kv));
                                      Ok (match o with Some w => Some (fst kv, w) | None => None end)) items;
            Ok (VDict false r)
        end
    | KSequence c _ _ _ =>
        match s with
        | VList l | VTuple l => do r <- make_all (work E c) l; Ok (VList r)
        | _ => py CannotInterpolateError
        end
    | KTuple cs =>
        match s with
        | VList l | VTuple l => do r <- interpolate_tuple E cs l; Ok (VTuple r)
        | _ => py CannotInterpolateError
        end
    | KStructure d _ _ =>
        match as_dict s with
        | None => py CannotInterpolateError
        | Some items =>
            match d with
            | SPlain defn => do r <- gather (interpolate_entry E items) defn; Ok (VDict false r)
            | SPoly on vs =>
                match fparams E (fst on) with
                | None => py AttributeError
                | Some q =>
                    match p_name q with
                    | None => py (OtherError 0)
                    | Some n =>
                        match sget n items with
                        | None => py KeyError
                        | Some ident =>
                            if truthy ident then
                              do defn <- variant E vs ident;
                              do r <- gather (interpolate_entry E items) defn; Ok (VDict false r)
                            else interpolate_variants E items vs
                        end
                    end
                end
            end
        end
    | _ => py (OtherError 0)
    end.
Proof.
  intros Hk Hu Ht Hv. apply text_taken in Ht. rewrite interpolate_Fld. unfold interpolate_body.
  rewrite (is_none_false _ Hv).
  destruct k; try discriminate Hk; try (exfalso; eapply Hu; reflexivity); cbn [kmap]; rewrite Ht; reflexivity.
Qed.

(** @prop C56 Sequences, given as a list or tuple or by reference, become lists of the interpolated
    items in order. *)
Lemma sequence_interpolate_exact :
  forall E recon n ip p it a b u v s l r,
    taken ip v s -> elements s l ->
    (interpolate E recon n ip (Fld p (KSequence it a b u)) v = Ok r <->
     exists m, r = VList m /\ Forall2 (fun x y => interpolate E recon n ip it x = Ok y) l m).
Proof.
  intros E recon n ip p it a b u v s l r Ht Hl.
  assert (Hv : v <> VNone).
  { intros ->. destruct Ht as [[_ ->]|[[x Hx] _]]; [|discriminate]. destruct Hl; discriminate. }
  rewrite (container_taken _ _ _ _ _ _ _ s) by (reflexivity || discriminate || assumption). cbn [kmap].
  assert (Hgoal : (do r <- make_all (work E (it, interpolate E recon n ip it)) l; Ok (VList r)) = Ok r <->
    exists m, r = VList m /\ Forall2 (fun x y => interpolate E recon n ip it x = Ok y) l m).
  { assert (He : forall m, make_all (work E (it, interpolate E recon n ip it)) l = Ok m
       <-> Forall2 (fun x y => interpolate E recon n ip it x = Ok y) l m).
    { intros m. rewrite make_all_ok. split; intros H; (eapply Forall2_impl; [|exact H]); intros x y Hxy; unfold work in *; cbn [fst snd] in *.
      - exact (proj1 (wrap_Ok E it _ _) Hxy).
      - exact (proj2 (wrap_Ok E it _ _) Hxy). }
    split.
    - intros H. apply bind_Ok in H. destruct H as [m [Hm H]]. injection H as <-. exists m. split; [reflexivity|apply He; exact Hm].
    - intros [m [-> H]]. apply He in H. rewrite H. reflexivity. }
  destruct Hl as [-> | ->]; exact Hgoal.
Qed.

(** @example
Example C56_sequence :
  let f := Fld p0 (KSequence (Fld p0 (KInteger None None)) None None false) in
  interpolate env0 norecon 0 ip56 f (VStr $"${l}") = Ok (VList [VInt 1; VInt 7])
  /\ interpolate env0 norecon 0 ip56 f (VTuple [VStr $"${t}"; VNone]) = Ok (VList [VInt 2; VNone])
  /\ interpolate env0 norecon 0 ip56 f (VList [VStr $"${q}"]) = py UndefinedParameterError.
Proof. vm_compute. auto. Qed.
@end *)

Lemma interpolate_tuple_ok E (run : field -> val -> res val) fs l m :
  length fs = length l ->
  interpolate_tuple E (map (fun g => (g, run g)) fs) l = Ok m <->
  Forall2 (fun fv w => run (fst fv) (snd fv) = Ok w) (combine fs l) m.
Proof.
  revert l m. induction fs as [|g fs IH]; intros [|v l] m Hlen; try discriminate; cbn [map interpolate_tuple combine].
  - split; [intros [= <-]; constructor|intros H; inversion H; reflexivity].
  - injection Hlen as Hlen. split.
    + intros H. apply bind_Ok in H. destruct H as [w [Hw H]]. apply bind_Ok in H. destruct H as [ws [Hws H]].
      injection H as <-. constructor; [|apply IH; assumption]. cbn [fst snd]. exact (proj1 (wrap_Ok E g _ _) Hw).
    + intros H. inversion H as [|? w ? ws Hw Hws]; subst. cbn [fst snd] in Hw. unfold work. cbn [fst snd]. rewrite Hw.
      cbn [wrap_undef bind]. apply (IH _ _ Hlen) in Hws. rewrite Hws. reflexivity.
Qed.

(** @prop C56 Tuples likewise, position by position. *)
Lemma tuple_interpolate_exact :
  forall E recon n ip p fs v s l r,
    taken ip v s -> elements s l -> length fs = length l ->
    (interpolate E recon n ip (Fld p (KTuple fs)) v = Ok r <->
     exists m, r = VTuple m
       /\ Forall2 (fun fx y => interpolate E recon n ip (fst fx) (snd fx) = Ok y) (combine fs l) m).
Proof.
  intros E recon n ip p fs v s l r Ht Hl Hlen.
  assert (Hv : v <> VNone).
  { intros ->. destruct Ht as [[_ ->]|[[x Hx] _]]; [|discriminate]. destruct Hl; discriminate. }
  rewrite (container_taken _ _ _ _ _ _ _ s) by (reflexivity || discriminate || assumption). cbn [kmap].
  assert (He := fun m => interpolate_tuple_ok E (fun g => interpolate E recon n ip g) fs l m Hlen).
  assert (Hgoal : (do r <- interpolate_tuple E (map (fun g => (g, interpolate E recon n ip g)) fs) l; Ok (VTuple r)) = Ok r <->
    exists m, r = VTuple m
       /\ Forall2 (fun fx y => interpolate E recon n ip (fst fx) (snd fx) = Ok y) (combine fs l) m).
  { split.
    - intros H. apply bind_Ok in H. destruct H as [m [Hm H]]. injection H as <-. exists m. split; [reflexivity|apply He; exact Hm].
    - intros [m [-> H]]. apply He in H. rewrite H. reflexivity. }
  destruct Hl as [-> | ->]; exact Hgoal.
Qed.

(** @example
Example C56_tuple :
  interpolate env0 norecon 0 ip56 (Fld p0 (KTuple [Fld p0 (KInteger None None); Fld p0 KBoolean]))
    (VList [VStr $"${n}"; VBool true; VInt 5]) = Ok (VTuple [VInt 7; VBool true]).
Proof. vm_compute. auto. Qed.
@end *)

(** @prop C56 Maps keep their keys, each with its value interpolated, and drop exactly the entries
    with an undefined parameter. *)
Lemma map_interpolate_exact :
  forall E recon n ip p vf kf req v s items r,
    taken ip v s -> as_dict s = Some items ->
    (interpolate E recon n ip (Fld p (KMap vf kf req)) v = Ok r <->
     exists es, r = VDict false es
       /\ elements_made (same_key (fun x => outcome UndefinedParameterError (interpolate E recon n ip vf x)))
                        items es).
Proof.
  intros E recon n ip p vf kf req v s items r Ht Hd.
  assert (Hv : v <> VNone).
  { intros ->. destruct Ht as [[_ ->]|[[x Hx] _]]; [|discriminate]. discriminate Hd. }
  rewrite (container_taken _ _ _ _ _ _ _ s) by (reflexivity || discriminate || assumption). cbn [kmap]. rewrite Hd.
  set (f := fun kv : val * val => _).
  assert (He : forall m, gather f items = Ok m <->
     elements_made (same_key (fun x => outcome UndefinedParameterError (interpolate E recon n ip vf x))) items m).
  { intros m. rewrite gather_ok. apply elements_made_iff. intros [key x] o. unfold f, same_key. cbn [fst snd].
    assert (Hu := unless_missing_ok (work E (vf, interpolate E recon n ip vf) x)).
    assert (Hw := fun q => outcome_wrap E vf UndefinedParameterError (interpolate E recon n ip vf x) q (or_intror eq_refl)).
    change (wrap_undef E vf (interpolate E recon n ip vf x)) with (work E (vf, interpolate E recon n ip vf) x) in Hw.
    split.
    - intros H. apply bind_Ok in H. destruct H as [y [Hy H]]. apply Hu, Hw in Hy. destruct y as [w|]; injection H as <-; auto.
    - intros H. destruct o as [[k' w]|].
      + cbn in H. destruct H as [-> H]. apply Hw, Hu in H. rewrite H. reflexivity.
      + apply Hw, Hu in H. rewrite H. reflexivity. }
  split.
  - intros H. apply bind_Ok in H. destruct H as [m [Hm H]]. injection H as <-. apply He in Hm. exists m. auto.
  - intros [es [-> Hes]]. apply He in Hes. rewrite Hes. reflexivity.
Qed.

(** @example
Example C56_map :
  interpolate env0 norecon 0 ip56 (Fld p0 (KMap (Fld p0 (KInteger None None)) None None))
    (VDict false [(VStr $"x", VStr $"${n}"); (VStr $"y", VStr $"${q}"); (VStr $"z", VInt 3)])
  = Ok (VDict false [(VStr $"x", VInt 7); (VStr $"z", VInt 3)]).
Proof. vm_compute. auto. Qed.
@end *)

Lemma interpolate_entries_ok E items (run : field -> val -> res val) defn m :
  gather (interpolate_entry E items) (map (fun kf => (fst kf, (snd kf, run (snd kf)))) defn) = Ok m
  <-> entries_made UndefinedParameterError true (fun k => sget k items) run defn m.
Proof.
  rewrite gather_ok. revert m. induction defn as [|[k f] defn IH]; intros m; cbn [map fst snd].
  - split; intros H; inversion H; constructor.
  - assert (Hentry : forall o, interpolate_entry E items (k, (f, run f)) = Ok o <->
      match sget k items with
      | None => o = None
      | Some v => match o with
                  | None => run f v = py UndefinedParameterError
                  | Some (k', w) => k' = VStr k /\ run f v = Ok w
                  end
      end).
    { intros o. unfold interpolate_entry. cbn [fst snd].
      destruct (sget k items) as [v|].
      2: { split; [intros [= <-]; reflexivity|intros ->; reflexivity]. }
      assert (Hu := unless_missing_ok (work E (f, run f) v)).
      assert (Hw := fun q => outcome_wrap E f UndefinedParameterError (run f v) q (or_intror eq_refl)).
      change (wrap_undef E f (run f v)) with (work E (f, run f) v) in Hw.
      split.
      - intros H. apply bind_Ok in H. destruct H as [r [Hr H]]. apply Hu, Hw in Hr. destruct Hr as [w Hr|Hr]; injection H as <-; auto.
      - intros H. destruct o as [[k' w]|].
        + destruct H as [-> H]. assert (Hr : unless_missing (work E (f, run f) v) = Ok (Some w)).
          { apply Hu, Hw. constructor. exact H. }
          rewrite Hr. reflexivity.
        + assert (Hr : unless_missing (work E (f, run f) v) = Ok None).
          { apply Hu, Hw. constructor. exact H. }
          rewrite Hr. reflexivity. }
    split; intros H.
    + inversion H as [|? ? ? Ha Hl|? b ? m' Ha Hl]; subst; apply Hentry in Ha; apply IH in Hl.
      * destruct (sget k items) as [v|] eqn:Hk; [|apply made_absent; [left; exact Hk|exact Hl]].
        eapply made_left; [exact Hk|left; reflexivity|exact Ha|exact Hl].
      * destruct (sget k items) as [v|] eqn:Hk; [|discriminate]. destruct b as [k' w]. destruct Ha as [-> Ha].
        eapply made_kept; [exact Hk|left; reflexivity|exact Ha|exact Hl].
    + inversion H as [|? ? ? ? Ha Hl|? ? ? v ? Hk Hv Ha Hl|? ? ? v w ? Hk Hv Ha Hl]; subst; apply IH in Hl.
      * apply elements_left; [|exact Hl]. apply Hentry. destruct Ha as [-> |[Ha _]]; [reflexivity|discriminate].
      * apply elements_left; [|exact Hl]. apply Hentry. rewrite Hk. exact Ha.
      * apply elements_kept; [|exact Hl]. apply Hentry. rewrite Hk. auto.
Qed.

(** @prop C56 Structures become dicts with exactly those keys of the definition that the subject
    holds and whose interpolation does not miss a parameter, in the order of the definition; null
    entries are kept. *)
Lemma structure_interpolate_exact :
  forall E recon n ip p defn st ko v s items r,
    taken ip v s -> as_dict s = Some items ->
    (interpolate E recon n ip (Fld p (KStructure (SPlain defn) st ko)) v = Ok r <->
     exists es, r = VDict false es
       /\ entries_made UndefinedParameterError true (fun k => sget k items)
            (fun g x => interpolate E recon n ip g x) defn es).
Proof.
  intros E recon n ip p defn st ko v s items r Ht Hd.
  assert (Hv : v <> VNone).
  { intros ->. destruct Ht as [[_ ->]|[[x Hx] _]]; [|discriminate]. discriminate Hd. }
  rewrite (container_taken _ _ _ _ _ _ _ s) by (reflexivity || discriminate || assumption). cbn [kmap sdef_map]. rewrite Hd.
  assert (He := fun m => interpolate_entries_ok E items (fun g => interpolate E recon n ip g) defn m).
  split.
  - intros H. apply bind_Ok in H. destruct H as [m [Hm H]]. injection H as <-. apply He in Hm. exists m. auto.
  - intros [es [-> Hes]]. apply He in Hes. rewrite Hes. reflexivity.
Qed.

(** @example
Example C56_structure :
  interpolate env0 norecon 0 ip56
    (Fld p0 (KStructure (SPlain [($"a", Fld p0 (KInteger None None)); ($"b", Fld p0 KBoolean); ($"c", Fld p0 KBoolean)]) true None))
    (VDict false [(VStr $"c", VNone); (VStr $"b", VStr $"${q}"); (VStr $"a", VStr $"${n}"); (VStr $"z", VInt 3)])
  = Ok (VDict false [(VStr $"a", VInt 7); (VStr $"c", VNone)]).
Proof. vm_compute. auto. Qed.
@end *)

(** @prop C56 A polymorphic structure does the same with the definition of the variant named by the
    discriminator of the subject. *)
Lemma polymorphic_interpolate_exact :
  forall E recon n ip p q kd name vs st ko v s items ident i defn r,
    taken ip v s -> as_dict s = Some items -> p_name q = Some name ->
    sget name items = Some ident -> truthy ident = true -> hashable ident = true ->
    find (fun vd => veq (e_local E) (fst vd) ident) vs = Some (i, defn) ->
    (interpolate E recon n ip (Fld p (KStructure (SPoly (Fld q kd) vs) st ko)) v = Ok r <->
     exists es, r = VDict false es
       /\ entries_made UndefinedParameterError true (fun k => sget k items)
            (fun g x => interpolate E recon n ip g x) defn es).
Proof.
  intros E recon n ip p q kd name vs st ko v s items ident i defn r Ht Hd Hname Hid Htr Hh Hfind.
  assert (Hv : v <> VNone).
  { intros ->. destruct Ht as [[_ ->]|[[x Hx] _]]; [|discriminate]. discriminate Hd. }
  rewrite (container_taken _ _ _ _ _ _ _ s) by (reflexivity || discriminate || assumption). cbn [kmap sdef_map]. rewrite Hd.
  cbn [fst fparams]. rewrite Hname, Hid, Htr. unfold variant. rewrite Hh.
  rewrite (find_map_snd (fun a => veq (e_local E) a ident)), Hfind. cbn [option_map fst snd bind].
  assert (He := fun m => interpolate_entries_ok E items (fun g => interpolate E recon n ip g) defn m).
  split.
  - intros H. apply bind_Ok in H. destruct H as [m [Hm H]]. injection H as <-. apply He in Hm. exists m. auto.
  - intros [es [-> Hes]]. apply He in Hes. rewrite Hes. reflexivity.
Qed.

(** @example
Example C56_polymorphic :
  let on := Fld (p_named $"type") (KText None None None true) in
  let f := Fld p0 (KStructure (SPoly on [(VStr $"x", [($"type", on); ($"a", Fld p0 KBoolean)]);
                                         (VStr $"y", [($"type", on); ($"b", Fld p0 (KInteger None None))])]) true None) in
  interpolate env0 norecon 0 ip56 f (VDict false [(VStr $"b", VStr $"${n}"); (VStr $"type", VStr $"y")])
  = Ok (VDict false [(VStr $"type", VStr $"y"); (VStr $"b", VInt 7)])
  /\ interpolate env0 norecon 0 ip56 f (VDict false [(VStr $"b", VStr $"${n}")]) = py KeyError.
Proof. vm_compute. auto. Qed.
@end *)

(** @prop C56 A container that is given neither its shape nor a reference to it is refused, and a
    reference that cannot be evaluated raises what the evaluation raises. *)
Lemma container_interpolate_refuses :
  forall E recon n ip p k v,
    (forall s, taken ip v s -> v <> VNone ->
      match k with
      | KMap _ _ _ | KStructure _ _ _ => as_dict s = None
      | KSequence _ _ _ _ | KTuple _ => forall l, ~ elements s l
      | _ => False
      end -> interpolate E recon n ip (Fld p k) v = py CannotInterpolateError)
    /\ (forall s x, v = VStr s -> kind_structural k = true -> referred ip v (Raise x) ->
        interpolate E recon n ip (Fld p k) v = Raise x).
Proof.
  intros E recon n ip p k v. split.
  - intros s Ht Hv Hs.
    assert (Hk : kind_structural k = true) by (destruct k; try contradiction; reflexivity).
    assert (Hu : forall l, k <> KUnion l) by (intros l ->; exact Hs).
    rewrite (container_taken _ _ _ _ _ _ _ s Hk Hu Ht Hv).
    destruct k as [ | | | | | | | | | | | | value key rk | | it a b u | d0 st o | | | | | values | values | ]; try contradiction; cbn [kmap].
    + rewrite Hs. reflexivity.
    + destruct s; try reflexivity; exfalso; eapply Hs; [left|right]; reflexivity.
    + rewrite Hs. reflexivity.
    + destruct s; try reflexivity; exfalso; eapply Hs; [left|right]; reflexivity.
  - intros s x -> Hk Hr. apply simple_interpolation_exact in Hr. rewrite interpolate_Fld. unfold interpolate_body. cbn [is_none].
    destruct k; try discriminate Hk; cbn [kmap interpolate_text]; unfold interpolate_text; rewrite Hr; reflexivity.
Qed.

(** @example
Example C56_refuses :
  let f := Fld p0 (KMap (Fld p0 (KInteger None None)) None None) in
  interpolate env0 norecon 0 ip56 f (VStr $"${n}") = py CannotInterpolateError
  /\ interpolate env0 norecon 0 ip56 f (VStr $"abc") = py CannotInterpolateError
  /\ interpolate env0 norecon 0 ip56 f (VStr $"${q}") = py UndefinedParameterError.
Proof. vm_compute. auto. Qed.
@end *)

(** ** C56: whole values *)

Lemma literal_dict ip o l k x : literal_text ip (VDict o l) -> In (k, x) l -> literal_text ip x.
Proof. intros H. inversion H as [v _ Hd _]; subst. intros Hin. eapply Hd; [reflexivity|exact Hin]. Qed.
Lemma literal_elem ip v l x : literal_text ip v -> elements v l -> In x l -> literal_text ip x.
Proof. intros H. inversion H as [v' _ _ He]; subst. apply He. Qed.
Lemma literal_str ip s : literal_text ip (VStr s) -> ip_render ip s = Ok (VStr s).
Proof. intros H. inversion H as [v' Hs _ _]; subst. apply Hs. reflexivity. Qed.

Lemma hex_no_dollar n s : hex_group n s -> ~ In 36%N s.
Proof.
  unfold hex_group. intros [_ H] Hin. rewrite Forall_forall in H. specialize (H _ Hin). unfold lower_hex in H. lia.
Qed.

Lemma uuid_no_reference s : rmatch_dollar uuid_re s = true -> forall e, ~ reference s e.
Proof.
  intros H e [a [b [_ [_ [_ [_ Hs]]]]]].
  assert (Hd : In 36%N s) by (rewrite Hs; apply in_or_app; right; left; reflexivity).
  apply dollar_lang, (opt_newline_iff _ _ _ uuid_lang) in H.
  assert (Ht : forall t, uuid_text t -> ~ In 36%N t).
  { intros t [x1 [x2 [x3 [x4 [x5 [-> [H1 [H2 [H3 [H4 H5]]]]]]]]]] Hin.
    apply hex_no_dollar in H1, H2, H3, H4, H5.
    rewrite !in_app_iff in Hin.
    assert (Hm : ~ In 36%N $"-") by (vm_compute; intuition discriminate). tauto. }
  destruct H as [H|[t [-> H]]]; [exact (Ht _ H Hd)|]. apply in_app_or in Hd. destruct Hd as [Hd|[Hd|[]]]; [exact (Ht _ H Hd)|discriminate].
Qed.

Lemma entries_literal E (run : field -> val -> res val) (d : list (str * field)) l :
  NoDup (map fst d) -> NoDup (map fst l) -> sublist (map fst l) (map VStr (map fst d)) ->
  (forall kv, In kv l -> exists s g, fst kv = VStr s /\ In (s, g) d /\ run g (snd kv) = Ok (snd kv)) ->
  gather (interpolate_entry E l) (map (fun kf => (fst kf, (snd kf, run (snd kf)))) d) = Ok l.
Proof.
  intros Hnd Hndl Hsub Hent. rewrite (gather_rebuild _ _ l (map Some l)).
  - f_equal. clear. induction l as [|x l IH]; [reflexivity|]. cbn [map flat_map app]. rewrite IH. reflexivity.
  - rewrite map_map. exact Hnd.
  - rewrite !map_map. rewrite map_map in Hsub. exact Hsub.
  - intros k c _ Hno. unfold interpolate_entry. cbn [fst].
    assert (Hg0 : sget k l = None).
    { apply sget_None. intros x Hin'. apply Hno. apply (in_map fst) in Hin'. exact Hin'. }
    rewrite Hg0. reflexivity.
  - assert (Hone : forall kv, In kv l -> forall k c, fst kv = VStr k ->
       In (k, c) (map (fun kf => (fst kf, (snd kf, run (snd kf)))) d) -> interpolate_entry E l (k, c) = Ok (Some kv)).
    { intros [k0 x] Hin k c Hk Hc. cbn [fst] in Hk. subst k0. destruct (Hent _ Hin) as [s [g [Hs [Hg Hr]]]].
      cbn [fst snd] in *. injection Hs as <-. apply in_map_iff in Hc. destruct Hc as [[s' g'] [Heq Hg']].
      cbn [fst snd] in Heq. injection Heq as -> <-.
      apply aget_NoDup_In in Hg; [|exact Hnd]. apply aget_NoDup_In in Hg'; [|exact Hnd]. rewrite Hg in Hg'. injection Hg' as <-.
      unfold interpolate_entry. cbn [fst snd]. rewrite (sget_NoDup k x l Hndl Hin). unfold work. cbn [fst snd]. rewrite Hr. reflexivity. }
    clear - Hone. 
    assert (Hgen : forall l', (forall kv, In kv l' -> In kv l) ->
       Forall2 (fun kv o => forall k c, fst kv = VStr k ->
         In (k, c) (map (fun kf => (fst kf, (snd kf, run (snd kf)))) d) -> interpolate_entry E l (k, c) = Ok o) l' (map Some l')).
    { induction l' as [|kv l' IH]; intros Hin; cbn [map]; constructor.
      - apply Hone, Hin. left. reflexivity.
      - apply IH. intros kv' Hkv'. apply Hin. right. exact Hkv'. }
    apply Hgen. auto.
Qed.

(** @prop C56 Values without variables are left alone: interpolation is the identity on conforming
    values whose strings are rendered as themselves (in schemas without unions, key orders and the
    classes Field, Object and Error, which refuse values that are not strings). *)
Lemma interpolate_identity_partial :
  forall E recon n ip f v,
    throughout E well_keyed f -> throughout E straight f -> throughout E literal_kind f ->
    conforms E n f v -> literal_text ip v ->
    interpolate E recon n ip f v = Ok v.
Proof.
  intros E recon n ip f v [Hf Hu] [Ht Htu] [Hg Hgu] Hc Hlit.
  revert f Hf Ht Hg v Hc Hlit.
  induction n as [n IHn] using lt_wf_ind.
  intros f. induction f as [i|p k IH] using field_ind'; intros Hf Ht Hg v H Hlit.
  - rewrite conforms_FUndef in H. rewrite interpolate_FUndef.
    destruct (e_undef E i) as [[|q k]|] eqn:He; try contradiction.
    destruct n as [|m]; [contradiction|]. eapply IHn; eauto.
  - assert (Hsub : forall g v, In g (subfields k) -> conforms E n g v -> literal_text ip v -> interpolate E recon n ip g v = Ok v).
    { intros g v' Hin Hc' Hn'. eapply (IH g Hin); try (eapply everywhere_sub; eauto); eauto. }
    assert (Hst := everywhere_top _ _ _ Ht). assert (Hwk := everywhere_top _ _ _ Hf).
    assert (Hlk := everywhere_top _ _ _ Hg).
    rewrite conforms_Fld in H.
    destruct (is_none v) eqn:Hnone.
    { destruct v; try discriminate. apply interpolate_native. left. reflexivity. }
    assert (Hv : v <> VNone) by (intros ->; discriminate).
    destruct H as [[-> _]|[_ H]]; [congruence|].
    assert (Htk : forall x, v = x -> (forall s, x <> VStr s) -> taken ip v x).
    { intros x <- Hx. left. auto. }
    destruct k as [ |mn mx| |mn mx|mn mx utc|mn mx|va|mu ex mn mx|en ig| |mn mx|mn mx|value key0 rk| |item a b u|d0 st o|va|pa mn mx sp|mn mx|se|values|values| ];
      cbn [kmap literal_kind] in H, Hlk; try contradiction.
    + destruct H as [[b [-> _]] _]. apply interpolate_native. right. cbn. eauto.
    + destruct H as [[b ->] _]. apply interpolate_native. right. cbn. eauto.
    + destruct H as [[[d [-> _]]|[[dt ->] _]] _]; apply interpolate_native; right; cbn; eauto.
    + destruct H as [[dt [z [-> _]]] _]. apply interpolate_native. right. cbn. eauto.
    + destruct H as [[d [-> _]] _]. apply interpolate_native. right. cbn. eauto.
    + destruct H as [[q [k' [-> _]]] _]. apply interpolate_native. right. cbn. eauto.
    + destruct H as [[s [-> _]] _]. rewrite text_interpolate_exact; [|exact I|discriminate].
      apply literal_str in Hlit. destruct s; [reflexivity|exact Hlit].
    + destruct H as [[x [Hx1 Hx2]] _].
      refine (proj1 (enumeration_interpolate_exact E recon n ip p en ig v Hv _ Hlk) _); [eapply veq_snan_r, Hx2|].
      exists x. auto.
    + destruct H as [[x [-> _]] _]. rewrite interpolate_Fld. reflexivity.
    + destruct H as [[z [-> _]] _]. rewrite interpolate_Fld. reflexivity.
    + (* map *)
      destruct H as [l [-> [_ [Hl _]]]].
      apply (map_interpolate_exact E recon n ip p value key0 rk (VDict false l) (VDict false l) l);
        [left; split; [discriminate|reflexivity]|reflexivity|].
      exists l. split; [reflexivity|].
      assert (Hvf : In value (subfields (KMap value key0 rk : kind))) by (destruct key0; left; reflexivity).
      assert (Hone : forall kv, In kv l -> interpolate E recon n ip value (snd kv) = Ok (snd kv)).
      { intros [k0 x] Hin. rewrite Forall_forall in Hl. destruct (Hl _ Hin) as [_ [_ [_ Hx]]]. cbn [snd] in *.
        apply Hsub; [exact Hvf|exact Hx|eapply literal_dict; eauto]. }
      clear - Hone. induction l as [|kv l IHl]; [constructor|apply elements_kept].
      * cbn. split; [reflexivity|]. constructor. apply Hone. left. reflexivity.
      * apply IHl. intros kv' Hkv'. apply Hone. right. exact Hkv'.
    + (* sequence *)
      destruct H as [l [-> [_ [_ [Hl _]]]]].
      apply (sequence_interpolate_exact E recon n ip p item a b u (VList l) (VList l) l);
        [left; split; [discriminate|reflexivity]|left; reflexivity|].
      exists l. split; [reflexivity|].
      assert (Hone : forall x, In x l -> interpolate E recon n ip item x = Ok x).
      { intros x Hin. rewrite Forall_forall in Hl. apply Hsub; [left; reflexivity|exact (Hl _ Hin)|].
        eapply literal_elem; [exact Hlit|left; reflexivity|exact Hin]. }
      clear - Hone. induction l as [|x l IHl]; constructor; [apply Hone; left; reflexivity|].
      apply IHl. intros y Hy. apply Hone. right. exact Hy.
    + (* structure *)
      cbn [straight] in Hst. destruct Hst as [-> Hst].
      assert (Hentries : forall d l, (forall kf, In kf d -> In (snd kf) (subfields (KStructure d0 st None : kind))) ->
        NoDup (map fst d) -> struct_conf E (map (fun kf => (fst kf, (snd kf, conforms E n (snd kf)))) d) None l ->
        literal_text ip (VDict false l) ->
        gather (interpolate_entry E l) (map (fun kf => (fst kf, (snd kf, interpolate E recon n ip (snd kf)))) d) = Ok l).
      { intros d l Hin Hnd Hc Hn'. destruct (entry_of E (fun g => conforms E n g) d l Hnd Hc) as [Hndl [Hsubl Hent]].
        apply (entries_literal E (fun g => interpolate E recon n ip g)); try assumption.
        intros [k0 x] Hkv. destruct (Hent _ Hkv) as [s [g [Hs [Hg' Hcx]]]]. exists s, g. split; [exact Hs|]. split; [exact Hg'|].
        cbn [snd] in *. apply Hsub; [exact (Hin _ Hg')|exact Hcx|]. eapply literal_dict; eauto. }
      destruct d0 as [d|on vs]; cbn [sdef_map] in H.
      * destruct H as [l [-> Hc]]. destruct Hwk as [Hnd _]. cbn [has_order] in *.
        rewrite (container_taken _ _ _ _ _ _ _ (VDict false l)); try discriminate; [|reflexivity|apply Htk; [reflexivity|discriminate]].
        cbn [kmap sdef_map as_dict]. rewrite (Hentries d l); auto. intros kf Hkf. cbn [subfields sdef_fields]. apply in_map, Hkf.
      * destruct H as [l [name [q [y [vk [d [-> [Hq [Hname [Hin [Hyn [Hy [Hh [Hfind Hc]]]]]]]]]]]]]].
        destruct Hwk as [_ [q' [kd [name' [-> [Hname' [Hb [Hkig Hvs]]]]]]]]. cbn [has_order] in *.
        cbn in Hq. subst q'. rewrite Hname in Hname'. injection Hname' as <-.
        rewrite (find_map_snd (fun a => veq (e_local E) a y)) in Hfind.
        destruct (find (fun vd => veq (e_local E) (fst vd) y) vs) as [[vk' d']|] eqn:Hf'; [|discriminate].
        cbn [option_map fst snd] in Hfind. injection Hfind as <- <-.
        apply find_some in Hf' as Hfs. destruct Hfs as [Hin_vs Heq]. cbn [fst] in Heq.
        rewrite Forall_forall in Hvs. destruct (Hvs _ Hin_vs) as [Hnd Hdisc]. cbn [fst snd] in Hnd, Hdisc.
        destruct (entry_of E (fun g => conforms E n g) d' l Hnd Hc) as [Hndl [_ Hent]].
        assert (Htr : truthy y = true) by (rewrite <- (truthy_veq _ _ _ Heq); exact (Hst _ Hin_vs)).
        rewrite (container_taken _ _ _ _ _ _ _ (VDict false l)); try discriminate; [|reflexivity|apply Htk; [reflexivity|discriminate]].
        cbn [kmap sdef_map as_dict fst fparams]. rewrite Hname, (sget_NoDup name y l Hndl Hin), Htr.
        unfold variant. rewrite Hh. rewrite (find_map_snd (fun a => veq (e_local E) a y)), Hf'. cbn [option_map fst snd bind].
        rewrite (Hentries d' l); auto.
        intros kf Hkf. cbn [subfields sdef_fields]. right. apply in_flat_map. exists (vk', d'). split; [exact Hin_vs|]. apply in_map, Hkf.
    + destruct H as [[i [s [w [l [-> _]]]]] _]. apply interpolate_native. right. cbn. eauto 6.
    + destruct H as [[s [-> _]] _]. rewrite text_interpolate_exact; [|exact I|discriminate].
      apply literal_str in Hlit. destruct s; [reflexivity|exact Hlit].
    + destruct H as [[t [-> _]] _]. apply interpolate_native. right. cbn. eauto.
    + destruct H as [[s [-> _]] _]. rewrite text_interpolate_exact; [|exact I|discriminate].
      apply literal_str in Hlit. destruct s; [reflexivity|exact Hlit].
    + (* tuple *)
      destruct H as [l [-> Hl]].
      assert (Hlen : length values = length l).
      { clear - Hl. revert l Hl. induction values as [|g gs IH]; intros l Hl; inversion Hl; subst; cbn; [reflexivity|f_equal; auto]. }
      apply (tuple_interpolate_exact E recon n ip p values (VTuple l) (VTuple l) l);
        [left; split; [discriminate|reflexivity]|right; reflexivity|exact Hlen|].
      exists l. split; [reflexivity|].
      assert (Hlit' : forall x, In x l -> literal_text ip x).
      { intros x Hin. eapply literal_elem; [exact Hlit|right; reflexivity|exact Hin]. }
      assert (Hs' : forall g v, In g values -> conforms E n g v -> literal_text ip v -> interpolate E recon n ip g v = Ok v) by exact Hsub.
      clear - Hl Hlit' Hs'. revert l Hl Hlit'. induction values as [|g gs IHg]; intros l Hl Hlit'; inversion Hl as [|? x ? l' Hc Hl']; subst; cbn [combine]; constructor.
      * cbn [fst snd] in *. apply Hs'; [left; reflexivity|exact Hc|apply Hlit'; left; reflexivity].
      * apply IHg; [intros g' v' Hg'; apply Hs'; right; exact Hg'|exact Hl'|]. intros z Hz. apply Hlit'. right. exact Hz.
    + destruct H as [[s [-> Hs]] _]. apply scalar_interpolate_exact; [exact I|discriminate|cbn; tauto|].
      apply referred_text. apply uuid_no_reference. exact Hs.
Qed.

(** @example
Example C56_identity :
  let f := Fld p0 (KStructure (SPlain [($"a", Fld p0 (KText None None None true));
              ($"b", Fld p0 (KSequence (Fld p0 (KInteger None None)) None None false))]) true None) in
  let v := VDict false [(VStr $"a", VStr $"x"); (VStr $"b", VList [VInt 3; VNone])] in
  throughout env0 well_keyed f /\ throughout env0 straight f /\ throughout env0 literal_kind f
  /\ conforms env0 0 f v /\ literal_text ip56 v
  /\ interpolate env0 norecon 0 ip56 f v = Ok v.
Proof.
  cbn zeta.
  assert (Hev : forall P : params -> kind -> Prop,
    P p0 (KText None None None true) -> P p0 (KInteger None None) ->
    P p0 (KSequence (Fld p0 (KInteger None None)) None None false) ->
    P p0 (KStructure (SPlain [($"a", Fld p0 (KText None None None true));
              ($"b", Fld p0 (KSequence (Fld p0 (KInteger None None)) None None false))]) true None) ->
    throughout env0 P (Fld p0 (KStructure (SPlain [($"a", Fld p0 (KText None None None true));
              ($"b", Fld p0 (KSequence (Fld p0 (KInteger None None)) None None false))]) true None))).
  { intros P H1 H2 H3 H4. split; [|discriminate]. constructor; [exact H4|]. intros g [<-|[<-|[]]].
    - constructor; [exact H1|]. intros ? [].
    - constructor; [exact H3|]. intros g [<-|[]]. constructor; [exact H2|]. intros ? []. }
  split; [apply Hev; try exact I; cbn; split; [|exact I]; repeat constructor; cbn; intuition discriminate|].
  split; [apply Hev; cbn; auto|]. split; [apply Hev; exact I|].
  split.
  { right. split; [discriminate|]. eexists. split; [reflexivity|]. split; [apply sublist_take, sublist_take, sublist_nil|]. split.
    - intros k y [H|[H|[]]]; injection H as <- <-.
      + eexists. split; [left; reflexivity|]. right. split; [discriminate|]. split; [|split; [left; reflexivity|intros _; split; [discriminate|exact I]]].
        exists $"x". split; [reflexivity|]. split; [|split; [discriminate|split; [discriminate|intros i H; discriminate]]].
        exists [], []. split; [reflexivity|]. split; [constructor|]. split; [constructor|]. split.
        * intros c r [= <- _]. reflexivity.
        * intros c r H. destruct r as [|y [|z r]]; try discriminate. injection H as <-. reflexivity.
      + eexists. split; [right; left; reflexivity|]. right. split; [discriminate|]. eexists. split; [reflexivity|].
        split; [discriminate|]. split; [discriminate|]. split; [|discriminate].
        constructor; [|constructor; [left; auto|constructor]].
        right. split; [discriminate|]. split; [|split; [left; reflexivity|intros _; split; [discriminate|exact I]]].
        exists 3%Z. split; [reflexivity|]. split; discriminate.
    - intros k c _ [H|[H|[]]] Hno; injection H as <- <-; exfalso; apply Hno; [left|right; left]; reflexivity. }
  split; [|vm_compute; reflexivity].
  assert (Hl : forall v, (forall o l, v <> VDict o l) -> (forall l, ~ elements v l) -> literal_text ip56 v).
  { intros v H1 H2. constructor.
    - reflexivity.
    - intros o l k x -> _. destruct (H1 o l eq_refl).
    - intros l x H _. destruct (H2 l H). }
  constructor; [discriminate| |intros l x [H|H]; discriminate].
  intros o l k x [= <- <-] [H|[H|[]]]; injection H as <- <-.
  - apply Hl; [discriminate|]. intros l [H|H]; discriminate.
  - constructor; [discriminate|discriminate|]. intros l x [H|H]; [|discriminate]. injection H as <-.
    intros [<-|[<-|[]]]; (apply Hl; [discriminate|]; intros l [H|H]; discriminate).
Qed.
@end *)

(** @prop C56 Union.interpolate uses a name that does not exist: every interpolation of a value by a
    union fails. *)
Lemma union_interpolate_fails :
  forall E recon n ip p f fs v,
    v <> VNone -> (forall s, v <> VStr s) -> undefined E f = false ->
    interpolate E recon n ip (Fld p (KUnion (f :: fs))) v = py NameError.
Proof.
  intros E recon n ip p f fs v Hv Hs Hu. rewrite interpolate_Fld. unfold interpolate_body. rewrite (is_none_false _ Hv).
  cbn [kmap map fst]. assert (Ht : interpolate_text ip v = Ok v).
  { apply text_taken. left. auto. }
  rewrite Ht. cbn [bind fst]. rewrite Hu. reflexivity.
Qed.

(** @example
Example C56_union :
  interpolate env0 norecon 0 ip56 (Fld p0 (KUnion [Fld p0 KBoolean])) (VBool true) = py NameError.
Proof. vm_compute. auto. Qed.
@end *)

(** @prop C56 Refuted for unions: a conforming value without any variable is not left alone. *)
Lemma interpolate_union_refuted :
  exists f v ip, conforms env0 0 f v /\ literal_text ip v
    /\ interpolate env0 norecon 0 ip f v = py NameError.
Proof.
  exists (Fld p0 (KUnion [Fld p0 KBoolean])), (VBool true), {| ip_eval := fun _ => py NameError; ip_render := fun s => Ok (VStr s) |}.
  split; [|split].
  - right. split; [discriminate|]. eexists. split; [left; reflexivity|]. right. split; [discriminate|].
    split; [exists true; reflexivity|]. split; [left; reflexivity|]. intros _. split; [discriminate|exact I].
  - constructor; [discriminate|discriminate|]. intros l x [H|H]; discriminate.
  - reflexivity.
Qed.
