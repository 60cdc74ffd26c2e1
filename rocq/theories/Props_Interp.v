(** Property theorems proved in InterpProofs.v (generated by tools/mkprops.py). *)
From Verif Require Import Spec Demo ExtractSpec InterpProofs.

(** C57.  In simple mode, a string of the form blank [${expr}] blank, with a non empty expression
    without closing brace, becomes the value of the expression, which is evaluated without its
    surrounding blanks; any other string is returned unchanged; anything else is a ValueError. *)
Theorem C57_simple_interpolation_exact :
  forall ip v r, interpolate_parameters ip true v = r <-> referred ip v r.
Proof. exact simple_interpolation_exact. Qed.
Print Assumptions C57_simple_interpolation_exact.

Definition ip56 : interpolator := {|
  ip_eval := fun e => if str_eqb e $"n" then Ok (VInt 7)
                      else if str_eqb e $"l" then Ok (VList [VInt 1; VStr $"${n}"])
                      else if str_eqb e $"t" then Ok (VStr $"2") else py UndefinedParameterError;
  ip_render := fun s => Ok (VStr s) |}.
Example C57_simple :
  interpolate_parameters ip56 true (VStr $"  ${ n } ") = Ok (VInt 7)
  /\ interpolate_parameters ip56 true (VStr $"a${n}") = Ok (VStr $"a${n}")
  /\ interpolate_parameters ip56 true (VStr $"${}") = Ok (VStr $"${}")
  /\ interpolate_parameters ip56 true (VStr $"${a}b}") = Ok (VStr $"${a}b}")
  /\ interpolate_parameters ip56 true (VStr $"${q}") = py UndefinedParameterError
  /\ interpolate_parameters ip56 true (VInt 3) = py ValueError
  /\ referred ip56 (VStr $" ${ n }") (Ok (VInt 7)).
Proof.
  do 6 (split; [vm_compute; reflexivity|]).
  refine (referred_expression ip56 $" ${ n }" $" n " $"n" _ _).
  - exists $" ", []. split; [repeat constructor|]. split; [constructor|]. split; [discriminate|].
    split; [|reflexivity]. cbn. intuition discriminate.
  - exists $" ", $" ". split; [reflexivity|]. split; [repeat constructor|]. split; [repeat constructor|].
    split; [intros c r [= <- _]; reflexivity|]. intros c r H. destruct r as [|x [|y r]]; try discriminate. injection H as <-. reflexivity.
Qed.

(** C57.  A string is a reference in at most one way, so that the value is well defined. *)
Theorem C57_reference_unique :
  forall s e1 e2, reference s e1 -> reference s e2 -> e1 = e2.
Proof. exact reference_unique. Qed.
Print Assumptions C57_reference_unique.

Example C57_unique : reference $"${ a }" $" a ".
Proof.
  exists [], []. split; [constructor|]. split; [constructor|]. split; [discriminate|].
  split; [|reflexivity]. cbn. intuition discriminate.
Qed.

(** C57.  Outside simple mode a non empty string is rendered as a template, an empty one stays
    empty, anything else is a ValueError. *)
Theorem C57_template_interpolation_exact :
  forall ip v r, interpolate_parameters ip false v = r <->
    (exists s, v = VStr s /\ s <> [] /\ r = ip_render ip s)
    \/ (v = VStr [] /\ r = Ok (VStr []))
    \/ ((forall s, v <> VStr s) /\ r = py ValueError).
Proof. exact template_interpolation_exact. Qed.
Print Assumptions C57_template_interpolation_exact.

Example C57_template :
  interpolate_parameters ip56 false (VStr $"a ${n}") = Ok (VStr $"a ${n}")
  /\ interpolate_parameters ip56 false (VStr []) = Ok (VStr []).
Proof. vm_compute. auto. Qed.

(** C56.  Null stays null for every field.  A native value of a class that has one is left alone. *)
Theorem C56_interpolate_native :
  forall E recon n ip p k v,
    v = VNone \/ native_value k v -> interpolate E recon n ip (Fld p k) v = Ok v.
Proof. exact interpolate_native. Qed.
Print Assumptions C56_interpolate_native.

Example C56_native :
  let i := interpolate env0 norecon 0 ip56 in
  i (Fld p0 KBoolean) (VBool false) = Ok (VBool false)
  /\ i (Fld p0 (KMap (Fld p0 KBoolean) None None)) VNone = Ok VNone
  /\ native_value KBoolean (VBool false).
Proof. split; [vm_compute; reflexivity|]. split; [vm_compute; reflexivity|]. exists false. reflexivity. Qed.

(** C56.  Exactly the variable references are replaced: Boolean, Binary, Date, DateTime, Time,
    Definition, UUID and the like turn a reference into the value of its expression and leave other
    strings as they are; a value that is neither native nor a string is a ValueError. *)
Theorem C56_scalar_interpolate_exact :
  forall E recon n ip p k v r,
    referring k -> v <> VNone -> ~ native_value k v ->
    (interpolate E recon n ip (Fld p k) v = r <-> referred ip v r).
Proof. exact scalar_interpolate_exact. Qed.
Print Assumptions C56_scalar_interpolate_exact.

Example C56_scalar :
  let i := interpolate env0 norecon 0 ip56 in
  i (Fld p0 KBoolean) (VStr $"${n}") = Ok (VInt 7)
  /\ i (Fld p0 KUUID) (VStr $"n") = Ok (VStr $"n")
  /\ i (Fld p0 KField) (VInt 3) = py ValueError
  /\ i (Fld p0 KBoolean) (VStr $"${q}") = py UndefinedParameterError.
Proof. vm_compute. auto. Qed.

(** C56.  Text, Email and Token fields take their value as a template. *)
Theorem C56_text_interpolate_exact :
  forall E recon n ip p k v,
    templated k -> v <> VNone ->
    interpolate E recon n ip (Fld p k) v
    = match v with VStr [] => Ok v | VStr s => ip_render ip s | _ => py ValueError end.
Proof. exact text_interpolate_exact. Qed.
Print Assumptions C56_text_interpolate_exact.

Example C56_text :
  interpolate env0 norecon 0 {| ip_eval := fun _ => py NameError; ip_render := fun s => Ok (VStr (s ++ s)) |}
    (Fld p0 (KText None None None true)) (VStr $"ab") = Ok (VStr $"abab").
Proof. vm_compute. auto. Qed.

(** C56.  Numbers: a reference (or another string) is replaced and the result converted to the
    class of the field; numbers are converted as they are.  A failed evaluation stays the failure. *)
Theorem C56_number_interpolate_exact :
  forall E recon n ip p k v,
    numeric k -> v <> VNone -> ~ native_value k v ->
    (forall r, interpolate E recon n ip (Fld p k) v = Ok r <->
      (number k v /\ as_number E k v r)
      \/ (~ number k v /\ exists w, referred ip v (Ok w) /\ as_number E k w r))
    /\ (forall x, ~ number k v -> referred ip v (Raise x) ->
         interpolate E recon n ip (Fld p k) v = Raise x).
Proof. exact number_interpolate_exact. Qed.
Print Assumptions C56_number_interpolate_exact.

Example C56_number :
  let i := interpolate env0 norecon 0 ip56 in
  i (Fld p0 (KInteger None None)) (VStr $"${t}") = Ok (VInt 2)
  /\ i (Fld p0 (KInteger None None)) (VInt 4) = Ok (VInt 4)
  /\ i (Fld p0 (KInteger None None)) (VStr $"x") = py ValueError
  /\ i (Fld p0 (KInteger None None)) (VStr $"${q}") = py UndefinedParameterError.
Proof. vm_compute. auto. Qed.

(** C56.  Enumerations leave their own values alone; anything else is taken as a reference to one
    of them, and refused when it is none.  (A signaling NaN cannot be compared.) *)
Theorem C56_enumeration_interpolate_exact :
  forall E recon n ip p l ig v,
    v <> VNone -> snan_val v = false -> (forall x, In x l -> snan_val x = false) ->
    let member w := exists x, In x l /\ veq (e_local E) x w = true in
    let out := interpolate E recon n ip (Fld p (KEnumeration l ig)) v in
    (member v -> out = Ok v)
    /\ (~ member v -> forall w, snan_val w = false -> referred ip v (Ok w) ->
          (member w -> out = Ok w) /\ (~ member w -> out = py CannotInterpolateError))
    /\ (~ member v -> forall x, referred ip v (Raise x) -> out = Raise x).
Proof. exact enumeration_interpolate_exact. Qed.
Print Assumptions C56_enumeration_interpolate_exact.

Example C56_enumeration :
  let f := Fld p0 (KEnumeration [VInt 7; VStr $"a"] None) in
  let i := interpolate env0 norecon 0 ip56 in
  i f (VStr $"a") = Ok (VStr $"a") /\ i f (VStr $"${n}") = Ok (VInt 7)
  /\ i f (VStr $"${t}") = py CannotInterpolateError /\ i f (VStr $"b") = py CannotInterpolateError.
Proof. vm_compute. auto. Qed.

(** C56.  Sequences, given as a list or tuple or by reference, become lists of the interpolated
    items in order. *)
Theorem C56_sequence_interpolate_exact :
  forall E recon n ip p it a b u v s l r,
    taken ip v s -> elements s l ->
    (interpolate E recon n ip (Fld p (KSequence it a b u)) v = Ok r <->
     exists m, r = VList m /\ Forall2 (fun x y => interpolate E recon n ip it x = Ok y) l m).
Proof. exact sequence_interpolate_exact. Qed.
Print Assumptions C56_sequence_interpolate_exact.

Example C56_sequence :
  let f := Fld p0 (KSequence (Fld p0 (KInteger None None)) None None false) in
  interpolate env0 norecon 0 ip56 f (VStr $"${l}") = Ok (VList [VInt 1; VInt 7])
  /\ interpolate env0 norecon 0 ip56 f (VTuple [VStr $"${t}"; VNone]) = Ok (VList [VInt 2; VNone])
  /\ interpolate env0 norecon 0 ip56 f (VList [VStr $"${q}"]) = py UndefinedParameterError.
Proof. vm_compute. auto. Qed.

(** C56.  Tuples likewise, position by position. *)
Theorem C56_tuple_interpolate_exact :
  forall E recon n ip p fs v s l r,
    taken ip v s -> elements s l -> length fs = length l ->
    (interpolate E recon n ip (Fld p (KTuple fs)) v = Ok r <->
     exists m, r = VTuple m
       /\ Forall2 (fun fx y => interpolate E recon n ip (fst fx) (snd fx) = Ok y) (combine fs l) m).
Proof. exact tuple_interpolate_exact. Qed.
Print Assumptions C56_tuple_interpolate_exact.

Example C56_tuple :
  interpolate env0 norecon 0 ip56 (Fld p0 (KTuple [Fld p0 (KInteger None None); Fld p0 KBoolean]))
    (VList [VStr $"${n}"; VBool true; VInt 5]) = Ok (VTuple [VInt 7; VBool true]).
Proof. vm_compute. auto. Qed.

(** C56.  Maps keep their keys, each with its value interpolated, and drop exactly the entries
    with an undefined parameter. *)
Theorem C56_map_interpolate_exact :
  forall E recon n ip p vf kf req v s items r,
    taken ip v s -> as_dict s = Some items ->
    (interpolate E recon n ip (Fld p (KMap vf kf req)) v = Ok r <->
     exists es, r = VDict false es
       /\ elements_made (same_key (fun x => outcome UndefinedParameterError (interpolate E recon n ip vf x)))
                        items es).
Proof. exact map_interpolate_exact. Qed.
Print Assumptions C56_map_interpolate_exact.

Example C56_map :
  interpolate env0 norecon 0 ip56 (Fld p0 (KMap (Fld p0 (KInteger None None)) None None))
    (VDict false [(VStr $"x", VStr $"${n}"); (VStr $"y", VStr $"${q}"); (VStr $"z", VInt 3)])
  = Ok (VDict false [(VStr $"x", VInt 7); (VStr $"z", VInt 3)]).
Proof. vm_compute. auto. Qed.

(** C56.  Structures become dicts with exactly those keys of the definition that the subject
    holds and whose interpolation does not miss a parameter, in the order of the definition; null
    entries are kept. *)
Theorem C56_structure_interpolate_exact :
  forall E recon n ip p defn st ko v s items r,
    taken ip v s -> as_dict s = Some items ->
    (interpolate E recon n ip (Fld p (KStructure (SPlain defn) st ko)) v = Ok r <->
     exists es, r = VDict false es
       /\ entries_made UndefinedParameterError true (fun k => sget k items)
            (fun g x => interpolate E recon n ip g x) defn es).
Proof. exact structure_interpolate_exact. Qed.
Print Assumptions C56_structure_interpolate_exact.

Example C56_structure :
  interpolate env0 norecon 0 ip56
    (Fld p0 (KStructure (SPlain [($"a", Fld p0 (KInteger None None)); ($"b", Fld p0 KBoolean); ($"c", Fld p0 KBoolean)]) true None))
    (VDict false [(VStr $"c", VNone); (VStr $"b", VStr $"${q}"); (VStr $"a", VStr $"${n}"); (VStr $"z", VInt 3)])
  = Ok (VDict false [(VStr $"a", VInt 7); (VStr $"c", VNone)]).
Proof. vm_compute. auto. Qed.

(** C56.  A polymorphic structure does the same with the definition of the variant named by the
    discriminator of the subject. *)
Theorem C56_polymorphic_interpolate_exact :
  forall E recon n ip p q kd name vs st ko v s items ident i defn r,
    taken ip v s -> as_dict s = Some items -> p_name q = Some name ->
    sget name items = Some ident -> truthy ident = true -> hashable ident = true ->
    find (fun vd => veq (e_local E) (fst vd) ident) vs = Some (i, defn) ->
    (interpolate E recon n ip (Fld p (KStructure (SPoly (Fld q kd) vs) st ko)) v = Ok r <->
     exists es, r = VDict false es
       /\ entries_made UndefinedParameterError true (fun k => sget k items)
            (fun g x => interpolate E recon n ip g x) defn es).
Proof. exact polymorphic_interpolate_exact. Qed.
Print Assumptions C56_polymorphic_interpolate_exact.

Example C56_polymorphic :
  let on := Fld (p_named $"type") (KText None None None true) in
  let f := Fld p0 (KStructure (SPoly on [(VStr $"x", [($"type", on); ($"a", Fld p0 KBoolean)]);
                                         (VStr $"y", [($"type", on); ($"b", Fld p0 (KInteger None None))])]) true None) in
  interpolate env0 norecon 0 ip56 f (VDict false [(VStr $"b", VStr $"${n}"); (VStr $"type", VStr $"y")])
  = Ok (VDict false [(VStr $"type", VStr $"y"); (VStr $"b", VInt 7)])
  /\ interpolate env0 norecon 0 ip56 f (VDict false [(VStr $"b", VStr $"${n}")]) = py KeyError.
Proof. vm_compute. auto. Qed.

(** C56.  A container that is given neither its shape nor a reference to it is refused, and a
    reference that cannot be evaluated raises what the evaluation raises. *)
Theorem C56_container_interpolate_refuses :
  forall E recon n ip p k v,
    (forall s, taken ip v s -> v <> VNone ->
      match k with
      | KMap _ _ _ | KStructure _ _ _ => as_dict s = None
      | KSequence _ _ _ _ | KTuple _ => forall l, ~ elements s l
      | _ => False
      end -> interpolate E recon n ip (Fld p k) v = py CannotInterpolateError)
    /\ (forall s x, v = VStr s -> kind_structural k = true -> referred ip v (Raise x) ->
        interpolate E recon n ip (Fld p k) v = Raise x).
Proof. exact container_interpolate_refuses. Qed.
Print Assumptions C56_container_interpolate_refuses.

Example C56_refuses :
  let f := Fld p0 (KMap (Fld p0 (KInteger None None)) None None) in
  interpolate env0 norecon 0 ip56 f (VStr $"${n}") = py CannotInterpolateError
  /\ interpolate env0 norecon 0 ip56 f (VStr $"abc") = py CannotInterpolateError
  /\ interpolate env0 norecon 0 ip56 f (VStr $"${q}") = py UndefinedParameterError.
Proof. vm_compute. auto. Qed.

(** C56.  Values without variables are left alone: interpolation is the identity on conforming
    values whose strings are rendered as themselves (in schemas without unions, key orders and the
    classes Field, Object and Error, which refuse values that are not strings). *)
Theorem C56_interpolate_identity_partial :
  forall E recon n ip f v,
    throughout E well_keyed f -> throughout E straight f -> throughout E literal_kind f ->
    conforms E n f v -> literal_text ip v ->
    interpolate E recon n ip f v = Ok v.
Proof. exact interpolate_identity_partial. Qed.
Print Assumptions C56_interpolate_identity_partial.

Example C56_identity :
  let f := Fld p0 (KStructure (SPlain [($"a", Fld p0 (KText None None None true));
              ($"b", Fld p0 (KSequence (Fld p0 (KInteger None None)) None None false))]) true None) in
  let v := VDict false [(VStr $"a", VStr $"x"); (VStr $"b", VList [VInt 3; VNone])] in
  throughout env0 well_keyed f /\ throughout env0 straight f /\ throughout env0 literal_kind f
  /\ conforms env0 0 f v /\ literal_text ip56 v
  /\ interpolate env0 norecon 0 ip56 f v = Ok v.
Proof.
  cbn zeta.
  assert (Hev : forall P : params -> kind -> Prop,
    P p0 (KText None None None true) -> P p0 (KInteger None None) ->
    P p0 (KSequence (Fld p0 (KInteger None None)) None None false) ->
    P p0 (KStructure (SPlain [($"a", Fld p0 (KText None None None true));
              ($"b", Fld p0 (KSequence (Fld p0 (KInteger None None)) None None false))]) true None) ->
    throughout env0 P (Fld p0 (KStructure (SPlain [($"a", Fld p0 (KText None None None true));
              ($"b", Fld p0 (KSequence (Fld p0 (KInteger None None)) None None false))]) true None))).
  { intros P H1 H2 H3 H4. split; [|discriminate]. constructor; [exact H4|]. intros g [<-|[<-|[]]].
    - constructor; [exact H1|]. intros ? [].
    - constructor; [exact H3|]. intros g [<-|[]]. constructor; [exact H2|]. intros ? []. }
  split; [apply Hev; try exact I; cbn; split; [|exact I]; repeat constructor; cbn; intuition discriminate|].
  split; [apply Hev; cbn; auto|]. split; [apply Hev; exact I|].
  split.
  { right. split; [discriminate|]. eexists. split; [reflexivity|]. split; [apply sublist_take, sublist_take, sublist_nil|]. split.
    - intros k y [H|[H|[]]]; injection H as <- <-.
      + eexists. split; [left; reflexivity|]. right. split; [discriminate|]. split; [|split; [left; reflexivity|intros _; split; [discriminate|exact I]]].
        exists $"x". split; [reflexivity|]. split; [|split; [discriminate|split; [discriminate|intros i H; discriminate]]].
        exists [], []. split; [reflexivity|]. split; [constructor|]. split; [constructor|]. split.
        * intros c r [= <- _]. reflexivity.
        * intros c r H. destruct r as [|y [|z r]]; try discriminate. injection H as <-. reflexivity.
      + eexists. split; [right; left; reflexivity|]. right. split; [discriminate|]. eexists. split; [reflexivity|].
        split; [discriminate|]. split; [discriminate|]. split; [|discriminate].
        constructor; [|constructor; [left; auto|constructor]].
        right. split; [discriminate|]. split; [|split; [left; reflexivity|intros _; split; [discriminate|exact I]]].
        exists 3%Z. split; [reflexivity|]. split; discriminate.
    - intros k c _ [H|[H|[]]] Hno; injection H as <- <-; exfalso; apply Hno; [left|right; left]; reflexivity. }
  split; [|vm_compute; reflexivity].
  assert (Hl : forall v, (forall o l, v <> VDict o l) -> (forall l, ~ elements v l) -> literal_text ip56 v).
  { intros v H1 H2. constructor.
    - reflexivity.
    - intros o l k x -> _. destruct (H1 o l eq_refl).
    - intros l x H _. destruct (H2 l H). }
  constructor; [discriminate| |intros l x [H|H]; discriminate].
  intros o l k x [= <- <-] [H|[H|[]]]; injection H as <- <-.
  - apply Hl; [discriminate|]. intros l [H|H]; discriminate.
  - constructor; [discriminate|discriminate|]. intros l x [H|H]; [|discriminate]. injection H as <-.
    intros [<-|[<-|[]]]; (apply Hl; [discriminate|]; intros l [H|H]; discriminate).
Qed.

(** C56.  Union.interpolate uses a name that does not exist: every interpolation of a value by a
    union fails. *)
Theorem C56_union_interpolate_fails :
  forall E recon n ip p f fs v,
    v <> VNone -> (forall s, v <> VStr s) -> undefined E f = false ->
    interpolate E recon n ip (Fld p (KUnion (f :: fs))) v = py NameError.
Proof. exact union_interpolate_fails. Qed.
Print Assumptions C56_union_interpolate_fails.

Example C56_union :
  interpolate env0 norecon 0 ip56 (Fld p0 (KUnion [Fld p0 KBoolean])) (VBool true) = py NameError.
Proof. vm_compute. auto. Qed.

(** C56.  Refuted for unions: a conforming value without any variable is not left alone. *)
Theorem C56_interpolate_union_refuted :
  exists f v ip, conforms env0 0 f v /\ literal_text ip v
    /\ interpolate env0 norecon 0 ip f v = py NameError.
Proof. exact interpolate_union_refuted. Qed.
Print Assumptions C56_interpolate_union_refuted.
