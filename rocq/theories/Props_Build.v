(** Property theorems proved in BuildProofs.v (generated by tools/mkprops.py). *)
From Verif Require Import Spec Demo ConSpec SchemaSpec BuildSpec BuildProofs.

(** C52.  A structure is constructed exactly when its parameter is a dict from texts to fields,
    the order of keys is a text or a list of texts, and the parameters of every field are accepted.
    Fields are named after their keys unless they have a name; a default is generated only when
    that is asked for (by True) and there is none. *)
Theorem C52_structure_constructed :
  forall E cl kw f, truthy (arg $"polymorphic_on" kw) = false ->
    (init E cl CStructure kw = Ok f
     <-> exists fields p order d,
           field_dict (arg $"structure" kw) fields
           /\ init E cl CField (others (class_args CStructure) kw) = Ok (Fld p KField)
           /\ order_given (arg $"key_order" kw) order
           /\ structure_default E (arg $"generate_default" kw)
                (fun l => arg $"generate_default" kw = VBool true /\ l = fields) (p_default p) d
           /\ f = Fld (set_default d p) (KStructure (SPlain fields) (flag_on $"strict" kw) order)).
Proof. exact structure_constructed. Qed.
Print Assumptions C52_structure_constructed.

Example C52_structure_example :
  let kw := [($"structure", VDict false [(VStr $"a", VField (Fld (p_def (VInt 3)) (KInteger None None)));
                                         (VStr $"b", VField (Fld (p_named $"c") KBoolean))]);
             ($"key_order", VStr $"b a"); ($"generate_default", VBool true); ($"required", VBool true)] in
  exists p fa,
    init env0 (fun f _ => Ok f) CStructure kw
      = Ok (Fld p (KStructure (SPlain [($"a", fa); ($"b", Fld (p_named $"c") KBoolean)]) true (Some [$"b"; $"a"])))
    /\ p_required p = true /\ p_default p = VDict false [(VStr $"a", VInt 3)]
    /\ under_key $"a" (Fld (p_def (VInt 3)) (KInteger None None)) fa.
Proof.
  intros kw. eexists _, (Fld (set_name (Some $"a") (p_def (VInt 3))) _). split; [|split; [|split]].
  - apply (structure_constructed env0 (fun f _ => Ok f) kw); [reflexivity|].
    eexists _, _, _, _. split; [|split; [|split; [|split]]]; [|reflexivity| | |reflexivity].
    + eexists. split; [reflexivity|]. repeat constructor; cbn [fst snd].
      * eexists. split; [reflexivity|]. eexists. split; [reflexivity|]. split; [reflexivity|]. split; [intros H; contradiction H; reflexivity|reflexivity].
      * eexists. split; [reflexivity|]. eexists. split; [reflexivity|]. split; [intros [H|H]; discriminate|]. split; reflexivity.
    + right. left. exists $"b a", [$"b"; $"a"]. split; [reflexivity|]. split; [discriminate|]. split; [|reflexivity].
      apply (words_more $"b"); [intros [H|[]]; discriminate|]. apply words_one. intros [H|[]]; discriminate.
    + unfold structure_default. eexists _, [($"a", _); ($"b", _)]. split; [split; reflexivity|]. split; [|reflexivity].
      repeat constructor.
  - reflexivity.
  - reflexivity.
  - eexists. split; [reflexivity|]. split; [reflexivity|]. split; [intros H; contradiction H; reflexivity|reflexivity].
Qed.

(** C52.  What the constructor of a polymorphic structure makes of sound parts: the entries of
    ['*'] go to every identity; a text discriminator becomes the required enumeration of the
    sorted identities, a field is made required; each variant has the fields of its identity,
    named after their keys, and the discriminator with the identity as constant; the default is
    generated, when asked for and absent, from the variant asked for. *)
Theorem C52_structure_polymorphic_constructed :
  forall E n kw f,
    truthy (arg $"polymorphic_on" kw) = true -> arguments E n CStructure kw ->
    (forall items0, as_dict (arg $"structure" kw) = Some items0 -> proper_dicts items0) ->
    init E (clone E (S n)) CStructure kw = Ok f ->
    exists items0 items q kd name vs p order d,
      as_dict (arg $"structure" kw) = Some items0 /\ shared items0 items
      /\ discriminator_for (arg $"polymorphic_on" kw) (map fst items) (Fld q kd) /\ p_name q = Some name
      /\ Forall2 (variant_of name q kd) items vs
      /\ init E (clone E (S n)) CField (others (class_args CStructure) kw) = Ok (Fld p KField)
      /\ order_given (arg $"key_order" kw) order
      /\ structure_default E (arg $"generate_default" kw)
           (fun l => hashable (arg $"generate_default" kw) = true
                     /\ variant_fields (e_local E) (arg $"generate_default" kw) vs l) (p_default p) d
      /\ f = Fld (set_default d p) (KStructure (SPoly (Fld q kd) vs) (flag_on $"strict" kw) order).
Proof. exact structure_polymorphic_constructed. Qed.
Print Assumptions C52_structure_polymorphic_constructed.

Example C52_polymorphic_structure_example :
  let kw := [($"structure", VDict false [(VStr $"*", VDict false [(VStr $"x", VField (Fld (p_def (VInt 3)) (KInteger None None)))]);
                                         (VStr $"b", VDict false [(VStr $"x", VField (Fld p0 KBoolean))]);
                                         (VStr $"a", VDict false [(VStr $"y", VField (Fld p0 KBoolean))])]);
             ($"polymorphic_on", VStr $"type"); ($"generate_default", VStr $"a")] in
  arguments env0 1 CStructure kw
  /\ (forall items0, as_dict (arg $"structure" kw) = Some items0 -> proper_dicts items0)
  /\ exists p on xs ys tb ta,
       init env0 (clone env0 2) CStructure kw
       = Ok (Fld p (KStructure (SPoly on [(VStr $"b", [($"x", xs); ($"type", tb)]);
                                          (VStr $"a", [($"y", ys); ($"x", xs); ($"type", ta)])]) true None))
       /\ discriminator_for (VStr $"type") [VStr $"b"; VStr $"a"] on
       /\ p_default p = VDict false [(VStr $"x", VInt 3); (VStr $"type", VStr $"a")].
Proof.
  intros kw. split; [|split].
  - assert (Hs : forall p k, (p = p0 \/ p = p_def (VInt 3)) -> k = KInteger None None \/ k = KBoolean -> sound env0 (Fld p k) /\ within 1 (Fld p k)).
    { intros p k [-> | ->] [-> | ->]; split; try (intros g []); split; constructor; try (repeat split; exact I); intros g []. }
    intros key v [[= <- <-]|[[= <- <-]|[[= <- <-]|[]]]]; cbn [slots smem made_of].
    + repeat (split; [reflexivity|]; split; [split; [reflexivity|]; split; [apply Hs; auto|exact I]|]). exact I.
    + exact I.
    + right. reflexivity.
  - intros items0 [= <-]. split; [repeat constructor; cbn; intuition discriminate|].
    intros a v l Hi Hl. cbn in Hi. destruct Hi as [[= <- <-]|[[= <- <-]|[[= <- <-]|[]]]]; injection Hl as <-;
      [exists [$"x"]|exists [$"x"]|exists [$"y"]]; (split; [reflexivity|repeat constructor; intros []]).
  - eexists _, _, _, _, _, _. split; [reflexivity|]. split; [|reflexivity].
    left. exists $"type", [$"b"; $"a"], [$"a"; $"b"]. eexists. split; [reflexivity|]. split; [reflexivity|].
    split; [split; [apply perm_swap|repeat constructor; reflexivity]|]. repeat split.
Qed.

(** C52.  ... and it accepts exactly these: a dict of dicts of fields, possibly with common
    entries, a text or named field as discriminator (a text needs texts as identities), a
    documented order of keys, accepted common parameters, and to generate a default from a known
    identity. *)
Theorem C52_structure_polymorphic_accepted :
  forall E n kw,
    truthy (arg $"polymorphic_on" kw) = true -> arguments E n CStructure kw ->
    (forall items0, as_dict (arg $"structure" kw) = Some items0 -> proper_dicts items0) ->
    ((exists f, init E (clone E (S n)) CStructure kw = Ok f)
     <-> exists items0 items p order,
           as_dict (arg $"structure" kw) = Some items0 /\ shared items0 items
           /\ Forall (fun kv => exists l, field_dict (snd kv) l) items
           /\ discriminating (arg $"polymorphic_on" kw) (map fst items)
           /\ order_given (arg $"key_order" kw) order
           /\ init E (clone E (S n)) CField (others (class_args CStructure) kw) = Ok (Fld p KField)
           /\ generating (e_local E) (arg $"generate_default" kw) (p_default p) (map fst items)).
Proof. exact structure_polymorphic_accepted. Qed.
Print Assumptions C52_structure_polymorphic_accepted.

Example C52_polymorphic_rejects_example :
  let kw o g := [($"structure", VDict false [(VInt 1, VDict false [(VStr $"x", VField (Fld p0 KBoolean))])]);
                 ($"polymorphic_on", o); ($"generate_default", g)] in
  let named := VField (Fld (p_named $"t") (KInteger None None)) in
  (exists f, init env0 (clone env0 2) CStructure (kw named (VInt 1)) = Ok f)
  /\ init env0 (clone env0 2) CStructure (kw named (VInt 2)) = py ValueError
  /\ (forall f, init env0 (clone env0 2) CStructure (kw (VStr $"t") VNone) <> Ok f).
Proof.
  intros kw named. split; [eexists; reflexivity|]. split; [reflexivity|]. intros f H. vm_compute in H. discriminate.
Qed.
