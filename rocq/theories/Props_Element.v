(** Property theorems proved in ElementProofs.v (generated by tools/mkprops.py). *)
From Verif Require Import Spec Demo RtSpec ExtractSpec SchemaSpec ElementSpec ElementProofs.

(** C71.  An element that was unserialized serializes, in every format, to exactly what the
    processed value serializes to: nothing of the value is lost or altered in the object.  The schema
    may contain elements at any depth, plain and polymorphic.  Missing: values with null entries, and
    schemas with a key that may be absent though it has a default or a constant (both refuted below),
    and unions. *)
Theorem C71_element_round_trip_partial :
  forall E desc recon n reg el value v w format,
    throughout E well_keyed (el_schema el) -> throughout E (null_free E) (el_schema el) ->
    throughout E straight (el_schema el) -> throughout E no_union (el_schema el) ->
    throughout E (element_or_undone E) (el_schema el) ->
    process_gen E desc recon n (el_schema el) false Inbound true [] value = Ok v -> no_null_entries v ->
    element_unserialize E desc recon n el value = Ok w ->
    element_serialize E desc recon n reg el w format = field_serialize E desc recon n reg (el_schema el) v format.
Proof. exact element_round_trip_partial. Qed.
Print Assumptions C71_element_round_trip_partial.

(* A document with an author, itself an element, and a polymorphic attachment. *)
Definition named71 (s : str) (i : nat) : params :=
  {| p_name := Some s; p_nonnull := false; p_required := false; p_ignore_null := false;
     p_default := VNone; p_constant := VNone; p_preprocessor := None; p_extractor := Some i;
     p_instantiator := Some i; p_title := VNone; p_description := VNone; p_notes := VNone;
     p_aspects := [] |}.
Definition text71 : field := Fld p0 (KText None None None true).
Definition author71 : field := Fld (named71 $"author" 1) (KStructure (SPlain [($"id", text71); ($"age", Fld p0 (KInteger None None))]) true None).
Definition on71 : params := p_named $"type".
Definition types71 : kind := KEnumeration [VStr $"link"; VStr $"file"] None.
Definition attachment71 : field := Fld (named71 $"attachment" 2)
  (KStructure (SPoly (Fld on71 types71)
     [(VStr $"link", [($"url", text71); ($"type", Fld (with_constant on71 (VStr $"link")) types71)]);
      (VStr $"file", [($"size", Fld p0 (KInteger None None)); ($"type", Fld (with_constant on71 (VStr $"file")) types71)])]) true None).
Definition document71 : field := Fld (named71 $"document" 3) (KStructure (SPlain [($"title", text71); ($"author", author71); ($"attachment", attachment71)]) true None).
Definition element71 (class : nat) (f : field) (impl : list (val * nat)) : element :=
  match define_element env0 class f impl $"key" with Ok el => el
  | Raise _ => {| el_class := 0; el_schema := f; el_on := None; el_attrs := []; el_impl := []; el_key_attr := [] |} end.
Definition author_el := element71 11 author71 [].
Definition attachment_el := element71 12 attachment71 [(VStr $"file", 14%nat)].
Definition document_el := element71 13 document71 [].
Definition env71 : env := {|
  e_pre := e_pre env0;
  e_ext := fun i v => element_extract (match i with 1%nat => author_el | 2%nat => attachment_el | _ => document_el end) v;
  e_inst := fun i v key => element_instantiate env0 (match i with 1%nat => author_el | 2%nat => attachment_el | _ => document_el end) v key;
  e_pattern := e_pattern env0; e_local := e_local env0; e_pad := true; e_udigit := e_udigit env0; e_uword := e_uword env0;
  e_ulower := e_ulower env0; e_import := e_import env0; e_identify := e_identify env0; e_undef := e_undef env0;
  e_str := e_str env0; e_impl := e_impl env0; e_schemas := e_schemas env0; e_compile := e_compile env0; e_repr := e_repr env0;
     e_surrogate := e_surrogate env0; e_identity := e_identity env0 |}.
(* The author is of class 11, the attachment, of the subclass for files, of class 14; both carry the
   key they were found under; the author's age is null. *)
Example C71_example :
  let value := VDict false [(VStr $"title", VStr $"A"); (VStr $"author", VDict false [(VStr $"id", VStr $"x")]);
                            (VStr $"attachment", VDict false [(VStr $"type", VStr $"file"); (VStr $"size", VInt 3)])] in
  let w := VObj 13 [($"title", VStr $"A");
                    ($"author", VObj 11 [($"id", VStr $"x"); ($"age", VNone); ($"key", VStr $"author")]);
                    ($"attachment", VObj 14 [($"size", VInt 3); ($"type", VStr $"file"); ($"key", VStr $"attachment")])] in
  element_unserialize env71 nodesc norecon 0 document_el value = Ok w
  /\ element_serialize env71 nodesc norecon 0 [] document_el w None
     = Ok (VDict false [(VStr $"title", VStr $"A"); (VStr $"author", VDict false [(VStr $"id", VStr $"x")]);
                        (VStr $"attachment", VDict false [(VStr $"size", VInt 3); (VStr $"type", VStr $"file")])]).
Proof. vm_compute. auto. Qed.
(* The hypotheses on the schema hold. *)
Lemma undefined71 (P : params -> kind -> Prop) f : everywhere P f -> throughout env71 P f.
Proof. intros H. split; [exact H|]. intros i g Hi. discriminate Hi. Qed.
Ltac everywhere71 :=
  apply undefined71; unfold document71, author71, attachment71, text71;
  repeat match goal with
  | |- everywhere _ (Fld _ _) => constructor
  | |- forall g, In g (subfields _) -> _ =>
      let g := fresh in let H := fresh in intros g H; vm_compute in H;
      repeat (destruct H as [H|H]; [subst g|]); [..|contradiction H]
  end.
Example C71_hypotheses :
  let f := el_schema document_el in
  throughout env71 well_keyed f /\ throughout env71 (null_free env71) f /\ throughout env71 straight f
  /\ throughout env71 no_union f /\ throughout env71 (element_or_undone env71) f.
Proof.
  cbn zeta. change (el_schema document_el) with document71. split; [|split; [|split; [|split]]].
  - everywhere71; try exact I.
    all: try (split; [|exact I]; repeat constructor; cbn; intuition discriminate).
    split; [reflexivity|]. exists on71, types71, $"type". repeat split.
    repeat constructor; cbn; intuition discriminate.
  - everywhere71; (split; [intros i w H; discriminate H|intros H; discriminate H]).
  - everywhere71; try exact I; try (split; [reflexivity|exact I]).
    split; [reflexivity|]. intros vd [<- |[<- |[]]]; reflexivity.
  - everywhere71; exact I.
  - everywhere71; try (left; split; [reflexivity|exact I]).
    all: right; split; [|split].
    all: try exact I; try (split; [reflexivity|discriminate]).
    1: exists document_el. 3: exists author_el. 5: exists attachment_el.
    all: try (split; [eexists _, _, _; reflexivity|]; split; [eexists; split; [reflexivity|]; intros; reflexivity|];
      split; [eexists; split; [reflexivity|]; intros; reflexivity|]).
    all: try (intros [defn [-> H]]; cbn in H; intuition discriminate).
    all: try (intros defn s g q Hd H _ Hq _; cbn in Hd; subst defn; cbn in H;
      repeat (destruct H as [H|H]; [injection H as <- <-; cbn in Hq; subst q; split; reflexivity|]); contradiction).
    + intros [defn [Hd H]]. cbn in Hd. destruct Hd as [i [[= <- <-] |[[= <- <-] |[]]]]; cbn in H; intuition discriminate.
    + intros defn s g q [i Hi] H Hd Hq _. cbn in Hi, Hd.
      assert (Hs : s <> $"type") by (intros ->; apply Hd; reflexivity).
      destruct Hi as [[= <- <-] |[[= <- <-] |[]]]; cbn in H; destruct H as [[= <- <-]|[[= <- <-]|[]]]; try congruence;
        cbn in Hq; subst q; split; reflexivity.
Qed.

(** C71.  Conversely, the serialized form of such an element is unserialized to an equal element:
    the same classes with the same attributes. *)
Theorem C71_element_serialized_round_trip_partial :
  forall E desc recon n reg el value v w,
    throughout E well_keyed (el_schema el) -> throughout E (null_free E) (el_schema el) ->
    throughout E straight (el_schema el) -> throughout E no_union (el_schema el) ->
    throughout E (element_or_undone E) (el_schema el) ->
    throughout E (tidy E) (el_schema el) -> throughout E (portable E) (el_schema el) ->
    (forall k x, meets E (el_schema el) v k x -> faithful E desc recon k x) ->
    process_gen E desc recon n (el_schema el) false Inbound true [] value = Ok v -> no_null_entries v ->
    element_unserialize E desc recon n el value = Ok w ->
    exists s, element_serialize E desc recon n reg el w None = Ok s
           /\ element_unserialize E desc recon n el s = Ok w.
Proof. exact element_serialized_round_trip_partial. Qed.
Print Assumptions C71_element_serialized_round_trip_partial.

(* The document of the previous example, from its serialized form. *)
Example C71_again :
  let w := VObj 13 [($"title", VStr $"A");
                    ($"author", VObj 11 [($"id", VStr $"x"); ($"age", VNone); ($"key", VStr $"author")]);
                    ($"attachment", VObj 14 [($"size", VInt 3); ($"type", VStr $"file"); ($"key", VStr $"attachment")])] in
  (do s <- element_serialize env71 nodesc norecon 0 [] document_el w None;
   element_unserialize env71 nodesc norecon 0 document_el s) = Ok w.
Proof. vm_compute. auto. Qed.
Example C71_portable :
  throughout env71 (tidy env71) document71 /\ throughout env71 (portable env71) document71.
Proof.
  split.
  - everywhere71; repeat split; try discriminate; intros x [[<- |[<- |[]]]|[]]; reflexivity.
  - everywhere71; try exact I. eexists _, _. split; reflexivity.
Qed.

(** C71.  An element of a plain structure has one attribute for each key of the structure, the
    value given or else the default or constant of the field, and besides these only the attribute of
    the key, which is the key it was instantiated with. *)
Theorem C71_plain_instance_exact :
  forall E class p l strict ko impl key_attr el ordered items key w,
    define_element E class (Fld p (KStructure (SPlain l) strict ko)) impl key_attr = Ok el ->
    NoDup (map fst l) ->
    element_instantiate E el (VDict ordered items) key = Ok w ->
    exists attrs, w = VObj class attrs
      /\ (forall s g, In (s, g) l -> s <> key_attr -> exists q, defined_as E g q
            /\ aget s attrs = Some match sget s items with Some v => v | None => fallback q end)
      /\ (forall s, In s (map fst attrs) -> In s (map fst l) \/ s = key_attr)
      /\ (key_attr <> [] -> key <> VNone -> aget key_attr attrs = Some key).
Proof. exact plain_instance_exact. Qed.
Print Assumptions C71_plain_instance_exact.

Example C71_plain :
  element_instantiate env0 author_el (VDict false [(VStr $"id", VStr $"x"); (VStr $"other", VInt 1)]) (VInt 5)
  = Ok (VObj 11 [($"id", VStr $"x"); ($"age", VNone); ($"key", VInt 5)]).
Proof. vm_compute. reflexivity. Qed.

(** C71.  An element of a polymorphic structure is of the subclass declared for the identity in its
    value, of the class itself when there is none, and has the attributes of that variant; an identity
    without variant is a KeyError. *)
Theorem C71_polymorphic_instance_exact :
  forall E class p q kd vs strict ko impl key_attr el on ordered items ident key,
    define_element E class (Fld p (KStructure (SPoly (Fld q kd) vs) strict ko)) impl key_attr = Ok el ->
    p_name q = Some on -> on <> [] -> sget on items = Some ident -> hashable ident = true -> sget $"self" items = None ->
    match find (fun vd => veq (e_local E) (fst vd) ident) vs with
    | None => element_instantiate E el (VDict ordered items) key = py KeyError
    | Some (_, defn) => NoDup (map fst defn) ->
        exists attrs,
          element_instantiate E el (VDict ordered items) key
            = Ok (VObj match find (fun ic => veq (e_local E) (fst ic) ident) impl with Some (_, c) => c | None => class end attrs)
          /\ (forall s g, In (s, g) defn -> s <> key_attr -> exists q', defined_as E g q'
                /\ aget s attrs = Some match sget s items with Some v => v | None => fallback q' end)
          /\ (forall s, In s (map fst attrs) -> In s (map fst defn) \/ s = key_attr)
          /\ (key_attr <> [] -> key <> VNone -> aget key_attr attrs = Some key)
    end.
Proof. exact polymorphic_instance_exact. Qed.
Print Assumptions C71_polymorphic_instance_exact.

(* The subclass for files; the class itself for links; no variant. *)
Example C71_polymorphic :
  element_instantiate env0 attachment_el (VDict false [(VStr $"type", VStr $"file"); (VStr $"size", VInt 3)]) VNone
  = Ok (VObj 14 [($"size", VInt 3); ($"type", VStr $"file")])
  /\ element_instantiate env0 attachment_el (VDict false [(VStr $"type", VStr $"link")]) VNone
  = Ok (VObj 12 [($"url", VNone); ($"type", VStr $"link")])
  /\ element_instantiate env0 attachment_el (VDict false [(VStr $"type", VStr $"dir")]) VNone = py KeyError.
Proof. vm_compute. auto. Qed.

(** C71.  An element of any other field holds the value as the attribute with the name of the
    field and gives it back; a field without name makes no element (ValueError), nor does anything
    that is not a field (TypeError). *)
Theorem C71_scalar_element_exact :
  forall E class p k impl key_attr,
    (forall d strict ko, k <> KStructure d strict ko) ->
    match p_name p with
    | None | Some [] => define_element E class (Fld p k) impl key_attr = py ValueError
    | Some name => name <> $"self" -> name <> key_attr -> exists el,
        define_element E class (Fld p k) impl key_attr = Ok el
        /\ forall v key, exists attrs,
             element_instantiate E el v key = Ok (VObj class attrs)
             /\ aget name attrs = Some v
             /\ (forall s, In s (map fst attrs) -> s = name \/ s = key_attr)
             /\ (key_attr <> [] -> key <> VNone -> aget key_attr attrs = Some key)
             /\ element_extract el (VObj class attrs) = Ok v
    end
    /\ forall i, define_element E class (FUndef i) impl key_attr = py TypeError.
Proof. exact scalar_element_exact. Qed.
Print Assumptions C71_scalar_element_exact.

Example C71_scalar :
  (do el <- define_element env0 3 (Fld (p_named $"size") (KInteger None None)) [] []; element_instantiate env0 el (VInt 7) VNone)
  = Ok (VObj 3 [($"size", VInt 7)])
  /\ define_element env0 3 (Fld p0 (KInteger None None)) [] [] = py ValueError.
Proof. vm_compute. auto. Qed.

(** C71.  Only an element with a polymorphic schema has subclasses with an identity; the last one
    declared for an identity is the one used. *)
Theorem C71_variant_exact :
  forall E base ident class,
    hashable ident = true ->
    match el_on base with
    | Some (_ :: _) => exists el, define_variant base ident class = Ok el
        /\ el_schema el = el_schema base /\ el_on el = el_on base /\ el_attrs el = el_attrs base
        /\ forall i, class_of E el i = if veq (e_local E) ident i then class else class_of E base i
    | _ => define_variant base ident class = py ValueError
    end.
Proof. exact variant_exact. Qed.
Print Assumptions C71_variant_exact.

Example C71_variant :
  option_map (fun el => class_of env0 el (VStr $"link"))
    (match define_variant attachment_el (VStr $"link") 15%nat with Ok el => Some el | Raise _ => None end) = Some 15%nat
  /\ class_of env0 attachment_el (VStr $"link") = 12%nat
  /\ define_variant author_el (VStr $"link") 15%nat = py ValueError.
Proof. vm_compute. auto. Qed.

(** C71.  REFUTED for null entries: an entry that is null is dropped when the element is
    serialized. *)
Theorem C71_element_round_trip_refuted :
  exists E el value v w s,
    process_gen E nodesc norecon 0 (el_schema el) false Inbound true [] value = Ok v
    /\ element_unserialize E nodesc norecon 0 el value = Ok w
    /\ element_serialize E nodesc norecon 0 [] el w None = Ok s /\ v = value /\ s <> value.
Proof. exact element_round_trip_refuted. Qed.
Print Assumptions C71_element_round_trip_refuted.

(** C71.  REFUTED for absent keys with a constant: the constant appears in the serialized form. *)
Theorem C71_element_absent_constant_refuted :
  exists E el value w s,
    process_gen E nodesc norecon 0 (el_schema el) false Inbound true [] value = Ok value
    /\ element_unserialize E nodesc norecon 0 el value = Ok w
    /\ element_serialize E nodesc norecon 0 [] el w None = Ok s
    /\ value = VDict false [] /\ s = VDict false [(VStr $"a", VInt 1)].
Proof. exact element_absent_constant_refuted. Qed.
Print Assumptions C71_element_absent_constant_refuted.

(** C71.  What an element class returns from unserialize, of a value or of a text, is null or an
    instance of the class or of one of its registered subclasses. *)
Theorem C71_unserialized_instance :
  forall E desc recon n class p k impl key_attr el i w,
    define_element E class (Fld p k) impl key_attr = Ok el ->
    p_instantiator p = Some i -> (forall v key, e_inst E i v key = element_instantiate E el v key) ->
    (exists value, element_unserialize E desc recon n el value = Ok w)
    \/ (exists reg text format, element_unserialize_text E desc recon n reg el text format = Ok w) ->
    w = VNone \/ exists c attrs, w = VObj c attrs /\ (c = class \/ In c (map snd impl)).
Proof. exact unserialized_instance. Qed.
Print Assumptions C71_unserialized_instance.

Example C71_unserialized_instance_example :
  let p := {| p_name := None; p_nonnull := false; p_required := false; p_ignore_null := false;
     p_default := VNone; p_constant := VNone; p_preprocessor := None; p_extractor := Some 0%nat;
     p_instantiator := Some 0%nat; p_title := VNone; p_description := VNone; p_notes := VNone; p_aspects := [] |} in
  let schema := Fld p (KStructure (SPlain [($"a", Fld p0 KBoolean)]) true None) in
  let el := {| el_class := 4; el_schema := schema; el_on := None;
               el_attrs := [(VStr $"a", VNone)]; el_impl := []; el_key_attr := [] |} in
  let E := {| e_pre := e_pre env0; e_ext := fun _ => element_extract el; e_inst := fun _ => element_instantiate env0 el;
     e_pattern := e_pattern env0; e_local := e_local env0; e_pad := true; e_udigit := e_udigit env0; e_uword := e_uword env0;
     e_ulower := e_ulower env0; e_import := e_import env0; e_identify := e_identify env0; e_undef := e_undef env0;
     e_str := e_str env0; e_impl := e_impl env0; e_schemas := e_schemas env0; e_compile := e_compile env0; e_repr := e_repr env0;
     e_surrogate := e_surrogate env0; e_identity := e_identity env0 |} in
  define_element E 4 schema [] [] = Ok el
  /\ (forall v key, e_inst E 0 v key = element_instantiate E el v key)
  /\ element_unserialize E nodesc norecon 0 el (VDict false [(VStr $"a", VBool true)]) = Ok (VObj 4 [($"a", VBool true)]).
Proof. split; [vm_compute; reflexivity|]. split; [reflexivity|vm_compute; reflexivity]. Qed.

(** C71.  An element of a polymorphic schema cannot be constructed nor instantiated without an
    identity: KeyError. *)
Theorem C71_polymorphic_without_identity :
  forall E class p q kd vs strict ko impl key_attr el on params c ordered key,
    define_element E class (Fld p (KStructure (SPoly (Fld q kd) vs) strict ko)) impl key_attr = Ok el ->
    p_name q = Some on -> on <> [] -> sget $"self" params = None -> sget on params = None ->
    element_init E el c params = py KeyError
    /\ element_instantiate E el (VDict ordered params) key = py KeyError.
Proof. exact polymorphic_without_identity. Qed.
Print Assumptions C71_polymorphic_without_identity.

Example C71_without_identity_example :
  (do el <- define_element env0 1 (Fld p0 (KStructure (SPoly (Fld (p_named $"kind") (KText None None None true))
               [(VStr $"x", [($"kind", Fld p0 (KText None None None true))])]) true None)) [] [];
   element_init env0 el 1 [(VStr $"a", VInt 1)]) = py KeyError.
Proof. vm_compute. reflexivity. Qed.
