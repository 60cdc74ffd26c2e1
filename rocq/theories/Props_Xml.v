(** Property theorems proved in XmlProofs.v (generated by tools/mkprops.py). *)
From Verif Require Import XmlSpec Demo XmlProofs.
Open Scope N_scope.
Open Scope list_scope.

(** C64.  Element tree level: what is written for a supported value is read back as that value, up
    to the order of dict entries; any tags and any texts. *)
Theorem C64_xml_tree_roundtrip :
  forall E v k tag, supported E (fun _ => True) (fun _ => True) k v ->
    exists e w, xml_element E v tag (Some k) = Ok e /\ xml_value E e (Some k) = Ok w /\ reordered v w.
Proof. exact xml_tree_roundtrip. Qed.
Print Assumptions C64_xml_tree_roundtrip.

Definition text0 := Fld p0 (KText None None None false).
Definition s64 := Fld p0 (KStructure (SPlain [($"a", Fld p0 (KInteger None None)); ($"b", Fld p0 (KSequence text0 None None false));
  ($"c", Fld (p_named $"c") (KTuple [Fld p0 KBoolean; Fld (p_named $"second") (KMap text0 None None)]))]) true None).
Definition v64 := VDict false [(VStr $"b", VList [VStr $"x<&y"; VStr [233; 128512]; VNone; VStr []]); (VStr $"a", VInt (-3));
  (VStr $"c", VTuple [VBool true; VDict false [(VStr $"k", VStr $"]]>")]])].
Ltac name_ok := match goal with |- tag_ok ?s => let s' := eval vm_compute in s in change (tag_ok s') end;
  eexists _, _; split; [reflexivity|]; split; [unfold tag_letter; lia|];
  intros d Hd; cbn [In] in Hd; unfold tag_letter; repeat destruct Hd as [<-|Hd]; try lia; destruct Hd.
Ltac text_ok := match goal with |- text_ok ?s => let s' := eval vm_compute in s in change (text_ok s') end;
  intros c Hc; cbn [In] in Hc; repeat destruct Hc as [<-|Hc]; try lia; destruct Hc.
Example C64_meets : forall T X : str -> Prop, (forall s, tag_ok s -> T s) -> (forall s, text_ok s -> X s) ->
  supported env0 T X (KStructure (SPlain [($"a", Fld p0 (KInteger None None)); ($"b", Fld p0 (KSequence text0 None None false));
  ($"c", Fld (p_named $"c") (KTuple [Fld p0 KBoolean; Fld (p_named $"second") (KMap text0 None None)]))]) true None) v64.
Proof.
  intros T X HT HX.
  assert (Ht : forall s, text_ok s -> supported env0 T X (KText None None None false) (VStr s)).
  { intros s Hs. apply sup_text; [vm_compute; intuition discriminate|apply HX, Hs]. }
  apply sup_structure; [repeat constructor; cbn; intuition discriminate|]. intros key v Hin. cbn [In] in Hin.
  destruct Hin as [[= <- <-]|[[= <- <-]|[[= <- <-]|[]]]].
  - eexists _, _, _, _. split; [reflexivity|]. split; [apply HT; name_ok|]. split; [reflexivity|]. split; [left; reflexivity|].
    eapply sup_sequence; [left; reflexivity|right; split; [left; reflexivity|reflexivity]|apply HT; name_ok|].
    intros v Hv. cbn [In] in Hv. destruct Hv as [<-|[<-|[<-|[<-|[]]]]]; try apply sup_null; apply Ht; text_ok.
  - eexists _, _, _, _. split; [reflexivity|]. split; [apply HT; name_ok|]. split; [reflexivity|]. split; [left; reflexivity|]. apply sup_integer.
  - eexists _, _, _, _. split; [reflexivity|]. split; [apply HT; name_ok|]. split; [reflexivity|]. split; [left; reflexivity|].
    apply sup_tuple; [reflexivity|]. intros i f v Hf Hv. destruct i as [|[|[|i]]]; try discriminate; injection Hf as <-; injection Hv as <-.
    + eexists _, _, $"value". split; [left; reflexivity|]. split; [right; split; [left; reflexivity|reflexivity]|]. split; [apply HT; name_ok|]. apply sup_boolean.
    + eexists _, _, $"second". split; [left; reflexivity|]. split; [left; split; [reflexivity|discriminate]|]. split; [apply HT; name_ok|].
      eapply sup_map; [left; reflexivity|repeat constructor; cbn; intuition discriminate| |]; intros key v [[= <- <-]|[]].
      * exists $"k". split; [reflexivity|apply HT; name_ok].
      * apply Ht; text_ok.
Qed.
Example C64_tree_example :
  (do e <- xml_element env0 v64 $"root" (kind_at env0 s64); xml_value env0 e (kind_at env0 s64))
  = Ok (VDict false [(VStr $"a", VInt (-3)); (VStr $"b", VList [VStr $"x<&y"; VStr [233; 128512]; VNone; VStr []]);
          (VStr $"c", VTuple [VBool true; VDict false [(VStr $"k", VStr $"]]>")]])]).
Proof. vm_compute. reflexivity. Qed.

(** C64.  The text is ASCII and is read back as the value, with null in place of empty texts, provided
    that the tags are XML names and the texts of characters XML keeps. *)
Theorem C64_xml_roundtrip :
  forall E with_preamble f p k root v,
    field_at E f p k -> titled p $"root" root -> tag_ok root -> supported E tag_ok text_ok k v ->
    exists t w, xml_serialize E with_preamble v f = Ok t /\ (forall c, In c t -> c < 128)
                /\ xml_unserialize E t f = Ok w /\ reordered (null_texts v) w.
Proof. exact xml_roundtrip. Qed.
Print Assumptions C64_xml_roundtrip.

Example C64_example : (do t <- xml_serialize env0 true v64 s64; xml_unserialize env0 t s64)
  = Ok (VDict false [(VStr $"a", VInt (-3)); (VStr $"b", VList [VStr $"x<&y"; VStr [233; 128512]; VNone; VNone]);
          (VStr $"c", VTuple [VBool true; VDict false [(VStr $"k", VStr $"]]>")]])])
  /\ xml_serialize env0 false (VDict false [(VStr $"a", VNone)]) s64 = Ok ($"<root><a null=" ++ [34] ++ $"true" ++ [34] ++ $" /></root>").
Proof. split; vm_compute; reflexivity. Qed.
Example C64_applies : exists t w, xml_serialize env0 true v64 s64 = Ok t /\ (forall c, In c t -> c < 128)
  /\ xml_unserialize env0 t s64 = Ok w /\ reordered (null_texts v64) w.
Proof.
  eapply C64_xml_roundtrip; [left; reflexivity|right; split; [left; reflexivity|reflexivity]|name_ok|apply C64_meets; auto].
Qed.
Example C64_line_ends : (* other texts are not kept or not even read: CR becomes LF, NUL is refused *)
  (do t <- xml_serialize env0 true (VStr [97; 13; 98]) text0; xml_unserialize env0 t text0) = Ok (VStr [97; 10; 98])
  /\ (do t <- xml_serialize env0 true (VStr [0]) text0; xml_unserialize env0 t text0) = py (OtherError 1).
Proof. split; vm_compute; reflexivity. Qed.

(** C64.  Unions are not supported: a value that is not null, and an element not marked null, raise
    NotImplementedError. *)
Theorem C64_xml_union_refused :
  forall E p fs root v,
    titled p $"root" root ->
    (v <> VNone -> forall with_preamble, xml_serialize E with_preamble v (Fld p (KUnion fs)) = py NotImplementedError)
    /\ forall tag attrs text children, aget $"null" attrs = None ->
         xml_value E (Elem tag attrs text children) (Some (KUnion fs)) = py NotImplementedError.
Proof. exact xml_union_refused. Qed.
Print Assumptions C64_xml_union_refused.

Example C64_union_example : xml_serialize env0 true (VInt 1) (Fld p0 (KUnion [Fld p0 KBoolean; Fld p0 (KInteger None None)])) = py NotImplementedError
  /\ xml_unserialize env0 $"<root>1</root>" (Fld p0 (KUnion [Fld p0 KBoolean])) = py NotImplementedError.
Proof. split; vm_compute; reflexivity. Qed.

(** C64.  An entry that the structure does not define raises KeyError, whatever the others. *)
Theorem C64_xml_unknown_entry :
  forall E fs strict order o l tag,
    NoDup (map fst l) ->
    (forall key v, In (key, v) l -> exists s, key = VStr s
       /\ (aget s fs = None \/ exists f p k, aget s fs = Some f /\ field_at E f p k /\ supported E (fun _ => True) (fun _ => True) k v)) ->
    (exists s v, In (VStr s, v) l /\ aget s fs = None) ->
    xml_element E (VDict o l) tag (Some (KStructure (SPlain fs) strict order)) = py KeyError.
Proof. exact xml_unknown_entry. Qed.
Print Assumptions C64_xml_unknown_entry.

Example C64_unknown_example :
  xml_serialize env0 true (VDict false [(VStr $"zz", VStr $"?"); (VStr $"a", VInt 1)]) s64 = py KeyError
  /\ xml_unserialize env0 $"<root><zz>1</zz></root>" s64 = py KeyError.
Proof. split; vm_compute; reflexivity. Qed.

(** C64.  Polymorphic structures are not supported: their entries are looked up among the variants,
    which are no fields.  An entry under the identity of a variant is an AttributeError unless it is null,
    any other entry a KeyError; only dicts of nulls under identities have an element. *)
Theorem C64_xml_polymorphic_refused :
  forall E on vs strict order o l tag,
    l <> [] -> NoDup (map fst l) -> (forall key v, In (key, v) l -> exists s, key = VStr s) ->
    let identity key := exists i d, In (i, d) vs /\ veq (e_local E) i key = true in
    let out := xml_element E (VDict o l) tag (Some (KStructure (SPoly on vs) strict order)) in
    ((forall key v, In (key, v) l -> identity key) -> (exists key v, In (key, v) l /\ v <> VNone) -> out = py AttributeError)
    /\ ((forall key v, In (key, v) l -> v = VNone) -> (exists key v, In (key, v) l /\ ~ identity key) -> out = py KeyError)
    /\ ((forall key v, In (key, v) l -> v = VNone /\ identity key) -> exists children, out = Ok (Elem tag [] None children))
    /\ forall e, out = Ok e -> forall key v, In (key, v) l -> v = VNone /\ identity key.
Proof. exact xml_polymorphic_refused. Qed.
Print Assumptions C64_xml_polymorphic_refused.

Example C64_polymorphic_example :
  let on := Fld (p_named $"type") (KText None None None true) in
  let k := KStructure (SPoly on [(VStr $"a", [($"type", on)])]) true None in
  xml_element env0 (VDict false [(VStr $"type", VStr $"a")]) $"x" (Some k) = py KeyError
  /\ xml_element env0 (VDict false [(VStr $"a", VInt 1)]) $"x" (Some k) = py AttributeError
  /\ xml_element env0 (VDict false [(VStr $"a", VNone)]) $"x" (Some k) = Ok (Elem $"x" [] None [Elem $"a" [($"null", $"true")] None []]).
Proof. vm_compute. repeat split. Qed.

(** C64.  A placeholder whose field has not been defined has no name: as schema, as item of a sequence
    that is not empty and as first value of a tuple that is not empty it is an AttributeError. *)
Theorem C64_xml_undefined_refused :
  forall E i, e_undef E i = None ->
    (forall with_preamble v, xml_serialize E with_preamble v (FUndef i) = py AttributeError)
    /\ (forall x l mn mx u tag, xml_element E (VList (x :: l)) tag (Some (KSequence (FUndef i) mn mx u)) = py AttributeError)
    /\ (forall x l fs tag, xml_element E (VTuple (x :: l)) tag (Some (KTuple (FUndef i :: fs))) = py AttributeError).
Proof. exact xml_undefined_refused. Qed.
Print Assumptions C64_xml_undefined_refused.

Example C64_undefined_example :
  e_undef env0 7%nat = None
  /\ xml_serialize env0 true (VInt 1) (FUndef 7%nat) = py AttributeError.
Proof. split; reflexivity. Qed.
