(** Property theorems proved in ObjReprProofs.v (generated by tools/mkprops.py). *)
From Verif Require Import Spec Demo SchemaSpec ElementSpec ObjReprSpec ObjReprProofs.

(** C97.  The text of an element names its class and shows exactly those of the attributes id, name
    and title that it or its class has and that are not null, in this order, each once. *)
Theorem C97_element_text_exact :
  forall repr class_name class_attr class attrs,
    exists text,
      element_repr repr class_name class_attr (VObj class attrs) = Ok text
      /\ identifies repr (class_name class) [$"id"; $"name"; $"title"] (has_attribute class_attr class attrs) text.
Proof. exact element_text_exact. Qed.
Print Assumptions C97_element_text_exact.

Example C97_example :
  element_repr (fun v => match v with VInt 7 => $"7" | VStr s => $"'" ++ s ++ $"'" | _ => $"?" end)
    (fun _ => $"Project") (fun _ s => if str_eqb s $"title" then Some (VStr $"none yet") else None)
    (VObj 3 [($"name", VNone); ($"owner", VStr $"me"); ($"id", VInt 7)])
  = Ok $"Project(id=7, title='none yet')".
Proof. reflexivity. Qed.

(** C97.  An element made from a value of a plain structure, its class having no such attributes of its
    own, shows of id, name and title what the value has under these keys, or else the default or constant
    of the key, unless it is null. *)
Theorem C97_instance_text_exact :
  forall E repr class_name class_attr class p l strict ko impl key_attr el ordered items key w,
    define_element E class (Fld p (KStructure (SPlain l) strict ko)) impl key_attr = Ok el ->
    NoDup (map fst l) -> ~ In key_attr [$"id"; $"name"; $"title"] ->
    (forall s, In s [$"id"; $"name"; $"title"] -> class_attr class s = None) ->
    element_instantiate E el (VDict ordered items) key = Ok w ->
    exists text,
      element_repr repr class_name class_attr w = Ok text
      /\ identifies repr (class_name class) [$"id"; $"name"; $"title"]
           (fun s v => exists g q, In (s, g) l /\ defined_as E g q
              /\ v = match sget s items with Some v => v | None => fallback q end) text.
Proof. exact instance_text_exact. Qed.
Print Assumptions C97_instance_text_exact.

Example C97_instance_example :
  let f := Fld p0 (KStructure (SPlain [($"name", Fld p_req (KText None None None true)); ($"id", Fld (p_def (VInt 7)) (KInteger None None))]) true None) in
  exists el w,
    define_element env0 4 f [] [] = Ok el
    /\ element_instantiate env0 el (VDict false [(VStr $"name", VStr $"me")]) VNone = Ok w
    /\ element_repr (fun v => match v with VInt 7 => $"7" | VStr s => $"'" ++ s ++ $"'" | _ => $"?" end)
         (fun _ => $"Project") (fun _ _ => None) w = Ok $"Project(id=7, name='me')".
Proof. do 2 eexists. split; [reflexivity|]. split; reflexivity. Qed.

(** C97.  The text of a surrogate is the token of its class around its contents; without the attribute
    [surrogate], which a class has under Python 3 only if it defines it, there is no text but an
    AttributeError. *)
Theorem C97_surrogate_text_partial :
  forall E dict_repr impl schema version items,
    (forall token, e_surrogate E impl = Some token ->
       surrogate_repr E dict_repr (VSurr impl schema version items) = Ok (token ++ $"(" ++ dict_repr items ++ $")"))
    /\ (e_surrogate E impl = None <->
        surrogate_repr E dict_repr (VSurr impl schema version items) = py AttributeError).
Proof. exact surrogate_text_partial. Qed.
Print Assumptions C97_surrogate_text_partial.

Example C97_surrogate_example :
  surrogate_repr env0 (fun _ => $"{}") (VSurr 5 None None []) = py AttributeError.
Proof. reflexivity. Qed.

(** C97.  REFUTED for surrogates: the surrogates of some classes cannot be shown. *)
Theorem C97_surrogate_text_refuted :
  exists E, forall dict_repr schema version items,
    surrogate_repr E dict_repr (VSurr 5 schema version items) = py AttributeError.
Proof. exact surrogate_text_refuted. Qed.
Print Assumptions C97_surrogate_text_refuted.

Example C97_refuted_example :
  run0 (Fld p0 (KSurrogate None)) Inbound false (VSurr 5 None None []) = Ok (VSurr 5 None None [])
  /\ surrogate_repr env0 (fun _ => $"{}") (VSurr 5 None None []) = py AttributeError.
Proof. split; reflexivity. Qed.
