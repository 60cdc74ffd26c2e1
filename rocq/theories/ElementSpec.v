(** * Specifications of elements (C71). *)
From Verif Require Export ExtractSpec Element RtSpec.

(** The definitions of a structure, one for each variant.  /repo/scheme/fields/structure.py:90-103 *)
Definition definition_of (d : sdef) (defn : list (str * field)) : Prop :=
  match d with SPlain l => defn = l | SPoly _ vs => exists i, In (i, defn) vs end.

(** The discriminator of a polymorphic structure. *)
Definition discriminator (d : sdef) (name : str) : Prop :=
  match d with SPlain _ => False | SPoly (Fld q _) _ => p_name q = Some name | SPoly (FUndef _) _ => False end.

(** The attributes of an element: the keys of the definitions, or the name of the field. *)
Definition attribute (p : params) (k : kind) (name : str) : Prop :=
  match k with
  | KStructure d _ _ => exists defn, definition_of d defn /\ In name (map fst defn)
  | _ => p_name p = Some name
  end.

(** A key that may be absent from a value has neither a default nor a constant, so that its attribute is
    null then. *)
Definition null_when_absent (E : env) (k : kind) : Prop :=
  match k with
  | KStructure d _ _ => forall defn s g q,
      definition_of d defn -> In (s, g) defn -> ~ discriminator d s -> defined_as E g q ->
      p_ignore_null q = true \/ p_required q = false /\ p_default q = VNone ->
      p_default q = VNone /\ p_constant q = VNone
  | _ => True
  end.

(** The field belongs to an element: the class was created with it, its instantiator and extractor are
    the methods of the class, and the key is kept in an attribute of its own.
    /repo/scheme/element.py:7-39 *)
Definition belongs (E : env) (p : params) (k : kind) (el : element) : Prop :=
  (exists class impl key_attr, define_element E class (Fld p k) impl key_attr = Ok el)
  /\ (exists i, p_instantiator p = Some i /\ forall v key, e_inst E i v key = element_instantiate E el v key)
  /\ (exists e, p_extractor p = Some e /\ forall v, e_ext E e v = element_extract el v)
  /\ ~ attribute p k (el_key_attr el).

(** All instantiators are undone by the extractors or are those of elements. *)
Definition element_or_undone (E : env) (p : params) (k : kind) : Prop :=
  undoes E p k
  \/ (exists el, belongs E p k el) /\ null_when_absent E k
     /\ match k with
        | KStructure (SPoly (Fld q _) _) _ _ => p_instantiator q = None /\ p_name q <> Some []
        | _ => True end.
