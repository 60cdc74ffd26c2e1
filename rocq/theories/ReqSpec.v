(** * Vocabulary for attributes of classes, required fields and enumerations (C48, C53, C76, C77). *)
From Verif Require Export ExtractSpec BuildSpec.

(** The type, base type and structurality of each class, as the source gives them: the name of the
    class in lower case (/repo/scheme/field.py:75-79), [basetype] and [structural] of
    /repo/scheme/fields/*.py. *)
Definition class_table (k : kind) : str * option str * bool :=
  match k with
  | KField => ($"field", None, false)
  | KBinary _ _ => ($"binary", Some $"binary", false)
  | KBoolean => ($"boolean", Some $"boolean", false)
  | KDate _ _ => ($"date", Some $"date", false)
  | KDateTime _ _ _ => ($"datetime", Some $"datetime", false)
  | KDecimal _ _ => ($"decimal", Some $"decimal", false)
  | KDefinition _ => ($"definition", Some $"definition", false)
  | KEmail _ _ _ _ => ($"email", Some $"text", false)
  | KEnumeration _ _ => ($"enumeration", Some $"enumeration", false)
  | KError => ($"error", Some $"tuple", false)
  | KFloat _ _ => ($"float", Some $"float", false)
  | KInteger _ _ => ($"integer", Some $"integer", false)
  | KMap _ _ _ => ($"map", Some $"map", true)
  | KObject => ($"object", Some $"object", false)
  | KSequence _ _ _ _ => ($"sequence", Some $"sequence", true)
  | KStructure _ _ _ => ($"structure", Some $"structure", true)
  | KSurrogate _ => ($"surrogate", Some $"structure", false)
  | KText _ _ _ _ => ($"text", Some $"text", false)
  | KTime _ _ => ($"time", Some $"time", false)
  | KToken _ => ($"token", Some $"token", false)
  | KTuple _ => ($"tuple", Some $"tuple", true)
  | KUnion _ => ($"union", Some $"union", true)
  | KUUID => ($"uuid", Some $"text", false)
  end.

(** A field that must be supplied: required, and nothing to fall back on. *)
Definition must_be_given (q : params) : Prop := p_required q = true /\ p_default q = VNone.

(** The values of an enumeration, and membership up to equality. *)
Definition simple (v : val) : Prop :=
  match v with VNone | VBool _ | VInt _ | VFloat _ | VStr _ => True | _ => False end.
Definition among (L : localtz) (v : val) (l : list val) : Prop := exists x, In x l /\ veq L x v = true.
(** A text is cut at blanks, a list is taken as it is. *)
Definition values_given (v : val) (l : list val) : Prop :=
  (exists s names, v = VStr s /\ words s names /\ l = map VStr names) \/ v = VList l.
