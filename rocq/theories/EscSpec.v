(** * The exceptions that each class of field raises on its own, apart from structural errors. *)
From Verif Require Export Spec.

(** /repo/scheme/field.py:445-475 (a constant compared with a signaling NaN), and the [process] and
    [_validate_value] methods of /repo/scheme/fields/*.py *)
Definition own_exceptions (k : kind) : list pyexc :=
  match k with
  | KSequence _ _ _ _ => [TypeError]                             (* unhashable items of a unique sequence *)
  | KMap _ _ _ => [TypeError]                                    (* unhashable keys *)
  | KTuple _ | KUnion _ => []
  | KStructure (SPlain _) _ _ => [KeyError]                      (* an unknown key in the key order *)
  | KStructure (SPoly _ _) _ _ => [TypeError; IndexError; KeyError]    (* the key order indexed by an identity *)
  | KBinary _ _ => [InvalidOperation; BinasciiError]             (* malformed base64 *)
  | KDate _ _ => [InvalidOperation; TypeError]                   (* a datetime compared with a bound *)
  | KDateTime _ _ _ => [InvalidOperation; OverflowError; TypeError]    (* conversion between zones; bounds without zone *)
  | KEnumeration _ _ => [InvalidOperation; KeyError]             (* the message about a constant *)
  | KError => [InvalidOperation; TypeError]                      (* any serialized value *)
  | KSurrogate _ => [InvalidOperation; AttributeError; KeyError] (* the name of the class; the message *)
  | _ => [InvalidOperation]
  end.

(** Fields of the same class; polymorphic structures count as a class of their own. *)
Definition same_class (k k' : kind) : Prop :=
  kind_type k = kind_type k'
  /\ ((exists on vs s o, k = KStructure (SPoly on vs) s o) <-> (exists on vs s o, k' = KStructure (SPoly on vs) s o)).

(** The exceptions that a Surrogate field raises on its own when the value is serialized: the name of
    the class and the message about it, the token, the version and what the schema makes of the
    contents; on the way out also a constant compared with a signaling NaN, and the missing attribute
    [surrogate] (always, under Python 3, unless the class defines it).
    /repo/scheme/surrogate.py:114-139, 185-207, /repo/scheme/fields/surrogate.py:47-67 *)
Definition surrogate_exceptions (ph : phase) : list pyexc :=
  match ph with
  | Inbound => [AttributeError; KeyError; TypeError; ValueError]
  | Outbound => [AttributeError; KeyError; TypeError; IndexError; InvalidOperation]
  end.

(** The schemas that may process the contents of the surrogate [v]: those of the classes, those
    reconstructed from descriptions, and the one [v] carries.  /repo/scheme/surrogate.py:118-124, 185-207 *)
Definition schema_met (E : env) (recon : val -> res field) (v : val) (g : field) : Prop :=
  (exists impl, In g (e_schemas E impl))
  \/ (exists d, recon d = Ok g)
  \/ exists i z l, v = VSurr i (Some g) z l.
