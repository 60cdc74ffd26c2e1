(** * Model of the access to child fields, and of the text of an error as a whole.

    /repo/scheme/field.py:384-388, /repo/scheme/fields/tuple.py:119-123,
    /repo/scheme/fields/structure.py:271-272, /repo/scheme/exceptions.py:69-74. *)
From Verif Require Export Util Schema.

Section Access.
Context (E : env).

(** [self.values[key]] for an integer: positions from either end.  /repo/scheme/fields/tuple.py:121 *)
Definition tuple_item (l : list field) (z : Z) : option field :=
  if (0 <=? z)%Z then nth_error l (Z.to_nat z)
  else if (0 <=? z + Z.of_nat (length l))%Z then nth_error l (Z.to_nat (z + Z.of_nat (length l)))
  else None.

(** [Tuple.get].  Slices and objects with [__index__] are not modelled.
    /repo/scheme/fields/tuple.py:119-123 *)
Definition tuple_get (l : list field) (key default : val) : res val :=
  let item z := match tuple_item l z with Some f => Ok (VField f) | None => Ok default end in
  match key with
  | VInt z => item z
  | VBool b => item (if b then 1 else 0)%Z
  | _ => py TypeError
  end.

(** The attribute [structure]: a dict of fields or, if polymorphic, a dict of such dicts.
    /repo/scheme/fields/structure.py:64-108 *)
Definition structure_items (d : sdefP val field) : list (val * val) :=
  match d with
  | SPlain l => map (fun kf => (VStr (fst kf), VField (snd kf))) l
  | SPoly _ vs => map (fun vl => (fst vl, struct_val (snd vl))) vs
  end.

(** [Structure.get].  /repo/scheme/fields/structure.py:271-272 *)
Definition structure_get (d : sdefP val field) (key default : val) : res val :=
  if hashable key then
    match dget (e_local E) key (structure_items d) with Some v => Ok v | None => Ok default end
  else py TypeError.

(** [get(key, default)] of a field.  A placeholder is given back as it stands (what it was defined as is
    [e_undef]), and has no [get] itself.
    /repo/scheme/field.py:384-388, /repo/scheme/fields/tuple.py:119-123, structure.py:271-272 *)
Definition field_get (f : field) (key default : val) : res val :=
  match f with
  | Fld _ (KTuple l) => tuple_get l key default
  | Fld _ (KStructure d _ _) => structure_get d key default
  | Fld _ _ => py TypeError
  | FUndef _ => py AttributeError
  end.
End Access.

Section Text.
(** Rendering of one own error, as for [format_errors].  /repo/scheme/exceptions.py:138-154 *)
Context (line : err -> val -> res str).

(** [StructuralError.__str__].  /repo/scheme/exceptions.py:69-70 *)
Definition error_text (e : err) : res str :=
  do l <- format_errors line e; Ok (join [10%N] ($"validation failed" :: l)).
End Text.

(** [StructuralError.substantive].  /repo/scheme/exceptions.py:72-74 *)
Definition substantive (e : err) : val :=
  match er_errors e with
  | [] => match er_structure e with Some s => s | None => VNone end
  | l => VList l
  end.
