(** * Model of [__repr__] of elements and surrogates.

    /repo/scheme/element.py:82-89 and /repo/scheme/surrogate.py:37-38.  [repr] of plain values is a
    parameter, as are the names of classes and what their attributes are. *)
From Verif Require Export Element.

Section ObjRepr.
Variable E : env.
(** [repr(value)].  /repo/scheme/element.py:87 *)
Variable repr : val -> str.
(** [type(self).__name__].  /repo/scheme/element.py:89 *)
Variable class_name : nat -> str.
(** The attributes of the class, which [getattr] falls back to.  /repo/scheme/element.py:85 *)
Variable class_attr : nat -> str -> option val.
(** [dict.__repr__].  /repo/scheme/surrogate.py:38 *)
Variable dict_repr : list (val * val) -> str.

(** [getattr(self, attr, None)].  Properties and other descriptors are not modelled.
    /repo/scheme/element.py:85 *)
Definition instance_attr (class : nat) (attrs : list (str * val)) (attr : str) : val :=
  match aget attr attrs with
  | Some v => v
  | None => match class_attr class attr with Some v => v | None => VNone end
  end.

(** The loop over the three attributes.  /repo/scheme/element.py:83-87 *)
Fixpoint aspects (value : str -> val) (names : list str) : list str :=
  match names with
  | [] => []
  | attr :: names' =>
      match value attr with
      | VNone => aspects value names'
      | v => (attr ++ $"=" ++ repr v) :: aspects value names'
      end
  end.

(** [Element.__repr__].  Values that are no elements are not modelled.  /repo/scheme/element.py:82-89 *)
Definition element_repr (instance : val) : res str :=
  match instance with
  | VObj class attrs =>
      Ok (class_name class ++ $"("
          ++ join $", " (aspects (instance_attr class attrs) [$"id"; $"name"; $"title"]) ++ $")")
  | _ => outside
  end.

(** [surrogate.__repr__]: the class must have the attribute [surrogate].  /repo/scheme/surrogate.py:37-38 *)
Definition surrogate_repr (v : val) : res str :=
  match v with
  | VSurr impl _ _ items =>
      match e_surrogate E impl with
      | Some token => Ok (token ++ $"(" ++ dict_repr items ++ $")")
      | None => py AttributeError
      end
  | _ => outside
  end.
End ObjRepr.
