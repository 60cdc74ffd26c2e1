(** * Elements: objects for the values of a schema. *)
From Verif Require Export Io Extract.

Section Element.
Context (E : env).
Let L := e_local E.

(** A class derived from [Element]: its number, its schema, [__polymorphic_on__], [__attrs__],
    [__polymorphic_impl__] (the subclass of each identity) and [key_attr] (empty for [None]).
    Instances are [VObj] with the number of their class and their [__dict__]; methods that a subclass
    redefines, and attributes with the name of a method, are not modelled.
    /repo/scheme/element.py:19-24, 30-36, 68-70 *)
Record element := {
  el_class : nat;
  el_schema : field;
  el_on : option str;
  el_attrs : list (val * val);
  el_impl : list (val * nat);
  el_key_attr : str
}.

(** [ElementMeta.__new__] for a class with a schema: [__polymorphic_on__] and [__attrs__].  A schema that
    is not a field ([Undefined] is none) is a TypeError, a schema without name that is not a structure a
    ValueError.  /repo/scheme/element.py:19-34 *)
Definition element_attrs (schema : field) : res (option str * list (val * val)) :=
  match schema with
  | FUndef _ => py TypeError
  | Fld p (KStructure d _ _) =>
      do attrs <- generate_defaults E d VNone false;
      match d, attrs with
      | SPlain _, VDict _ l => Ok (None, l)
      | SPoly on _, VDict _ l =>
          match fparams E on with
          | Some q => Ok (p_name q, l)
          | None => py AttributeError
          end
      | _, _ => outside
      end
  | Fld p _ =>
      match p_name p with
      | Some (c :: name) => Ok (None, [(VStr (c :: name), p_default p)])
      | _ => py ValueError
      end
  end.

(** The class statement of an element.  /repo/scheme/element.py:7-38 *)
Definition define_element (class : nat) (schema : field) (impl : list (val * nat)) (key_attr : str) : res element :=
  do a <- element_attrs schema;
  Ok {| el_class := class; el_schema := schema; el_on := fst a; el_attrs := snd a; el_impl := impl; el_key_attr := key_attr |}.

(** The subclass with [polymorphic_identity]: only of an element with a polymorphic schema; it enters
    the base's table.  An identity that is not hashable is a TypeError.
    /repo/scheme/element.py:10-17 *)
Definition define_variant (base : element) (ident : val) (class : nat) : res element :=
  match el_on base with
  | Some (_ :: _) =>
      if hashable ident then
        Ok {| el_class := el_class base; el_schema := el_schema base; el_on := el_on base; el_attrs := el_attrs base;
              el_impl := (ident, class) :: el_impl base; el_key_attr := el_key_attr base |}
      else py TypeError
  | _ => py ValueError
  end.

(** The entries of a dict with string keys as attributes.  Other keys are not modelled (TypeError of the
    call).  /repo/scheme/element.py:79-80 *)
Definition attributes (value : val -> str -> val) (l : list (val * val)) : list (str * val) :=
  flat_map (fun kv => match fst kv with VStr s => [(s, value (snd kv) s)] | _ => [] end) l.

(** [cls( **params)]: [__init__] sets every attribute to the parameter of its name or to the default.
    A parameter called [self] is a TypeError.  /repo/scheme/element.py:72-80 *)
Definition element_init (el : element) (class : nat) (params : list (val * val)) : res val :=
  match sget $"self" params with
  | Some _ => py TypeError
  | None =>
      do defaults <- match el_on el with
                     | Some (c :: on) =>
                         match sget (c :: on) params with
                         | None => py KeyError
                         | Some ident =>
                             if hashable ident then
                               match dget L ident (el_attrs el) with
                               | Some (VDict _ l) => Ok l
                               | Some _ => outside
                               | None => py KeyError
                               end
                             else py TypeError
                         end
                     | _ => Ok (el_attrs el)
                     end;
      Ok (VObj class (attributes (fun default s => match sget s params with Some v => v | None => default end) defaults))
  end.

(** [Element.extract].  Subjects without [__dict__] are AttributeErrors; those of other objects than
    [VObj] are not modelled.  /repo/scheme/element.py:91-96 *)
Definition element_extract (el : element) (subject : val) : res val :=
  match el_schema el with
  | Fld _ (KStructure _ _ _) =>
      match subject with
      | VObj _ attrs => Ok (VDict false (strs attrs))
      | VSurr _ _ _ _ | VErr _ | VField _ => outside
      | _ => py AttributeError
      end
  | Fld p _ =>
      match subject, p_name p with
      | VObj _ attrs, Some name => match aget name attrs with Some v => Ok v | None => py AttributeError end
      | _, _ => py AttributeError
      end
  | FUndef _ => outside
  end.

(** [setattr(instance, cls.key_attr, key)].  /repo/scheme/element.py:113-114 *)
Definition set_key (el : element) (key instance : val) : val :=
  match key, el_key_attr el, instance with
  | VNone, _, _ | _, [], _ => instance
  | _, name, VObj class attrs => VObj class (aset name key attrs)
  | _, _, _ => instance
  end.

(** The subclass of an identity, or the class itself.  /repo/scheme/element.py:102-109 *)
Definition class_of (el : element) (ident : val) : nat :=
  match find (fun ic => veq L (fst ic) ident) (el_impl el) with
  | Some (_, class) => class
  | None => el_class el
  end.

(** [Element.instantiate].  /repo/scheme/element.py:98-116 *)
Definition element_instantiate (el : element) (value key : val) : res val :=
  do instance <-
    match el_schema el with
    | Fld _ (KStructure _ _ _) =>
        match as_dict value with
        | None => py TypeError
        | Some items =>
            match el_on el with
            | Some (c :: on) =>
                match sget (c :: on) items with
                | None => py KeyError
                | Some ident =>
                    if hashable ident then element_init el (class_of el ident) items else py TypeError
                end
            | _ => element_init el (el_class el) items
            end
        end
    | Fld p _ =>
        match p_name p with
        | Some name => element_init el (el_class el) [(VStr name, value)]
        | None => outside
        end
    | FUndef _ => outside
    end;
  Ok (set_key el key instance).

Context (desc : field -> res val) (recon : val -> res field) (n : nat).

(** [Element.serialize].  /repo/scheme/element.py:118-120 *)
Definition element_serialize (reg : registry) (el : element) (instance : val) (format : option key) : res val :=
  do v <- extract E n true [] (el_schema el) instance;
  field_serialize E desc recon n reg (el_schema el) v format.

(** [Element.unserialize] of a value, and of a text in a format.  /repo/scheme/element.py:122-124 *)
Definition element_unserialize (el : element) (value : val) : res val :=
  do v <- process_gen E desc recon n (el_schema el) false Inbound true [] value;
  instantiate E n (el_schema el) v VNone.
(** The same from a text.  /repo/scheme/element.py:122-124 *)
Definition element_unserialize_text (reg : registry) (el : element) (text : str) (format : key) : res val :=
  do v <- field_unserialize E desc recon n reg (el_schema el) text format;
  instantiate E n (el_schema el) v VNone.

End Element.
