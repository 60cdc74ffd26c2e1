(** * Operations on schemas: attributes, screening, filtering, transforming, editing structures,
    defaults, visiting specifications. *)
From Verif Require Export Construct.

Section Schema.
Context (E : env).
Let L := e_local E.

(** ** Attributes *)

(** Class attributes [basetype] and [structural] of the classes in /repo/scheme/fields/:
    binary.py:11, boolean.py:9, date.py:18, datetime.py:15, decimal.py:15, definition.py:10,
    enumeration.py:11, error.py:9, float.py:11, integer.py:11, map.py:33-35, object.py:10,
    sequence.py:32-34, structure.py:52-54, surrogate.py:12, text.py:13 (and email.py, which inherits
    it), time.py:14, token.py:13, tuple.py:20-21, union.py:21-22, uuid.py:13;
    /repo/scheme/field.py:156-159 for [Field]. *)
Definition basetype (c : cls) : val :=
  match c with
  | CField => VNone
  | CEmail | CUUID => VStr $"text"
  | CError => VStr $"tuple"
  | CSurrogate => VStr $"structure"
  | c => VStr (cls_name c)
  end.
(** [structural], a class attribute.  /repo/scheme/field.py:163, /repo/scheme/fields/map.py, sequence.py,
    structure.py, tuple.py, union.py *)
Definition structural (c : cls) : bool :=
  match c with CMap | CSequence | CStructure | CTuple | CUnion => true | _ => false end.

(** [getattr(field, name, None)]: attributes of the instance, then of the class, then aspects
    (/repo/scheme/field.py:236-243, 156-164, 43).  The tables [types], [parameters], [errors] and
    the names of methods and properties are not modelled (they count as absent). *)
Definition attribute (p : params) (k : kind) (name : str) : val :=
  match aget name (attrs E p k) with
  | Some v => v
  | None =>
      if str_eqb name $"type" then VStr (cls_name (cls_of k))
      else if str_eqb name $"basetype" then basetype (cls_of k)
      else if str_eqb name $"structural" then VBool (structural (cls_of k))
      else match aget name (p_aspects p) with Some v => v | None => VNone end
  end.

(** [Field.screen].  /repo/scheme/field.py:484-492 *)
Fixpoint screen (p : params) (k : kind) (tests : list (str * val)) : bool :=
  match tests with
  | [] => true
  | (name, v) :: tests' =>
      if negb (is_none v) && negb (veq L (attribute p k name) v) then false
      else screen p k tests'
  end.

(** ** Filtering *)

(** [Field.filter]: does it return the field itself (or None)?  /repo/scheme/field.py:362-382.
    [included] is the local variable of the loop. *)
Fixpoint filter_loop (p : params) (k : kind) (all included : bool) (tests : list (str * val)) : bool :=
  match tests with
  | [] => included
  | (name, v) :: tests' =>
      let a := attribute p k name in
      let candidate := if is_none a then VBool false else a in
      if veq L candidate v then (if all then filter_loop p k all true tests' else true)
      else if all then false else filter_loop p k all included tests'
  end.
(** [Field.filter].  /repo/scheme/field.py:362-382 *)
Definition field_filter (p : params) (k : kind) (all : bool) (tests : list (str * val)) : bool :=
  match tests with [] => true | _ => filter_loop p k all false tests end.

(** What a call of [filter] returns: None, the same object, or another field.
    /repo/scheme/field.py:362-382, /repo/scheme/fields/structure.py:227-249 *)
Inductive filtered := Dropped | Kept | Rebuilt (g : field).

(** The candidates of a tuple: none may be dropped; did one change?
    /repo/scheme/fields/tuple.py:102-112 *)
Fixpoint filter_fields (flt : field -> res filtered) (l : list field) : res (list field * bool) :=
  match l with
  | [] => Ok ([], false)
  | f :: l' =>
      do r <- flt f;
      match r with
      | Dropped => py CannotFilterError
      | Kept => do x <- filter_fields flt l'; Ok (f :: fst x, snd x)
      | Rebuilt g => do x <- filter_fields flt l'; Ok (g :: fst x, true)
      end
  end.

(** [Structure._filter_structure]: None when nothing changed.  The test passed on is the builtin
    function [all], which is true.  /repo/scheme/fields/structure.py:518-532 *)
Fixpoint filter_items (flt : field -> res filtered) (l : list (str * field))
  : res (list (str * field) * bool) :=
  match l with
  | [] => Ok ([], false)
  | (name, f) :: l' =>
      do r <- flt f;
      do x <- filter_items flt l';
      match r with
      | Dropped => Ok (fst x, true)
      | Kept => Ok ((name, f) :: fst x, snd x)
      | Rebuilt g => Ok ((name, g) :: fst x, true)
      end
  end.
(** [_filter_structure].  /repo/scheme/fields/structure.py:518-532 *)
Definition filter_structure (flt : field -> res filtered) (l : list (str * field))
  : res (option (list (str * field))) :=
  do x <- filter_items flt l; Ok (if snd x then Some (fst x) else None).

(** The variants of a polymorphic structure; an empty candidate counts as unchanged.
    /repo/scheme/fields/structure.py:231-240 *)
Fixpoint filter_variants (flt : field -> res filtered) (l : list (val * list (str * field)))
  : res (list (val * list (str * field)) * bool) :=
  match l with
  | [] => Ok ([], false)
  | (i, fields) :: l' =>
      do c <- filter_structure flt fields;
      do x <- filter_variants flt l';
      match c with
      | Some (kf :: fields') => Ok ((i, kf :: fields') :: fst x, true)
      | _ => Ok ((i, fields) :: fst x, snd x)
      end
  end.

(** [filter].  /repo/scheme/field.py:362-382, /repo/scheme/fields/map.py:122-132,
    sequence.py:113-123, structure.py:227-249, tuple.py:98-117.  Union inherits from Field.  Map
    passes its value field as argument [all], which is true.  A placeholder without field has no
    attribute [filter].  Fuel bounds the nesting, as in [clone]. *)
Fixpoint filter_tree (n : nat) (f : field) (all : bool) (tests : list (str * val)) : res filtered :=
  match n with
  | O => py RecursionError
  | S m =>
      let go p k :=
        if field_filter p k all tests then
          let rebuilt kw := do g <- clone E n (Fld p k) kw; Ok (Rebuilt g) in
          let one key flt :=
            do r <- flt;
            match r with
            | Dropped => py CannotFilterError
            | Kept => Ok Kept
            | Rebuilt g => rebuilt [(key, VField g)]
            end in
          match k with
          | KMap v _ _ => one $"value" (filter_tree m v true tests)
          | KSequence item _ _ _ => one $"item" (filter_tree m item all tests)
          | KTuple l =>
              do x <- filter_fields (fun g => filter_tree m g all tests) l;
              if snd x then rebuilt [($"values", VTuple (map VField (fst x)))] else Ok Kept
          | KStructure (SPlain l) _ _ =>
              do c <- filter_structure (fun g => filter_tree m g true tests) l;
              match c with
              | Some (kf :: l') => rebuilt [($"structure", struct_val (kf :: l'))]
              | _ => Ok Kept
              end
          | KStructure (SPoly _ vs) _ _ =>
              do x <- filter_variants (fun g => filter_tree m g true tests) vs;
              if snd x then
                rebuilt [($"structure",
                          VDict false (map (fun vl => (fst vl, struct_val (snd vl))) (fst x)))]
              else Ok Kept
          | _ => Ok Kept
          end
        else Ok Dropped in
      match f with
      | Fld p k => go p k
      | FUndef i => match e_undef E i with
                    | Some (Fld p k) => go p k
                    | _ => py AttributeError
                    end
      end
  end.

(** ** Transforming *)

(** What a transformer returns: the very field it was given, another field, False, or anything
    else (typically None).  Transformers are functions and do not raise.  /repo/scheme/field.py:504-513 *)
Inductive answer := ASame | AField (g : field) | AFalse | AOther.

(** What a call of [transform] returns: the same object or another field.  /repo/scheme/field.py:504-513 *)
Inductive transformed := TSame | TNew (g : field).

(** /repo/scheme/fields/tuple.py:207-216, union.py:124-133 *)
Fixpoint transform_fields (trf : field -> res transformed) (l : list field) : res (list field * bool) :=
  match l with
  | [] => Ok ([], false)
  | f :: l' =>
      do r <- trf f;
      do x <- transform_fields trf l';
      match r with
      | TSame => Ok (f :: fst x, snd x)
      | TNew g => Ok (g :: fst x, true)
      end
  end.
(** /repo/scheme/fields/structure.py:488-497 *)
Fixpoint transform_items (trf : field -> res transformed) (l : list (str * field))
  : res (list (str * field) * bool) :=
  match l with
  | [] => Ok ([], false)
  | (name, f) :: l' =>
      do r <- trf f;
      do x <- transform_items trf l';
      match r with
      | TSame => Ok ((name, f) :: fst x, snd x)
      | TNew g => Ok ((name, g) :: fst x, true)
      end
  end.

(** [transform].  /repo/scheme/field.py:504-513, /repo/scheme/fields/map.py:228-239,
    sequence.py:211-222, structure.py:481-502, tuple.py:200-221, union.py:117-138.  The items of a
    polymorphic structure are dicts, which have no attribute [transform]. *)
Fixpoint transform (tr : field -> answer) (n : nat) (f : field) : res transformed :=
  match n with
  | O => py RecursionError
  | S m =>
      let go p k :=
        let rebuilt kw := do g <- clone E n (Fld p k) kw; Ok (TNew g) in
        let one key trf :=
          do r <- trf; match r with TSame => Ok TSame | TNew g => rebuilt [(key, VField g)] end in
        match tr (Fld p k) with
        | AField g => Ok (TNew g)
        | ASame | AFalse => Ok TSame
        | AOther =>
            match k with
            | KMap v _ _ => one $"value" (transform tr m v)
            | KSequence item _ _ _ => one $"item" (transform tr m item)
            | KTuple l =>
                do x <- transform_fields (transform tr m) l;
                if snd x then rebuilt [($"values", VTuple (map VField (fst x)))] else Ok TSame
            | KUnion l =>
                do x <- transform_fields (transform tr m) l;
                if snd x then rebuilt [($"fields", VList (map VField (fst x)))] else Ok TSame
            | KStructure (SPlain l) _ _ =>
                do x <- transform_items (transform tr m) l;
                if snd x then rebuilt [($"structure", struct_val (fst x))] else Ok TSame
            | KStructure (SPoly _ []) _ _ => Ok TSame
            | KStructure (SPoly _ _) _ _ => py AttributeError
            | _ => Ok TSame
            end
        end in
      match f with
      | Fld p k => go p k
      | FUndef i => match e_undef E i with
                    | Some (Fld p k) => go p k
                    | _ => py AttributeError
                    end
      end
  end.

(** ** Editing structures *)

(** [field.name = name].  /repo/scheme/fields/structure.py:170-182, 458-479 *)
Definition renamed (name : str) (f : field) : field :=
  match f with
  | Fld p k => Fld (set_name (Some name) p) k
  | FUndef i => FUndef i
  end.

(** [Structure.extend] and [Structure.replace] on structures that are not polymorphic (the others
    would get a field among their variants; they are outside the model).  The argument is a dict
    from names to values; what is not a field (a placeholder is not) is a TypeError.  Setting
    [field.name] also changes the field of the caller: [renamed].
    /repo/scheme/fields/structure.py:170-182, 459-479 *)
Fixpoint extend_items (only_present : bool) (l : list (str * field)) (d : list (str * val))
  : res (list (str * field)) :=
  match d with
  | [] => Ok l
  | (name, v) :: d' =>
      match v with
      | VField (Fld p k) =>
          let g := renamed name (Fld p k) in
          extend_items only_present
            (if only_present then match aget name l with Some _ => aset name g l | None => l end
             else aset name g l) d'
      | _ => py TypeError
      end
  end.
(** [self.structure] of one that is not polymorphic.  /repo/scheme/fields/structure.py:170-182, 458-479 *)
Definition structure_of (f : field) : res (params * list (str * field) * bool * option (list str)) :=
  match f with
  | Fld p (KStructure (SPlain l) strict order) => Ok (p, l, strict, order)
  | _ => outside
  end.
(** /repo/scheme/fields/structure.py:170-182 *)
Definition extend (n : nat) (f : field) (d : list (str * val)) : res field :=
  do g <- clone E n f [];
  do x <- structure_of g;
  let '(p, l, strict, order) := x in
  do l' <- extend_items false l d;
  Ok (Fld p (KStructure (SPlain l') strict order)).
(** None is the structure itself.  /repo/scheme/fields/structure.py:458-479 *)
Definition replace (n : nat) (f : field) (d : list (str * val)) : res (option field) :=
  do x0 <- structure_of f;
  let '(_, l0, _, _) := x0 in
  if existsb (fun kv => match aget (fst kv) l0 with Some _ => true | None => false end) d then
    do g <- clone E n f [];
    do x <- structure_of g;
    let '(p, l, strict, order) := x in
    do l' <- extend_items true l d;
    Ok (Some (Fld p (KStructure (SPlain l') strict order)))
  else Ok None.

(** The same at the level of objects, since [field.name = name] changes an object that others may
    share: a heap of field objects by address, a structure as the dict from names to the addresses
    of its fields, the argument as a dict from names to addresses.  The clone consists of new
    objects.  [Structure.replace] without any key present returns the structure itself and is not
    repeated here.  /repo/scheme/fields/structure.py:170-182, 470-479 *)
Definition heap := list field.
(** The object behind a reference.  /repo/scheme/fields/structure.py:170-182, 470-479 *)
Definition deref (h : heap) (a : nat) : field := nth a h (FUndef O).
(** An object changed in place.  /repo/scheme/fields/structure.py:170-182, 470-479 *)
Fixpoint store (h : heap) (a : nat) (f : field) : heap :=
  match h, a with
  | [], _ => []
  | _ :: h', O => f :: h'
  | g :: h', S a' => g :: store h' a' f
  end.
(** The loops with objects.  /repo/scheme/fields/structure.py:174-181, 470-478 *)
Fixpoint put_objects (only_present : bool) (h : heap) (l d : list (str * nat))
  : res (heap * list (str * nat)) :=
  match d with
  | [] => Ok (h, l)
  | (name, a) :: d' =>
      match deref h a with
      | Fld p k =>
          put_objects only_present (store h a (renamed name (Fld p k)))
            (if only_present then match aget name l with Some _ => aset name a l | None => l end
             else aset name a l) d'
      | FUndef _ => py TypeError
      end
  end.
(** The structure as a value.  /repo/scheme/fields/structure.py:170-182, 470-479 *)
Definition read_dict (h : heap) (l : list (str * nat)) : list (str * field) :=
  map (fun ka => (fst ka, deref h (snd ka))) l.
(** [extend] and [replace] with objects.  /repo/scheme/fields/structure.py:170-182, 470-479 *)
Definition edited_clone (n : nat) (only_present : bool) (h : heap) (p : params) (l : list (str * nat))
    (strict : bool) (order : option (list str)) (d : list (str * nat))
  : res (heap * (params * list (str * nat) * bool * option (list str))) :=
  do g <- clone E n (Fld p (KStructure (SPlain (read_dict h l)) strict order)) [];
  do x <- structure_of g;
  let '(p', fields, strict', order') := x in
  do r <- put_objects only_present (h ++ map snd fields)
            (combine (map fst fields) (seq (length h) (length fields))) d;
  Ok (fst r, (p', snd r, strict', order')).

(** Edits in place of the dict [self.structure] of a structure that is not polymorphic.  The first
    component is the dict afterwards, also when an exception is raised.
    [Structure.insert]: /repo/scheme/fields/structure.py:274-289 *)
Definition insert (v : val) (overwrite : bool) (l : list (str * field)) : list (str * field) * res unit :=
  match v with
  | VField (Fld p k) =>
      match p_name p with
      | None | Some [] => (l, py ValueError)
      | Some name =>
          if overwrite || match aget name l with Some _ => false | None => true end
          then (aset name (Fld p k) l, Ok tt)
          else (l, Ok tt)
      end
  | _ => (l, py TypeError)
  end.
(** [Structure.remove].  /repo/scheme/fields/structure.py:450-456 *)
Fixpoint remove_names (names : list str) (l : list (str * field)) : list (str * field) :=
  match names with
  | [] => l
  | name :: names' =>
      remove_names names' (match aget name l with Some _ => adel name l | None => l end)
  end.
(** [Structure.merge].  /repo/scheme/fields/structure.py:340-357 *)
Fixpoint merge (n : nat) (d : list (str * val)) (prefer : bool) (l : list (str * field))
  : list (str * field) * res unit :=
  match d with
  | [] => (l, Ok tt)
  | (name, v) :: d' =>
      match v with
      | VField (Fld p k) =>
          if match aget name l with Some _ => negb prefer | None => false end then (l, Ok tt)
          else
            match (if match p_name p with Some s => str_eqb s name | None => false end
                   then Ok (Fld p k) else clone E n (Fld p k) [($"name", VStr name)]) with
            | Ok g => merge n d' prefer (aset name g l)
            | Raise x => (l, Raise x)
            end
      | _ => (l, py TypeError)
      end
  end.

(** [Structure.get].  /repo/scheme/fields/structure.py:271-272 *)
Definition get (l : list (str * field)) (name : str) : option field := aget name l.

(** [Structure.has_required_fields].  /repo/scheme/fields/structure.py:125-136 *)
Fixpoint required_among (l : list (str * field)) : res bool :=
  match l with
  | [] => Ok false
  | (_, f) :: l' =>
      match fparams E f with
      | None => py AttributeError
      | Some p => if p_required p && is_none (p_default p) then Ok true else required_among l'
      end
  end.
(** /repo/scheme/fields/structure.py:126-136 *)
Definition has_required_fields (d : sdef) : res bool :=
  match d with SPoly _ _ => Ok true | SPlain l => required_among l end.

(** [Structure.generate_defaults].  /repo/scheme/fields/structure.py:252-269 *)
Definition generate_defaults (d : sdef) (identity : val) (sparse : bool) : res val :=
  match d with
  | SPlain l =>
      if is_none identity then do items <- default_values E sparse l; Ok (VDict false items)
      else py ValueError
  | SPoly _ vs =>
      if is_none identity then
        do items <- each (fun vl => do items <- default_values E sparse (snd vl);
                                    Ok (fst vl, VDict false items)) vs;
        Ok (VDict false items)
      else if hashable identity then
        match find (fun vl => veq L (fst vl) identity) vs with
        | Some (_, l) => do items <- default_values E sparse l; Ok (VDict false items)
        | None => py ValueError
        end
      else py TypeError
  end.

(** [Enumeration.redefine]: the new list has the same members as the set; its order, which Python
    does not specify, is that of first occurrence here.
    /repo/scheme/fields/enumeration.py:56-67 *)
Fixpoint members (l : list val) : list val :=
  match l with
  | [] => []
  | v :: l' => v :: List.filter (fun w => negb (veq L v w)) (members l')
  end.
(** /repo/scheme/fields/enumeration.py:56-67 *)
Definition redefine (old : list val) (enumeration : val) (strategy : str) : res (list val) :=
  do new <- match enumeration with
            | VStr s => Ok (map VStr (split_space s))
            | VList l => Ok l
            | _ => py TypeError
            end;
  if str_eqb strategy $"append" || str_eqb strategy $"replace" then
    let all := (if str_eqb strategy $"append" then old else []) ++ new in
    if forallb hashable all then Ok (members all) else py TypeError
  else py ValueError.

(** ** Visiting specifications *)

(** [Field.visit] and the methods [_visit_field].  /repo/scheme/field.py:523-533, 612-614,
    /repo/scheme/fields/map.py:244-249, sequence.py:227-229, structure.py:575-585,
    tuple.py:226-228, union.py:143-145.  A callback that raises is not modelled. *)
Definition item (l : list (val * val)) (key : str) : res val :=
  match sget key l with Some v => Ok v | None => py KeyError end.
(** [value.items()].  /repo/scheme/fields/structure.py:575-584 *)
Definition dict_items (v : val) : res (list (val * val)) :=
  match as_dict v with Some l => Ok l | None => py AttributeError end.
(** A dict with the callback applied to every value.  /repo/scheme/fields/structure.py:575-584 *)
Definition visit_items (callback : val -> val) (v : val) : res val :=
  do l <- dict_items v; Ok (VDict false (map (fun kv => (fst kv, callback (snd kv))) l)).
(** A tuple with the callback applied to every item.  /repo/scheme/fields/tuple.py:226-228, union.py:143-145
    *)
Definition visit_all (callback : val -> val) (v : val) : res val :=
  match py_iter v with Some l => Ok (VTuple (map callback l)) | None => py TypeError end.
(** [Field.visit].  /repo/scheme/field.py:523-533 *)
Definition visit (callback : val -> val) (specification : val) : res val :=
  match as_dict specification with
  | None => py TypeError
  | Some l =>
      do t <- item l $"fieldtype";
      if hashable t then
        match (match t with VStr s => find_cls s | _ => None end) with
        | None => py KeyError
        | Some c =>
            do items <- match c with
                        | CMap =>
                            do v <- item l $"value";
                            Ok ((VStr $"value", callback v)
                                :: match sget $"key" l with
                                   | Some k => [(VStr $"key", callback k)]
                                   | None => []
                                   end)
                        | CSequence => do v <- item l $"item"; Ok [(VStr $"item", callback v)]
                        | CTuple => do v <- item l $"values"; do x <- visit_all callback v;
                                    Ok [(VStr $"values", x)]
                        | CUnion => do v <- item l $"fields"; do x <- visit_all callback v;
                                    Ok [(VStr $"fields", x)]
                        | CStructure =>
                            do v <- item l $"structure";
                            if match sget $"polymorphic_on" l with Some x => truthy x | None => false end
                            then
                              do vs <- dict_items v;
                              do ys <- each (fun kv => do x <- visit_items callback (snd kv);
                                                       Ok (fst kv, x)) vs;
                              Ok [(VStr $"structure", VDict false ys)]
                            else
                              do x <- visit_items callback v; Ok [(VStr $"structure", x)]
                        | _ => Ok []
                        end;
            Ok (VDict false items)
        end
      else py TypeError
  end.

End Schema.
