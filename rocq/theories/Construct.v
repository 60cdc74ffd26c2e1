(** * Constructors, attributes, cloning, descriptions and reconstruction of fields.

    Keyword arguments are association lists from parameter names to values; fields given as
    arguments are [VField].  A placeholder in a slot stays there as [FUndef n]; what it was defined
    as is [e_undef].  Fields are values, so the aliasing of field objects is not modelled: where the
    code sets an attribute of a field given by the caller (its name), the model returns a renamed
    field.  The parameter [errors] (custom messages) is not modelled, messages are not either. *)
From Verif Require Export Process.

(** Arguments that Python stores but that the types of the model cannot hold (a name that is not a
    string, a preprocessor that is not an object, ...).  No theorem assigns a meaning to it.
    For the constructors of /repo/scheme/field.py:171-212 and /repo/scheme/fields/*.py *)
Definition outside {A} : res A := py (OtherError 0).

(** A list comprehension.  /repo/scheme/field.py:548-556, 561-572 *)
Fixpoint each {A B} (f : A -> res B) (l : list A) : res (list B) :=
  match l with
  | [] => Ok []
  | a :: l' => do b <- f a; do bs <- each f l'; Ok (b :: bs)
  end.

(** The field classes.  /repo/scheme/field.py:55 (the registry [Field.types]). *)
Inductive cls :=
| CField | CBinary | CBoolean | CDate | CDateTime | CDecimal | CDefinition | CEmail | CEnumeration
| CError | CFloat | CInteger | CMap | CObject | CSequence | CStructure | CSurrogate | CText | CTime
| CToken | CTuple | CUnion | CUUID.

(** [type(field)].  /repo/scheme/fields/__init__.py *)
Definition cls_of {V F} (k : kindP V F) : cls :=
  match k with
  | KField => CField | KBinary _ _ => CBinary | KBoolean => CBoolean | KDate _ _ => CDate
  | KDateTime _ _ _ => CDateTime | KDecimal _ _ => CDecimal | KDefinition _ => CDefinition
  | KEmail _ _ _ _ => CEmail | KEnumeration _ _ => CEnumeration | KError => CError
  | KFloat _ _ => CFloat | KInteger _ _ => CInteger | KMap _ _ _ => CMap | KObject => CObject
  | KSequence _ _ _ _ => CSequence | KStructure _ _ _ => CStructure | KSurrogate _ => CSurrogate
  | KText _ _ _ _ => CText | KTime _ _ => CTime | KToken _ => CToken | KTuple _ => CTuple
  | KUnion _ => CUnion | KUUID => CUUID
  end.

(** [Field.type] of each class.  /repo/scheme/field.py:37 *)
Definition cls_name (c : cls) : str :=
  match c with
  | CField => $"field" | CBinary => $"binary" | CBoolean => $"boolean" | CDate => $"date"
  | CDateTime => $"datetime" | CDecimal => $"decimal" | CDefinition => $"definition"
  | CEmail => $"email" | CEnumeration => $"enumeration" | CError => $"error"
  | CFloat => $"float" | CInteger => $"integer" | CMap => $"map" | CObject => $"object"
  | CSequence => $"sequence" | CStructure => $"structure" | CSurrogate => $"surrogate"
  | CText => $"text" | CTime => $"time" | CToken => $"token" | CTuple => $"tuple"
  | CUnion => $"union" | CUUID => $"uuid"
  end.

(** The values of [Field.types].  /repo/scheme/field.py:31-58 *)
Definition all_cls : list cls :=
  [CField; CBinary; CBoolean; CDate; CDateTime; CDecimal; CDefinition; CEmail; CEnumeration; CError;
   CFloat; CInteger; CMap; CObject; CSequence; CStructure; CSurrogate; CText; CTime; CToken; CTuple;
   CUnion; CUUID].

(** [Field.types.get(name)].  /repo/scheme/field.py:75-79 *)
Definition find_cls (s : str) : option cls := find (fun c => str_eqb (cls_name c) s) all_cls.

(** The keyword parameters that the constructor of each class names itself; the rest is passed to
    [Field.__init__].  The signatures in /repo/scheme/fields/: binary.py:21, date.py:29, datetime.py:26,
    decimal.py:24, definition.py:19, email.py:30-31 and 47, enumeration.py:18, float.py:20,
    integer.py:20, map.py:43, sequence.py:43, structure.py:64-65, surrogate.py:21, text.py:26-27,
    time.py:25, token.py:20, tuple.py:28, union.py:24, uuid.py:20. *)
Definition class_args (c : cls) : list str :=
  match c with
  | CBinary => [$"min_length"; $"max_length"; $"nonempty"]
  | CDate | CTime | CDecimal | CFloat | CInteger => [$"minimum"; $"maximum"]
  | CDateTime => [$"minimum"; $"maximum"; $"utc"]
  | CDefinition => [$"valid_fields"]
  | CEmail => [$"multiple"; $"extended"; $"pattern"; $"strip"; $"errors"; $"min_length"; $"max_length";
               $"nonempty"]
  | CEnumeration => [$"enumeration"; $"ignored_values"]
  | CMap => [$"value"; $"key"; $"required_keys"]
  | CSequence => [$"item"; $"min_length"; $"max_length"; $"unique"]
  | CStructure => [$"structure"; $"strict"; $"polymorphic_on"; $"generate_default"; $"key_order"]
  | CSurrogate => [$"valid_surrogates"]
  | CText => [$"pattern"; $"min_length"; $"max_length"; $"strip"; $"nonempty"]
  | CToken => [$"segments"]
  | CTuple => [$"values"]
  | CUnion => [$"fields"]
  | CField | CBoolean | CError | CObject | CUUID => []
  end.

(** The keyword parameters named by [Field.__init__].  /repo/scheme/field.py:171-174 *)
Definition base_args : list str :=
  [$"name"; $"description"; $"default"; $"nonnull"; $"ignore_null"; $"required"; $"constant";
   $"errors"; $"title"; $"notes"; $"nonempty"; $"instantiator"; $"extractor"; $"preprocessor";
   $"aspects"].

(** The value of a keyword argument whose default is [None].
    /repo/scheme/field.py:171-173, /repo/scheme/fields/*.py: __init__ *)
Definition arg (k : str) (kw : list (str * val)) : val :=
  match aget k kw with Some v => v | None => VNone end.
(** Truth of an argument whose default is [False] ...
    /repo/scheme/field.py:171-173, /repo/scheme/fields/*.py: __init__ *)
Definition flag (k : str) (kw : list (str * val)) : bool := truthy (arg k kw).
(** ... or [True].  /repo/scheme/fields/text.py:26, structure.py:64 *)
Definition flag_on (k : str) (kw : list (str * val)) : bool :=
  match aget k kw with Some v => truthy v | None => true end.

(** [**params]: the arguments not named by a signature.
    /repo/scheme/field.py:171-173, /repo/scheme/fields/*.py: __init__ *)
Definition others (names : list str) (kw : list (str * val)) : list (str * val) :=
  filter (fun kv => negb (smem (fst kv) names)) kw.

(** Change of single parameters ([field.name = ...], [self.default = ...]).
    /repo/scheme/fields/structure.py:572-573 *)
Definition set_name (s : option str) (p : params) : params :=
  {| p_name := s; p_nonnull := p_nonnull p; p_required := p_required p;
     p_ignore_null := p_ignore_null p; p_default := p_default p; p_constant := p_constant p;
     p_preprocessor := p_preprocessor p; p_extractor := p_extractor p;
     p_instantiator := p_instantiator p; p_title := p_title p; p_description := p_description p;
     p_notes := p_notes p; p_aspects := p_aspects p |}.
(** /repo/scheme/fields/structure.py:104-113 *)
Definition set_default (d : val) (p : params) : params :=
  {| p_name := p_name p; p_nonnull := p_nonnull p; p_required := p_required p;
     p_ignore_null := p_ignore_null p; p_default := d; p_constant := p_constant p;
     p_preprocessor := p_preprocessor p; p_extractor := p_extractor p;
     p_instantiator := p_instantiator p; p_title := p_title p; p_description := p_description p;
     p_notes := p_notes p; p_aspects := p_aspects p |}.

(** Lexicographic order of strings, [sorted].
    For [sorted] at /repo/scheme/fields/structure.py:76, /repo/scheme/formats/structuredtext.py:35
    and others. *)
Fixpoint str_leb (a b : str) : bool :=
  match a, b with
  | [], _ => true
  | _ :: _, [] => false
  | x :: a', y :: b' => if (x =? y)%N then str_leb a' b' else (x <? y)%N
  end.
(** Insertion into a sorted list; for [sorted], as above.  /repo/scheme/formats/structuredtext.py:35 *)
Fixpoint insert_str (s : str) (l : list str) : list str :=
  match l with
  | [] => [s]
  | x :: l' => if str_leb s x then s :: l else x :: insert_str s l'
  end.
(** [sorted] of texts.  /repo/scheme/formats/structuredtext.py:35 *)
Definition sort_str (l : list str) : list str := fold_right insert_str [] l.

(** A key that is a string.  For names and keys taken by the constructors of /repo/scheme/fields/*.py *)
Definition as_str (v : val) : res str := match v with VStr s => Ok s | _ => outside end.

(** [if not field.name: field.name = name].  /repo/scheme/fields/structure.py:572-573 *)
Definition named (name : str) (f : field) : field :=
  match f with
  | Fld p k => match p_name p with
               | None | Some [] => Fld (set_name (Some name) p) k
               | _ => f
               end
  | FUndef _ => f
  end.

Section Construct.
Variable E : env.
Let L := e_local E.

(** An instantiator or extractor: a dotted name is imported, then the special attribute is looked
    up.  /repo/scheme/field.py:179-187 *)
Definition callable (special : str) (v : val) : res (option nat) :=
  do w <- match v with
          | VStr s => match e_import E s with Some o => Ok o | None => py ImportError end
          | _ => Ok v
          end;
  match w with
  | VNone => Ok None
  | VObj i attrs => match aget special attrs with
                    | None => Ok (Some i)
                    | Some (VObj j _) => Ok (Some j)
                    | Some _ => outside
                    end
  | _ => outside
  end.

(** Additional keyword parameters become aspects; the empty name has no first character.
    /repo/scheme/field.py:210-212 *)
Fixpoint add_aspects (extra : list (str * val)) (acc : list (str * val)) : res (list (str * val)) :=
  match extra with
  | [] => Ok acc
  | (k, v) :: l =>
      match k with
      | [] => py IndexError
      | c :: _ => if (c =? 95)%N || is_none v then add_aspects l acc
                  else add_aspects l (aset k v acc)
      end
  end.

(** [Field.__init__].  /repo/scheme/field.py:171-212.  The boolean parameters keep only their truth;
    [errors] is not modelled. *)
Definition init_params (kw : list (str * val)) : res params :=
  let nonempty := flag $"nonempty" kw in
  do inst <- callable $"__instantiate__" (arg $"instantiator" kw);
  do ext <- callable $"__extract__" (arg $"extractor" kw);
  do asp <- match arg $"aspects" kw with
            | VDict _ l => each (fun kv => do s <- as_str (fst kv); Ok (s, snd kv)) l
            | v => if truthy v then outside else Ok []
            end;
  do nm <- match arg $"name" kw with
           | VNone => Ok None
           | VStr s => Ok (Some s)
           | _ => outside
           end;
  do pre <- match arg $"preprocessor" kw with
            | VNone => Ok None
            | VObj i _ => Ok (Some i)
            | _ => outside
            end;
  do asp' <- add_aspects (others base_args kw) asp;
  Ok {| p_name := nm;
        p_nonnull := flag $"nonnull" kw || nonempty;
        p_required := flag $"required" kw || nonempty;
        p_ignore_null := flag $"ignore_null" kw;
        p_default := arg $"default" kw;
        p_constant := arg $"constant" kw;
        p_preprocessor := pre; p_extractor := ext; p_instantiator := inst;
        p_title := arg $"title" kw; p_description := arg $"description" kw;
        p_notes := arg $"notes" kw; p_aspects := asp' |}.

(** A length: None or an integer >= 0.  /repo/scheme/fields/binary.py:28-31, sequence.py:53-56,
    text.py:38-41 *)
Definition length_arg (v : val) : res (option Z) :=
  match v with
  | VNone => Ok None
  | VInt z => if (0 <=? z)%Z then Ok (Some z) else py TypeError
  | VBool b => Ok (Some (b2z b))
  | _ => py TypeError
  end.

(** The bounds of Integer and Float.  /repo/scheme/fields/integer.py:22-25, float.py:22-25 *)
Definition int_arg (v : val) : res (option Z) :=
  match v with
  | VNone => Ok None
  | VInt z => Ok (Some z)
  | VBool b => Ok (Some (b2z b))
  | _ => py TypeError
  end.
(** The bounds of Float.  /repo/scheme/fields/float.py:22-25 *)
Definition float_arg (v : val) : res (option spec_float) :=
  match v with
  | VNone => Ok None
  | VFloat x => Ok (Some x)
  | _ => py TypeError
  end.

(** The bounds of Date, Time, DateTime and Decimal: native or text.
    /repo/scheme/fields/date.py:31-43, time.py:27-39, datetime.py:33-45, decimal.py:27-45 *)
Definition date_arg (v : val) : res (option date) :=
  match v with
  | VNone => Ok None
  | VDate d => Ok (Some d)
  | VDateTime _ => outside
  | VStr s => match parse_date (e_udigit E) s with Some d => Ok (Some d) | None => py TypeError end
  | _ => py TypeError
  end.
(** /repo/scheme/fields/time.py:27-39 *)
Definition time_arg (v : val) : res (option tod) :=
  match v with
  | VNone => Ok None
  | VTime t => Ok (Some t)
  | VStr s => match parse_tod (e_udigit E) s with Some t => Ok (Some t) | None => py TypeError end
  | _ => py TypeError
  end.
(** /repo/scheme/fields/datetime.py:33-45 *)
Definition datetime_arg (utc : bool) (v : val) : res (option datetime) :=
  match v with
  | VNone => Ok None
  | VDateTime dt => do n <- dt_normalize E utc dt; Ok (Some n)
  | VStr s => match parse_datetime (e_udigit E) s with
              | Some dt => do n <- dt_normalize E utc dt; Ok (Some n)
              | None => py TypeError
              end
  | _ => py TypeError
  end.
(** /repo/scheme/fields/decimal.py:27-45 *)
Definition dec_arg (v : val) : res (option dec) :=
  match v with
  | VNone => Ok None
  | VDec d => Ok (Some d)
  | VStr _ => match to_dec (e_udigit E) v with Some d => Ok (Some d) | None => py TypeError end
  | _ => py TypeError
  end.

(** [s.split(' ')].  /repo/scheme/fields/enumeration.py:18-40, definition.py:19-34, surrogate.py:21-34 *)
Definition split_space (s : str) : list str := split_on 32 s.

(** [isinstance(v, NATIVELY_SERIALIZABLE)].  /repo/scheme/field.py:11 *)
Definition natively_serializable (v : val) : bool :=
  match v with
  | VNone | VBool _ | VInt _ | VFloat _ | VStr _ | VList _ | VTuple _ | VDict _ _ | VSurr _ _ _ _ => true
  | _ => false
  end.

(** [Definition.__init__].  /repo/scheme/fields/definition.py:22-37 *)
Definition valid_fields_arg (v : val) : res (option (list str)) :=
  let items := match v with
               | VStr s => VList (map VStr (split_space s))
               | _ => v
               end in
  if truthy items then
    match items with
    | VList l | VTuple l =>
        do names <- each (fun x => match x with
                                   | VStr s => match find_cls s with
                                               | Some _ => Ok s
                                               | None => py ValueError
                                               end
                                   | _ => if hashable x then py ValueError else py TypeError
                                   end) l;
        Ok (Some names)
    | _ => py TypeError
    end
  else Ok None.

(** [Surrogate.__init__]; only strings are stored.  /repo/scheme/fields/surrogate.py:23-28 *)
Definition valid_surrogates_arg (v : val) : res (option (list str)) :=
  match v with
  | VStr s => Ok (Some (split_space s))
  | _ => if truthy v then
           match py_iter v with
           | None => py TypeError
           | Some l => do names <- each as_str l; Ok (Some names)
           end
         else Ok None
  end.

(** [Enumeration.__init__].  /repo/scheme/fields/enumeration.py:20-40.  An enumeration given as a
    tuple is stored as a list; other iterables are outside the model. *)
Definition natives (l : list val) : res (list val) :=
  if forallb natively_serializable l then Ok l else py TypeError.
(** /repo/scheme/fields/enumeration.py:20-25 *)
Definition enumeration_arg (v : val) : res (list val) :=
  match v with
  | VStr s => Ok (map VStr (split_space s))
  | VList l | VTuple l => natives l
  | _ => match py_iter v with None => py TypeError | Some _ => outside end
  end.
(** /repo/scheme/fields/enumeration.py:27-37 *)
Definition ignored_arg (v : val) : res (option (list val)) :=
  match v with
  | VNone => Ok None
  | VStr s => Ok (Some (map VStr (split_space s)))
  | VList l => do l' <- natives l; Ok (Some l')
  | _ => py TypeError
  end.

(** [Text.__init__]: the pattern.  /repo/scheme/fields/text.py:35-36 *)
Definition pattern_arg (v : val) : res (option nat) :=
  match v with
  | VNone => Ok None
  | VStr s => match e_compile E s with Some i => Ok (Some i) | None => py (OtherError 1) end
  | VObj i _ => Ok (Some i)
  | _ => outside
  end.

(** [Token.__init__] stores anything.  /repo/scheme/fields/token.py:20-22 *)
Definition segments_arg (v : val) : res (option Z) :=
  match v with
  | VNone => Ok None
  | VInt z => Ok (Some z)
  | VBool b => Ok (Some (b2z b))
  | _ => outside
  end.

(** A field or a placeholder.  /repo/scheme/fields/map.py:45-51, sequence.py:45-51 *)
Definition field_arg (v : val) : res field :=
  match v with VField f => Ok f | _ => py TypeError end.
(** None or a field.  /repo/scheme/fields/map.py:53-54 *)
Definition key_arg (v : val) : res (option field) :=
  match v with
  | VNone => Ok None
  | VField (Fld p k) => Ok (Some (Fld p k))
  | _ => py TypeError
  end.
(** /repo/scheme/fields/map.py:56-60 *)
Definition required_keys_arg (v : val) : res (option (list val)) :=
  match v with
  | VNone => Ok None
  | VStr s => Ok (Some (map VStr (split_space s)))
  | VList l | VTuple l => Ok (Some l)
  | _ => py TypeError
  end.
(** A non empty list or tuple of fields.  /repo/scheme/fields/tuple.py:30-47, union.py:26-42 *)
Definition fields_arg (v : val) : res (list field) :=
  match v with
  | VList (x :: l) | VTuple (x :: l) => each field_arg (x :: l)
  | _ => py TypeError
  end.

(** ** Structures *)

(** [Structure._prevalidate_structure].  /repo/scheme/fields/structure.py:557-573 *)
Definition structure_items (v : val) : res (list (str * field)) :=
  match as_dict v with
  | None => py TypeError
  | Some l => each (fun kv => do f <- field_arg (snd kv);
                              do s <- as_str (fst kv);
                              Ok (s, named s f)) l
  end.

(** The entry ['*'] of a polymorphic structure is removed and added to all others.
    /repo/scheme/fields/structure.py:71-74 *)
Definition merge_common (l : list (val * val)) : res (list (val * val)) :=
  match sget $"*" l with
  | None => Ok l
  | Some common =>
      each (fun kv => match snd kv, as_dict common with
                      | VDict o d, Some c =>
                          Ok (fst kv, VDict o (fold_left (fun a x => dset L (fst x) (snd x) a) c d))
                      | VDict _ _, None => outside
                      | _, _ => py AttributeError
                      end) (sdel $"*" l)
  end.

(** [Enumeration(sorted(structure.keys()), nonempty=True, name=name)].
    /repo/scheme/fields/structure.py:75-77 *)
Definition discriminator (name : str) (keys : list str) : field :=
  Fld {| p_name := Some name; p_nonnull := true; p_required := true; p_ignore_null := false;
         p_default := VNone; p_constant := VNone; p_preprocessor := None; p_extractor := None;
         p_instantiator := None; p_title := VNone; p_description := VNone; p_notes := VNone;
         p_aspects := [] |}
      (KEnumeration (map VStr (sort_str keys)) None).

(** [key_order].  /repo/scheme/fields/structure.py:83-89 *)
Definition key_order_arg (v : val) : res (option (list str)) :=
  match v with
  | VStr s => match s with [] => Ok None | _ => Ok (Some (split_space s)) end
  | VList (x :: l) => do names <- each as_str (x :: l); Ok (Some names)
  | _ => if truthy v then py TypeError else Ok None
  end.

(** [Structure._generate_default_values].  /repo/scheme/fields/structure.py:534-543 *)
Fixpoint default_values (sparse : bool) (l : list (str * field)) : res (list (val * val)) :=
  match l with
  | [] => Ok []
  | (name, f) :: l' =>
      match fparams E f with
      | None => py AttributeError
      | Some p =>
          let value := if is_none (p_default p) then p_constant p else p_default p in
          do rest <- default_values sparse l';
          Ok (if negb sparse || negb (is_none value) then (VStr name, value) :: rest else rest)
      end
  end.

(** [generate_default].  /repo/scheme/fields/structure.py:105-114 *)
Definition generated_default (gd : val) (d : sdef) (old : val) : res val :=
  if truthy gd && negb (truthy old) then
    match d with
    | SPlain l => match gd with
                  | VBool true => do items <- default_values true l; Ok (VDict false items)
                  | _ => py ValueError
                  end
    | SPoly _ variants =>
        if hashable gd then
          match find (fun vl => veq L (fst vl) gd) variants with
          | Some (_, l) => do items <- default_values true l; Ok (VDict false items)
          | None => py ValueError
          end
        else py TypeError
    end
  else Ok old.

(** [Structure.__init__].  /repo/scheme/fields/structure.py:64-113.  [cl] is [clone]. *)
Definition init_structure (cl : field -> list (str * val) -> res field) (kw : list (str * val))
  : res field :=
  let base := others (class_args CStructure) kw in
  match as_dict (arg $"structure" kw) with
  | None => py TypeError
  | Some items0 =>
      let onv := arg $"polymorphic_on" kw in
      if truthy onv then
        do items <- merge_common items0;
        do on0 <- match onv with
                  | VStr s => do keys <- each as_str (map fst items); Ok (discriminator s keys)
                  | VField (Fld p k) => Ok (Fld p k)
                  | _ => py TypeError
                  end;
        do on <- match on0 with
                 | Fld p _ => if p_required p then Ok on0
                              else cl on0 [($"required", VBool true)]
                 | FUndef _ => py TypeError
                 end;
        do order <- key_order_arg (arg $"key_order" kw);
        do p <- init_params base;
        do name <- match on with
                   | Fld q _ => match p_name q with Some n => Ok n | None => outside end
                   | FUndef _ => outside
                   end;
        do variants <- each (fun kv => do fields <- structure_items (snd kv);
                                       do c <- cl on [($"constant", fst kv)];
                                       Ok (fst kv, aset name c fields)) items;
        let d := SPoly on variants in
        do dflt <- generated_default (arg $"generate_default" kw) d (p_default p);
        Ok (Fld (set_default dflt p) (KStructure d (flag_on $"strict" kw) order))
      else
        do order <- key_order_arg (arg $"key_order" kw);
        do p <- init_params base;
        do fields <- structure_items (arg $"structure" kw);
        let d := SPlain fields in
        do dflt <- generated_default (arg $"generate_default" kw) d (p_default p);
        Ok (Fld (set_default dflt p) (KStructure d (flag_on $"strict" kw) order))
  end.

(** [nonempty] of Binary and Text: a minimum length of one unless given.
    /repo/scheme/fields/binary.py:22-25, text.py:29-32 *)
Definition min_length_arg (kw : list (str * val)) : val :=
  let v := arg $"min_length" kw in
  if flag $"nonempty" kw && is_none v then VInt 1 else v.
(** [params.update(required=True, nonnull=True)].  /repo/scheme/fields/text.py:26-34, binary.py:22-25 *)
Definition nonempty_args (kw : list (str * val)) : list (str * val) :=
  if flag $"nonempty" kw then [($"required", VBool true); ($"nonnull", VBool true)] else [].

(** [cls( **kw)]: the constructors, in the order of the files of /repo/scheme/fields/ (lines at
    [class_args]). *)
Definition init (cl : field -> list (str * val) -> res field) (c : cls) (kw : list (str * val))
  : res field :=
  let base := others (class_args c) kw in
  let a k := arg k kw in
  match c with
  | CField => do p <- init_params base; Ok (Fld p KField)
  | CBoolean => do p <- init_params base; Ok (Fld p KBoolean)
  | CError => do p <- init_params base; Ok (Fld p KError)
  | CObject => do p <- init_params base; Ok (Fld p KObject)
  | CUUID => do p <- init_params base; Ok (Fld p KUUID)
  | CBinary =>
      do p <- init_params (nonempty_args kw ++ base);
      do mn <- length_arg (min_length_arg kw);
      do mx <- length_arg (a $"max_length");
      Ok (Fld p (KBinary mn mx))
  | CText =>
      do p <- init_params (nonempty_args kw ++ base);
      do pat <- pattern_arg (a $"pattern");
      do mn <- length_arg (min_length_arg kw);
      do mx <- length_arg (a $"max_length");
      Ok (Fld p (KText pat mn mx (flag_on $"strip" kw)))
  | CEmail =>
      if flag $"multiple" kw && flag $"extended" kw then py ValueError else
      do p <- init_params (nonempty_args kw ++ base);
      do mn <- length_arg (min_length_arg kw);
      do mx <- length_arg (a $"max_length");
      Ok (Fld p (KEmail (flag $"multiple" kw) (flag $"extended" kw) mn mx))
  | CDate =>
      do p <- init_params base;
      do mx <- date_arg (a $"maximum");
      do mn <- date_arg (a $"minimum");
      Ok (Fld p (KDate mn mx))
  | CTime =>
      do p <- init_params base;
      do mx <- time_arg (a $"maximum");
      do mn <- time_arg (a $"minimum");
      Ok (Fld p (KTime mn mx))
  | CDateTime =>
      do p <- init_params base;
      do mx <- datetime_arg (flag $"utc" kw) (a $"maximum");
      do mn <- datetime_arg (flag $"utc" kw) (a $"minimum");
      Ok (Fld p (KDateTime mn mx (flag $"utc" kw)))
  | CDecimal =>
      do p <- init_params base;
      do mn <- dec_arg (a $"minimum");
      do mx <- dec_arg (a $"maximum");
      Ok (Fld p (KDecimal mn mx))
  | CFloat =>
      do p <- init_params base;
      do mn <- float_arg (a $"minimum");
      do mx <- float_arg (a $"maximum");
      Ok (Fld p (KFloat mn mx))
  | CInteger =>
      do p <- init_params base;
      do mn <- int_arg (a $"minimum");
      do mx <- int_arg (a $"maximum");
      Ok (Fld p (KInteger mn mx))
  | CDefinition =>
      do p <- init_params base;
      do vf <- valid_fields_arg (a $"valid_fields");
      Ok (Fld p (KDefinition vf))
  | CSurrogate =>
      do p <- init_params base;
      do vs <- valid_surrogates_arg (a $"valid_surrogates");
      Ok (Fld p (KSurrogate vs))
  | CEnumeration =>
      do p <- init_params base;
      do l <- enumeration_arg (a $"enumeration");
      do ig <- ignored_arg (a $"ignored_values");
      Ok (Fld p (KEnumeration l ig))
  | CToken =>
      do p <- init_params base;
      do sg <- segments_arg (a $"segments");
      Ok (Fld p (KToken sg))
  | CMap =>
      do p <- init_params base;
      do v <- field_arg (a $"value");
      do k <- key_arg (a $"key");
      do rk <- required_keys_arg (a $"required_keys");
      Ok (Fld p (KMap v k rk))
  | CSequence =>
      do p <- init_params base;
      do it <- field_arg (a $"item");
      do mn <- length_arg (a $"min_length");
      do mx <- length_arg (a $"max_length");
      Ok (Fld p (KSequence it mn mx (flag $"unique" kw)))
  | CTuple => do p <- init_params base; do l <- fields_arg (a $"values"); Ok (Fld p (KTuple l))
  | CUnion => do p <- init_params base; do l <- fields_arg (a $"fields"); Ok (Fld p (KUnion l))
  | CStructure => init_structure cl kw
  end.

(** ** Attributes *)

(** None or a value: attributes as /repo/scheme/field.py:171-212 stores them. *)
Definition opt {A} (f : A -> val) (o : option A) : val :=
  match o with Some a => f a | None => VNone end.
(** An attribute that holds a callable or nothing.  /repo/scheme/field.py:179-203 *)
Definition callee (o : option nat) : val := opt (fun i => VObj i []) o.
(** A dict with texts as keys, such as [aspects].  /repo/scheme/field.py:189, 210-212 *)
Definition strs (l : list (str * val)) : list (val * val) := map (fun kv => (VStr (fst kv), snd kv)) l.
(** The attribute [structure].  /repo/scheme/fields/structure.py:64-108 *)
Definition struct_val (l : list (str * field)) : val :=
  VDict false (map (fun kf => (VStr (fst kf), VField (snd kf))) l).

(** The attributes a constructor of each class sets besides those of [Field]: in
    /repo/scheme/fields/ binary.py:33-34, date.py:45-46, datetime.py:29-31 and 47-49, decimal.py:47-48,
    definition.py:39, email.py:48-49, enumeration.py:39-41, float.py:27-28, integer.py:27-28,
    map.py:62-64, sequence.py:58-61, structure.py:92-95, surrogate.py:25-28, text.py:43-46,
    time.py:41-42, token.py:22, tuple.py:49, union.py:44.  The compiled pattern of Email and its
    [errors] are left out (its constructor ignores both); a time zone object is an object
    without attributes. *)
Definition kind_attrs (k : kind) : list (str * val) :=
  match k with
  | KBinary mn mx => [($"max_length", opt VInt mx); ($"min_length", opt VInt mn)]
  | KDate mn mx => [($"maximum", opt VDate mx); ($"minimum", opt VDate mn)]
  | KDateTime mn mx utc => [($"timezone", VObj 0 []); ($"maximum", opt VDateTime mx);
                            ($"minimum", opt VDateTime mn); ($"utc", VBool utc)]
  | KDecimal mn mx => [($"maximum", opt VDec mx); ($"minimum", opt VDec mn)]
  | KDefinition vf => [($"valid_fields", opt (fun l => VTuple (map VStr l)) vf)]
  | KEmail mu ex mn mx => [($"max_length", opt VInt mx); ($"min_length", opt VInt mn);
                           ($"strip", VBool false); ($"extended", VBool ex); ($"multiple", VBool mu)]
  | KEnumeration l ig => [($"enumeration", VList l); ($"ignored_values", opt VList ig);
                          ($"representation", VStr (e_repr E l))]
  | KFloat mn mx => [($"maximum", opt VFloat mx); ($"minimum", opt VFloat mn)]
  | KInteger mn mx => [($"maximum", opt VInt mx); ($"minimum", opt VInt mn)]
  | KMap v key rk => [($"key", opt VField key); ($"required_keys", opt VList rk); ($"value", VField v)]
  | KSequence it mn mx u => [($"item", VField it); ($"max_length", opt VInt mx);
                             ($"min_length", opt VInt mn); ($"unique", VBool u)]
  | KStructure d strict order =>
      [($"key_order", opt (fun l => VList (map VStr l)) order);
       ($"polymorphic_on", match d with SPoly on _ => VField on | SPlain _ => VNone end);
       ($"strict", VBool strict);
       ($"structure", match d with
                      | SPlain l => struct_val l
                      | SPoly _ vs => VDict false (map (fun vl => (fst vl, struct_val (snd vl))) vs)
                      end)]
  | KSurrogate vs => [($"valid_surrogates", opt (fun l => VTuple (map VStr l)) vs)]
  | KText pat mn mx strip => [($"max_length", opt VInt mx); ($"min_length", opt VInt mn);
                              ($"pattern", callee pat); ($"strip", VBool strip)]
  | KTime mn mx => [($"maximum", opt VTime mx); ($"minimum", opt VTime mn)]
  | KToken sg => [($"segments", opt VInt sg)]
  | KTuple l => [($"values", VTuple (map VField l))]
  | KUnion l => [($"fields", VTuple (map VField l))]
  | KField | KBoolean | KError | KObject | KUUID => []
  end.

(** [self.__dict__].  /repo/scheme/field.py:189-203 *)
Definition attrs (p : params) (k : kind) : list (str * val) :=
  [($"aspects", VDict false (strs (p_aspects p))); ($"constant", p_constant p);
   ($"default", p_default p); ($"description", p_description p);
   ($"extractor", callee (p_extractor p)); ($"ignore_null", VBool (p_ignore_null p));
   ($"instantiator", callee (p_instantiator p)); ($"name", opt VStr (p_name p));
   ($"notes", p_notes p); ($"nonnull", VBool (p_nonnull p)); ($"required", VBool (p_required p));
   ($"title", p_title p)]
  ++ match p_preprocessor p with Some i => [($"preprocessor", VObj i [])] | None => [] end
  ++ kind_attrs k.

(** ** Cloning *)

(** [deepcopy(value)]: a field is cloned (/repo/scheme/field.py:233-234), everything else that can
    hold a field is copied item by item.  A placeholder that is not defined holds callbacks bound
    to the very field being copied, so copying it does not end.  Objects, errors and surrogates
    are taken to be copied without failure. *)
Fixpoint dcopy (cl : field -> list (str * val) -> res field) (v : val) : res val :=
  match v with
  | VField f =>
      match f with
      | Fld p k => do g <- cl (Fld p k) []; Ok (VField g)
      | FUndef i => match e_undef E i with
                    | Some (Fld p k) => do g <- cl (Fld p k) []; Ok (VField g)
                    | _ => py RecursionError
                    end
      end
  | VList l => do l' <- (fix go (l : list val) : res (list val) :=
                           match l with
                           | [] => Ok []
                           | x :: l1 => do y <- dcopy cl x; do l2 <- go l1; Ok (y :: l2)
                           end) l;
               Ok (VList l')
  | VTuple l => do l' <- (fix go (l : list val) : res (list val) :=
                           match l with
                           | [] => Ok []
                           | x :: l1 => do y <- dcopy cl x; do l2 <- go l1; Ok (y :: l2)
                           end) l;
                Ok (VTuple l')
  | VDict o l => do l' <- (fix go (l : list (val * val)) : res (list (val * val)) :=
                             match l with
                             | [] => Ok []
                             | (a, x) :: l1 => do y <- dcopy cl x; do l2 <- go l1; Ok ((a, y) :: l2)
                             end) l;
                 Ok (VDict o l')
  | _ => Ok v
  end.

(** The loop of [clone]: attributes not overridden are copied, except where copying raises
    TypeError.  /repo/scheme/field.py:256-261 *)
Fixpoint copy_attrs (cl : field -> list (str * val) -> res field) (l : list (str * val))
  (kw : list (str * val)) : res (list (str * val)) :=
  match l with
  | [] => Ok kw
  | (k, v) :: l' =>
      match aget k kw with
      | Some _ => copy_attrs cl l' kw
      | None => match dcopy cl v with
                | Ok w => copy_attrs cl l' (kw ++ [(k, w)])
                | Raise (XPy TypeError) => copy_attrs cl l' kw
                | Raise x => Raise x
                end
      end
  end.

(** A copied bound of a DateTime field refers to a copy of the time zone object, which is not the
    object the constructor compares with, so the bound is converted once more.
    /repo/scheme/fields/datetime.py:71-79 *)
Definition rezone (utc : bool) (v : val) : res val :=
  match v with
  | VDateTime dt =>
      match dt_tz dt with
      | Some z => match astimezone L dt z (if utc then TzUTC else TzLocal) with
                  | Some d => Ok (VDateTime d)
                  | None => py OverflowError
                  end
      | None => Ok v
      end
  | _ => Ok v
  end.
(** The bounds copied by [clone] that the caller did not give.  /repo/scheme/field.py:250-265,
    /repo/scheme/fields/datetime.py:26-45 *)
Definition rezone_args (k : kind) (given kw : list (str * val)) : res (list (str * val)) :=
  match k with
  | KDateTime _ _ _ =>
      let utc := flag $"utc" kw in
      each (fun kv => if (str_eqb (fst kv) $"minimum" || str_eqb (fst kv) $"maximum")
                         && match aget (fst kv) given with None => true | Some _ => false end
                      then do v <- rezone utc (snd kv); Ok (fst kv, v)
                      else Ok kv) kw
  | _ => Ok kw
  end.

(** [Field.clone].  /repo/scheme/field.py:250-265.  The fuel bounds the nesting; running out of it
    is RecursionError. *)
Fixpoint clone (n : nat) (f : field) (kw : list (str * val)) : res field :=
  match n with
  | O => py RecursionError
  | S m =>
      match f with
      | FUndef _ => py AttributeError
      | Fld p k =>
          let kw1 := match aget $"default" kw with
                     | Some _ => kw
                     | None => kw ++ [($"default", p_default p)]
                     end in
          do kw2 <- copy_attrs (clone m) (attrs p k) kw1;
          do kw3 <- rezone_args k kw kw2;
          init (clone m) (cls_of k) kw3
      end
  end.

(** ** Descriptions *)

(** [_describe_parameter].  /repo/scheme/field.py:556-572; [desc] is [describe()] of a field. *)
Fixpoint describe_parameter (desc : field -> res val) (v : val) : res val :=
  match v with
  | VDict _ l | VSurr _ _ _ l =>
      do l' <- (fix go (l : list (val * val)) : res (list (val * val)) :=
                  match l with
                  | [] => Ok []
                  | (a, x) :: l1 => do y <- describe_parameter desc x; do l2 <- go l1; Ok ((a, y) :: l2)
                  end) l;
      Ok (VDict false l')
  | VList l =>
      do l' <- (fix go (l : list val) : res (list val) :=
                  match l with
                  | [] => Ok []
                  | x :: l1 => do y <- describe_parameter desc x; do l2 <- go l1; Ok (y :: l2)
                  end) l;
      Ok (VList l')
  | VTuple l =>
      do l' <- (fix go (l : list val) : res (list val) :=
                  match l with
                  | [] => Ok []
                  | x :: l1 => do y <- describe_parameter desc x; do l2 <- go l1; Ok (y :: l2)
                  end) l;
      Ok (VTuple l')
  | VField (Fld p k) => desc (Fld p k)
  | VNone | VBool _ | VInt _ | VFloat _ | VStr _ => Ok v
  | _ => py CannotDescribeError
  end.

(** [description[name] = ...], skipped when the value cannot be described.
    /repo/scheme/field.py:302-324 *)
Fixpoint put_all (desc : field -> res val) (l : list (str * val)) (acc : list (str * val))
  : res (list (str * val)) :=
  match l with
  | [] => Ok acc
  | (k, v) :: l' =>
      match describe_parameter desc v with
      | Ok w => put_all desc l' (aset k w acc)
      | Raise (XPy CannotDescribeError) => put_all desc l' acc
      | Raise x => Raise x
      end
  end.

(** [parameters] of each class with the default values: the ones of [Field]
    (/repo/scheme/field.py:161-163) followed by the declared ones; a redeclared parameter keeps its
    place (/repo/scheme/field.py:40-53). *)
Definition base_parameters : list (str * val) :=
  [($"name", VNone); ($"constant", VNone); ($"description", VNone); ($"default", VNone);
   ($"nonnull", VBool false); ($"ignore_null", VBool false); ($"required", VBool false);
   ($"title", VNone); ($"notes", VNone); ($"structural", VBool false)].
(** The attribute [parameters] of each class.  /repo/scheme/fields/*.py *)
Definition class_parameters (c : cls) : list (str * val) :=
  match c with
  | CBinary => [($"max_length", VNone); ($"min_length", VNone)]
  | CDate | CTime | CFloat | CInteger => [($"maximum", VNone); ($"minimum", VNone)]
  | CDateTime => [($"maximum", VNone); ($"minimum", VNone); ($"utc", VBool false)]
  | CDefinition => [($"valid_fields", VNone)]
  | CText => [($"max_length", VNone); ($"min_length", VNone); ($"strip", VBool true)]
  | CEmail => [($"max_length", VNone); ($"min_length", VNone); ($"strip", VBool false);
               ($"extended", VBool false); ($"multiple", VBool false)]
  | CEnumeration => [($"enumeration", VNone)]
  | CMap => [($"required_keys", VNone)]
  | CSequence => [($"min_length", VNone); ($"max_length", VNone); ($"unique", VBool false)]
  | CStructure => [($"strict", VBool true)]
  | CSurrogate => [($"valid_surrogates", VNone)]
  | CField | CBoolean | CDecimal | CError | CObject | CToken | CTuple | CUnion | CUUID => []
  end.

(** [value is default_value] for a default that is None or a boolean.  /repo/scheme/field.py:276-325 *)
Definition is_same (v d : val) : bool :=
  match v, d with
  | VNone, VNone => true
  | VBool a, VBool b => Bool.eqb a b
  | _, _ => false
  end.

(** [getattr(self, parameter, None)] for a declared parameter.  /repo/scheme/field.py:276-325 *)
Definition parameter_value (p : params) (k : kind) (name : str) : val :=
  if str_eqb name $"structural" then VBool (kind_structural k) else arg name (attrs p k).

(** [Field.describe] with [parameters=None]: aspects, then declared parameters different from
    their default, then the parameters given by the subclass.  /repo/scheme/field.py:300-325 *)
Definition describe_items (desc : field -> res val) (verbose : bool) (p : params) (k : kind)
  (given : list (str * val)) : res (list (str * val)) :=
  let declared := base_parameters ++ class_parameters (cls_of k) in
  let wanted :=
    flat_map (fun nd => let v := parameter_value p k (fst nd) in
                        if smem (fst nd) (map fst given) then []
                        else if negb (is_none v) && (verbose || negb (is_same v (snd nd)))
                        then [(fst nd, v)] else []) declared in
  put_all desc (filter (fun kv => negb (is_none (snd kv))) (p_aspects p)
                ++ wanted
                ++ filter (fun kv => verbose || negb (is_none (snd kv))) given)
          [($"fieldtype", VStr (kind_type k))].

(** An optional bound given to [describe] as text.
    /repo/scheme/fields/date.py:56-63, time.py:52-59, datetime.py:62-69, decimal.py:58-65 *)
Definition bound {A} (k : str) (text : A -> str) (o : option A) : list (str * val) :=
  match o with Some a => [(k, VStr (text a))] | None => [] end.

(** [_serialize_value] of the field in a slot.  /repo/scheme/fields/structure.py:144-168 *)
Definition slot_serialize (desc : field -> res val) (f : field) (v : val) : res val :=
  match f with
  | Fld _ k => serialize_value E desc k v
  | FUndef i => match e_undef E i with
                | Some (Fld _ k) => serialize_value E desc k v
                | _ => py AttributeError
                end
  end.

(** The description of the default of a structure.  /repo/scheme/fields/structure.py:148-171 *)
Definition describe_default (desc : field -> res val) (fields : list (str * field)) (d : val)
  : res val :=
  if truthy d then
    match as_dict d with
    | None => py AttributeError
    | Some items =>
        do l <- each (fun kv => match fst kv with
                                | VStr name => match aget name fields with
                                               | Some f => do v <- slot_serialize desc f (snd kv);
                                                           Ok (fst kv, v)
                                               | None => py KeyError
                                               end
                                | _ => py KeyError
                                end) items;
        Ok (VDict false l)
    end
  else Ok VNone.

(** [Structure._describe_structure].  /repo/scheme/fields/structure.py:511-516 *)
Definition describe_structure (dsc : field -> res val) (l : list (str * field)) : res val :=
  do l' <- each (fun kf => do d <- dsc (snd kf); Ok (VStr (fst kf), d)) l;
  Ok (VDict false l').

(** Parameters that the [describe] of each class passes on.  /repo/scheme/fields/ date.py:56-63,
    datetime.py:62-69, decimal.py:58-65, time.py:52-59, map.py:77-88, sequence.py:74-80,
    tuple.py:54-68, union.py:49-54, structure.py:148-174.  [dsc] is [describe(parameters, verbose)]
    of a nested field, [desc] is [describe()], [proc] is [process(value, OUTBOUND, True)]. *)
Definition describe_given (desc dsc : field -> res val) (proc : field -> val -> res val)
  (p : params) (k : kind) : res (list (str * val)) :=
  match k with
  | KDate mn mx => Ok (bound $"maximum" (date_text (e_pad E)) mx ++ bound $"minimum" (date_text (e_pad E)) mn)
  | KTime mn mx => Ok (bound $"maximum" tod_text mx ++ bound $"minimum" tod_text mn)
  | KDateTime mn mx _ => Ok (bound $"maximum" (datetime_text (e_pad E)) mx
                             ++ bound $"minimum" (datetime_text (e_pad E)) mn)
  | KDecimal mn mx => Ok (bound $"maximum" dec_text mx ++ bound $"minimum" dec_text mn)
  | KMap value key _ =>
      do dflt <- (if truthy (p_default p) then
                    match as_dict (p_default p) with
                    | None => py AttributeError
                    | Some l => do l' <- each (fun kv => do w <- proc value (snd kv); Ok (fst kv, w)) l;
                                Ok (VDict false l')
                    end
                  else Ok VNone);
      do vd <- dsc value;
      do kd <- match key with Some kf => do d <- dsc kf; Ok [($"key", d)] | None => Ok [] end;
      Ok ([($"value", vd); ($"default", dflt)] ++ kd)
  | KSequence it _ _ _ =>
      do dflt <- (if truthy (p_default p) then
                    match py_iter (p_default p) with
                    | None => py TypeError
                    | Some l => do l' <- each (proc it) l; Ok (VList l')
                    end
                  else Ok VNone);
      do d <- dsc it;
      Ok [($"item", d); ($"default", dflt)]
  | KTuple fs =>
      do ds <- each dsc fs;
      do dflt <- (if truthy (p_default p) then
                    match py_iter (p_default p) with
                    | None => py TypeError
                    | Some l => do l' <- each (fun fv => proc (fst fv) (snd fv)) (combine fs l);
                                Ok (VTuple l')
                    end
                  else Ok VNone);
      Ok [($"values", VList ds); ($"default", dflt)]
  | KUnion fs => do ds <- each dsc fs; Ok [($"fields", VList ds)]
  | KStructure (SPlain l) _ _ =>
      do sd <- describe_structure dsc l;
      do dflt <- describe_default desc l (p_default p);
      Ok [($"default", dflt); ($"polymorphic_on", VNone); ($"structure", sd)]
  | KStructure (SPoly on variants) _ _ =>
      do fields <- (if truthy (p_default p) then
                      match fparams E on, as_dict (p_default p) with
                      | Some q, Some items =>
                          match p_name q with
                          | None => outside
                          | Some name =>
                              match sget name items with
                              | None => py KeyError
                              | Some ident =>
                                  if hashable ident then
                                    match find (fun vl => veq L (fst vl) ident) variants with
                                    | Some (_, l) => Ok l
                                    | None => py KeyError
                                    end
                                  else py TypeError
                              end
                          end
                      | None, _ => py AttributeError
                      | _, None => py TypeError
                      end
                    else Ok []);
      do vs <- each (fun vl => do i <- slot_serialize desc on (fst vl);
                               do d <- describe_structure dsc (snd vl);
                               Ok (i, d)) variants;
      do od <- dsc on;
      do dflt <- describe_default desc fields (p_default p);
      Ok [($"default", dflt); ($"polymorphic_on", od);
          ($"structure", VDict false (fold_left (fun a x => dset L (fst x) (snd x) a) vs []))]
  | _ => Ok []
  end.

(** ** Reconstruction *)

(** The class named by a specification; the message of the ValueError is made with [% fieldtype], which
    fails for tuples that do not have exactly one element.  /repo/scheme/field.py:75-80 *)
Definition class_named (t : val) : res cls :=
  match t with
  | VStr s => match find_cls s with Some c => Ok c | None => py ValueError end
  | VTuple [x] => if hashable x then py ValueError else py TypeError
  | VTuple _ => py TypeError
  | _ => if hashable t then py ValueError else py TypeError
  end.

(** Keyword arguments must be strings, and ["cls"] is already taken by [construct] (["self"] by the
    constructor).  /repo/scheme/field.py:82, 265-273 *)
Definition as_kwargs (l : list (val * val)) : res (list (str * val)) :=
  do kw <- each (fun kv => match fst kv with VStr s => Ok (s, snd kv) | _ => py TypeError end) l;
  if smem $"cls" (map fst kw) || smem $"self" (map fst kw) then py TypeError else Ok kw.

(** [_construct_parameter] and [reconstruct] of a dict.  /repo/scheme/field.py:60-81, 539-554.
    [specification.pop('fieldtype')] changes the specification of the caller: the first component is
    the specification afterwards. *)
Fixpoint construct_parameter (n : nat) (v : val) : val * res val :=
  match v with
  | VDict _ l | VSurr _ _ _ l =>
      let rebuild l' := match v with
                        | VDict o _ => VDict o l'
                        | VSurr i s w _ => VSurr i s w l'
                        | _ => VNone
                        end in
      let run := (fix go (skip : bool) (l : list (val * val))
                    : list (val * val) * res (list (val * val)) :=
                    match l with
                    | [] => ([], Ok [])
                    | (a, x) :: l1 =>
                        if skip && match a with VStr s => str_eqb $"fieldtype" s | _ => false end
                        then go skip l1
                        else
                          match construct_parameter n x with
                          | (x', Raise e) => ((a, x') :: l1, Raise e)
                          | (x', Ok y) =>
                              match go skip l1 with
                              | (l2, Ok ys) => ((a, x') :: l2, Ok ((a, y) :: ys))
                              | (l2, Raise e) => ((a, x') :: l2, Raise e)
                              end
                          end
                    end) in
      match sget $"fieldtype" l with
      | None => match run false l with
                | (l', Ok ys) => (rebuild l', Ok (VDict false ys))
                | (l', Raise e) => (rebuild l', Raise e)
                end
      | Some t =>
          match class_named t with
          | Raise e => (rebuild (sdel $"fieldtype" l), Raise e)
          | Ok c =>
              match as_kwargs (sdel $"fieldtype" l) with
              | Raise e => (rebuild (sdel $"fieldtype" l), Raise e)
              | Ok _ =>
                  match run true l with
                  | (l', Raise e) => (rebuild l', Raise e)
                  | (l', Ok ys) =>
                      (rebuild l', do kw <- as_kwargs ys; do f <- init (clone n) c kw; Ok (VField f))
                  end
              end
          end
      end
  | VList l =>
      match (fix go (l : list val) : list val * res (list val) :=
               match l with
               | [] => ([], Ok [])
               | x :: l1 =>
                   match construct_parameter n x with
                   | (x', Raise e) => (x' :: l1, Raise e)
                   | (x', Ok y) =>
                       match go l1 with
                       | (l2, Ok ys) => (x' :: l2, Ok (y :: ys))
                       | (l2, Raise e) => (x' :: l2, Raise e)
                       end
                   end
               end) l with
      | (l', Ok ys) => (VList l', Ok (VList ys))
      | (l', Raise e) => (VList l', Raise e)
      end
  | VTuple l =>
      match (fix go (l : list val) : list val * res (list val) :=
               match l with
               | [] => ([], Ok [])
               | x :: l1 =>
                   match construct_parameter n x with
                   | (x', Raise e) => (x' :: l1, Raise e)
                   | (x', Ok y) =>
                       match go l1 with
                       | (l2, Ok ys) => (x' :: l2, Ok (y :: ys))
                       | (l2, Raise e) => (x' :: l2, Raise e)
                       end
                   end
               end) l with
      | (l', Ok ys) => (VTuple l', Ok (VTuple ys))
      | (l', Raise e) => (VTuple l', Raise e)
      end
  | _ => (v, Ok v)
  end.

(** [Field.reconstruct(specification)] without further parameters: the specification afterwards
    and the outcome.  /repo/scheme/field.py:60-81 *)
Definition reconstruct_st (n : nat) (spec : val) : val * res field :=
  match spec with
  | VField (Fld p k) => (spec, Ok (Fld p k))
  | VStr t => (spec, do c <- class_named (VStr t); init (clone n) c [])
  | VDict _ l | VSurr _ _ _ l =>
      match sget $"fieldtype" l with
      | None => (spec, py ValueError)
      | Some _ => match construct_parameter n spec with
                  | (s', Ok (VField f)) => (s', Ok f)
                  | (s', Ok _) => (s', py TypeError)
                  | (s', Raise e) => (s', Raise e)
                  end
      end
  | _ => (spec, py ValueError)
  end.
(** The field alone.  /repo/scheme/field.py:60-81 *)
Definition reconstruct (n : nat) (spec : val) : res field := snd (reconstruct_st n spec).

(** [describe(verbose=verbose)].  Fuel for nesting, as in [clone].
    /repo/scheme/field.py:276-325 and the [describe] of /repo/scheme/fields/*.py *)
Fixpoint describe (n : nat) (verbose : bool) (f : field) : res val :=
  match n with
  | O => py RecursionError
  | S m =>
      let desc := describe m false in
      let dsc := describe m verbose in
      let proc g v := process_gen E desc (reconstruct m) m g false Outbound true [] v in
      match f with
      | Fld p k =>
          do given <- describe_given desc dsc proc p k;
          do items <- describe_items desc verbose p k given;
          Ok (VDict false (strs items))
      | FUndef i => match e_undef E i with
                    | Some (Fld p k) =>
                        do given <- describe_given desc dsc proc p k;
                        do items <- describe_items desc verbose p k given;
                        Ok (VDict false (strs items))
                    | _ => py AttributeError
                    end
      end
  end.

End Construct.
