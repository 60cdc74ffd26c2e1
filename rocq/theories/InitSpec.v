(** * Vocabulary for what the constructors of fields store (C81), and for reconstruction (C82). *)
From Verif Require Export ConSpec BuildSpec.
Open Scope Z_scope.

(** An optional argument: [None], or something that stands for the value stored.
    /repo/scheme/fields/*.py: [__init__] *)
Definition stands {A} (P : val -> A -> Prop) (v : val) (o : option A) : Prop :=
  match o with None => v = VNone | Some a => v <> VNone /\ P v a end.

(** Integers; a boolean counts as 0 or 1.  /repo/scheme/fields/integer.py:22-25 *)
Definition int_of (v : val) (z : Z) : Prop := v = VInt z \/ exists b : bool, v = VBool b /\ z = (if b then 1 else 0).
Definition length_of (v : val) (z : Z) : Prop := int_of v z /\ 0 <= z.
(** Bounds, native or as texts.  /repo/scheme/fields/date.py:31-43, time.py:27-39, decimal.py:27-45 *)
Definition date_of (E : env) (v : val) (d : date) : Prop :=
  v = VDate d \/ exists s, v = VStr s /\ parse_date (e_udigit E) s = Some d.
Definition time_of (E : env) (v : val) (t : tod) : Prop :=
  v = VTime t \/ exists s, v = VStr s /\ parse_tod (e_udigit E) s = Some t.
Definition decimal_of (E : env) (v : val) (d : dec) : Prop :=
  v = VDec d \/ exists s, v = VStr s /\ to_dec (e_udigit E) (VStr s) = Some d.
(** ... those of DateTime fields are taken to the time zone of the field.
    /repo/scheme/fields/datetime.py:33-45 *)
Definition datetime_of (E : env) (utc : bool) (v : val) (dt : datetime) : Prop :=
  exists dt0, (v = VDateTime dt0 \/ exists s, v = VStr s /\ parse_datetime (e_udigit E) s = Some dt0)
              /\ dt_normalize E utc dt0 = Ok dt.
(** A pattern, compiled or as a text.  /repo/scheme/fields/text.py:35-36 *)
Definition pattern_of (E : env) (v : val) (i : nat) : Prop :=
  (exists attrs, v = VObj i attrs) \/ exists s, v = VStr s /\ e_compile E s = Some i.
(** A list, or a text that is cut at blanks.  /repo/scheme/fields/enumeration.py:20-40, map.py:56-60 *)
Definition list_of (v : val) (l : list val) : Prop :=
  v = VList l \/ v = VTuple l \/ exists s ws, v = VStr s /\ words s ws /\ l = map VStr ws.
(** Names: nothing, a list of texts, or a text that is cut at blanks.
    /repo/scheme/fields/definition.py:22-37, surrogate.py:23-28 *)
Definition names_of (v : val) (o : option (list str)) : Prop :=
  match o with
  | None => truthy v = false /\ forall s, v <> VStr s
  | Some l => l <> [] /\ list_of v (map VStr l)
  end.

(** ... the keys of a dict also serve for Surrogate fields. *)
Definition surrogates_of (v : val) (o : option (list str)) : Prop :=
  names_of v o \/ exists l d, o = Some l /\ l <> [] /\ map fst d = map VStr l
    /\ ((exists od, v = VDict od d) \/ exists i s ver, v = VSurr i s ver d).

(** The class of the field and its own parameters, as stored by the constructor.  With [nonempty] the
    minimum length of Binary, Text and Email fields is one unless it is given.
    /repo/scheme/fields/*.py: [__init__] (lines at [class_args]) *)
Definition least (kw : list (str * val)) (o : option Z) : Prop :=
  if truthy (arg $"nonempty" kw) && is_none (arg $"min_length" kw) then o = Some 1
  else stands length_of (arg $"min_length" kw) o.
Definition default_true (k : str) (kw : list (str * val)) (b : bool) : Prop :=
  match aget k kw with Some v => b = truthy v | None => b = true end.
Definition stored (E : env) (c : cls) (kw : list (str * val)) (k : kind) : Prop :=
  let a x := arg x kw in
  match c with
  | CField => k = KField
  | CBoolean => k = KBoolean
  | CError => k = KError
  | CObject => k = KObject
  | CUUID => k = KUUID
  | CBinary => exists mn mx, k = KBinary mn mx /\ least kw mn /\ stands length_of (a $"max_length") mx
  | CText => exists pat mn mx strip, k = KText pat mn mx strip /\ stands (pattern_of E) (a $"pattern") pat
      /\ least kw mn /\ stands length_of (a $"max_length") mx /\ default_true $"strip" kw strip
  | CEmail => exists mn mx, k = KEmail (truthy (a $"multiple")) (truthy (a $"extended")) mn mx
      /\ ~ (truthy (a $"multiple") = true /\ truthy (a $"extended") = true)
      /\ least kw mn /\ stands length_of (a $"max_length") mx
  | CDate => exists mn mx, k = KDate mn mx
      /\ stands (date_of E) (a $"minimum") mn /\ stands (date_of E) (a $"maximum") mx
  | CTime => exists mn mx, k = KTime mn mx
      /\ stands (time_of E) (a $"minimum") mn /\ stands (time_of E) (a $"maximum") mx
  | CDateTime => exists mn mx, k = KDateTime mn mx (truthy (a $"utc"))
      /\ stands (datetime_of E (truthy (a $"utc"))) (a $"minimum") mn
      /\ stands (datetime_of E (truthy (a $"utc"))) (a $"maximum") mx
  | CDecimal => exists mn mx, k = KDecimal mn mx
      /\ stands (decimal_of E) (a $"minimum") mn /\ stands (decimal_of E) (a $"maximum") mx
  | CFloat => exists mn mx, k = KFloat mn mx
      /\ stands (fun v x => v = VFloat x) (a $"minimum") mn /\ stands (fun v x => v = VFloat x) (a $"maximum") mx
  | CInteger => exists mn mx, k = KInteger mn mx
      /\ stands int_of (a $"minimum") mn /\ stands int_of (a $"maximum") mx
  | CToken => exists n, k = KToken n /\ stands int_of (a $"segments") n
  | CDefinition => exists o, k = KDefinition o /\ names_of (a $"valid_fields") o
      /\ forall l s, o = Some l -> In s l -> exists c, cls_name c = s
  | CSurrogate => exists o, k = KSurrogate o /\ surrogates_of (a $"valid_surrogates") o
  | CEnumeration => exists l ig, k = KEnumeration l ig /\ list_of (a $"enumeration") l
      /\ Forall serializable l
      /\ stands (fun v i => list_of v i /\ (forall t, v <> VTuple t) /\ Forall serializable i) (a $"ignored_values") ig
  | CMap => exists v key req, k = KMap v key req /\ a $"value" = VField v
      /\ stands (fun x f => x = VField f /\ exists p kd, f = Fld p kd) (a $"key") key
      /\ stands list_of (a $"required_keys") req
  | CSequence => exists f mn mx, k = KSequence f mn mx (truthy (a $"unique")) /\ a $"item" = VField f
      /\ stands length_of (a $"min_length") mn /\ stands length_of (a $"max_length") mx
  | CTuple => exists l, k = KTuple l /\ l <> []
      /\ (a $"values" = VList (map VField l) \/ a $"values" = VTuple (map VField l))
  | CUnion => exists l, k = KUnion l /\ l <> []
      /\ (a $"fields" = VList (map VField l) \/ a $"fields" = VTuple (map VField l))
  | CStructure => True
  end.

(** An instantiator or extractor: an object, or the dotted name of one; its special attribute is called in
    its place.  /repo/scheme/field.py:179-187 *)
Inductive called (E : env) (special : str) : val -> option nat -> Prop :=
| called_none : called E special VNone None
| called_object : forall i attrs, aget special attrs = None -> called E special (VObj i attrs) (Some i)
| called_special : forall i attrs j l, aget special attrs = Some (VObj j l) -> called E special (VObj i attrs) (Some j)
| called_import : forall s o r, e_import E s = Some o -> (forall t, o <> VStr t) -> called E special o r ->
    called E special (VStr s) r.

(** An argument that becomes an aspect: it is no parameter of the class or of [Field], its name does not
    begin with an underscore and its value is not null.  /repo/scheme/field.py:171-174, 210-212 *)
Definition additional (c : cls) (kw : list (str * val)) (name : str) (v : val) : Prop :=
  In (name, v) kw /\ ~ In name (class_args c) /\ ~ In name base_args
  /\ (forall s, name <> 95%N :: s) /\ v <> VNone.

(** The aspects given as such: anything false, or a dict.  /repo/scheme/field.py:189 *)
Definition aspects_given (v : val) (l : list (str * val)) : Prop :=
  (truthy v = false /\ l = []) \/ exists o, v = VDict o (map (fun kv => (VStr (fst kv), snd kv)) l).

(** The parameters common to all classes, as stored by the constructor of [c].
    /repo/scheme/field.py:171-212, fields/binary.py:22-25, text.py:29-32 *)
Record common (E : env) (c : cls) (kw : list (str * val)) (p : params) : Prop := {
  co_name : stands (fun v s => v = VStr s) (arg $"name" kw) (p_name p);
  co_nonnull : p_nonnull p = truthy (arg $"nonnull" kw) || truthy (arg $"nonempty" kw);
  co_required : p_required p = truthy (arg $"required" kw) || truthy (arg $"nonempty" kw);
  co_ignore : p_ignore_null p = truthy (arg $"ignore_null" kw);
  co_default : p_default p = arg $"default" kw;
  co_constant : p_constant p = arg $"constant" kw;
  co_preprocessor : stands (fun v i => exists l, v = VObj i l) (arg $"preprocessor" kw) (p_preprocessor p);
  co_instantiator : called E $"__instantiate__" (arg $"instantiator" kw) (p_instantiator p);
  co_extractor : called E $"__extract__" (arg $"extractor" kw) (p_extractor p);
  co_title : p_title p = arg $"title" kw;
  co_description : p_description p = arg $"description" kw;
  co_notes : p_notes p = arg $"notes" kw;
  co_aspects : exists l, aspects_given (arg $"aspects" kw) l
    /\ forall name v, aget name (p_aspects p) = Some v
         <-> additional c kw name v \/ (forall w, ~ additional c kw name w) /\ aget name l = Some v;
  co_names : forall v, In ([], v) kw -> False
}.

(** The entries of a dict or of a surrogate, which is a dict.  /repo/scheme/surrogate.py:21 *)
Definition entries (v : val) (l : list (val * val)) : Prop :=
  (exists o, v = VDict o l) \/ exists i s ver, v = VSurr i s ver l.

(** What a parameter of a specification stands for: a dict with ['fieldtype'] stands for a field of the
    class it names, made from what its other entries stand for; other dicts, lists and tuples are gone
    through; anything else stands for itself.  /repo/scheme/field.py:60-82, 539-554 *)
Inductive built (E : env) (n : nat) : val -> val -> Prop :=
| built_field : forall v items c kw f,
    entries v (map (fun kv => (VStr (fst kv), snd kv)) items) ->
    aget $"fieldtype" items = Some (VStr (cls_name c)) ->
    ~ In $"cls" (map fst items) -> ~ In $"self" (map fst items) ->
    Forall2 (fun a b => fst a = fst b /\ built E n (snd a) (snd b)) (others [$"fieldtype"] items) kw ->
    init E (clone E n) c kw = Ok f ->
    built E n v (VField f)
| built_dict : forall v l l', entries v l -> (forall t, ~ In (VStr $"fieldtype", t) l) ->
    Forall2 (fun a b => fst a = fst b /\ built E n (snd a) (snd b)) l l' -> built E n v (VDict false l')
| built_list : forall l l', Forall2 (built E n) l l' -> built E n (VList l) (VList l')
| built_tuple : forall l l', Forall2 (built E n) l l' -> built E n (VTuple l) (VTuple l')
| built_other : forall v, (forall l, ~ entries v l) -> (forall l, v <> VList l) -> (forall l, v <> VTuple l) ->
    built E n v v.
