(** * Vocabulary for the claims about construction, cloning and descriptions (C43 to C45, C52). *)
From Verif Require Export Construct Spec.

(** Two fields that differ at most in what only documents them. *)
Definition alike (f g : field) : Prop := undocumented f = undocumented g.

(** Nesting: at most [n] levels of fields. *)
Fixpoint within (n : nat) (f : field) : Prop :=
  match n with
  | O => False
  | S m => match f with
           | FUndef _ => True
           | Fld _ k => forall g, In g (subfields k) -> within m g
           end
  end.

(** A value in which no field occurs. *)
Fixpoint fieldless (v : val) : bool :=
  match v with
  | VField _ => false
  | VList l | VTuple l => forallb fieldless l
  | VDict _ l => forallb (fun kv => fieldless (snd kv)) l
  | _ => true
  end.

(** What the constructors guarantee about a field (C52): lengths are not negative, texts split at
    blanks are never empty lists, the fields of a structure have names, a polymorphic structure
    has a required, named discriminator which every variant contains with its identity as constant, the bounds
    of a DateTime field are in its zone. *)
Definition natural (o : option Z) : Prop := match o with Some z => (0 <= z)%Z | None => True end.
Definition inhabited_list {A} (o : option (list A)) : Prop := o <> Some [].
Definition has_name (kf : str * field) : Prop :=
  match snd kf with
  | Fld p _ => p_name p <> None /\ (p_name p = Some [] -> fst kf = [])
  | FUndef _ => True
  end.
Definition in_zone (L : localtz) (utc : bool) (o : option datetime) : Prop :=
  match o with
  | Some dt => let z := if utc then TzUTC else TzLocal in
               dt_tz dt = Some z /\ astimezone L dt z z = Some dt
  | None => True
  end.
Definition values_ok (l : list val) : Prop :=
  forallb natively_serializable l = true /\ forallb fieldless l = true.

Definition constructed_kind (E : env) (k : kind) : Prop :=
  match k with
  | KBinary mn mx => natural mn /\ natural mx
  | KDateTime mn mx utc => in_zone (e_local E) utc mn /\ in_zone (e_local E) utc mx
  | KDefinition vf => inhabited_list vf
                      /\ forall l s, vf = Some l -> In s l -> exists c, cls_name c = s
  | KEmail mu ex mn mx => natural mn /\ natural mx /\ ~ (mu = true /\ ex = true)
  | KEnumeration l ig => values_ok l /\ forall i, ig = Some i -> values_ok i
  | KMap _ _ rk => forall l, rk = Some l -> forallb fieldless l = true
  | KSequence _ mn mx _ => natural mn /\ natural mx
  | KStructure d _ order =>
      inhabited_list order
      /\ match d with
         | SPlain l => Forall has_name l
         | SPoly on vs =>
             exists q kd name, on = Fld q kd /\ p_name q = Some name /\ p_required q = true
               /\ Forall (fun vd => fst vd <> VStr $"*" /\ fieldless (fst vd) = true
                                    /\ Forall has_name (snd vd)
                                    /\ exists c, aget name (snd vd) = Some c
                                         /\ alike c (Fld (with_constant q (fst vd)) kd)) vs
         end
  | KSurrogate vs => inhabited_list vs
  | KText _ mn mx _ => natural mn /\ natural mx
  | KTuple l | KUnion l => l <> []
  | _ => True
  end.

(** The constant and the documentation do not contain fields. *)
Definition constructed_params (p : params) : Prop :=
  fieldless (p_constant p) = true /\ fieldless (p_title p) = true
  /\ fieldless (p_description p) = true /\ fieldless (p_notes p) = true
  /\ forallb (fun kv => fieldless (snd kv)) (p_aspects p) = true.

(** A field with everything nested in it, no placeholders among it. *)
Definition sound (E : env) (f : field) : Prop :=
  complete f /\ everywhere (fun p k => constructed_params p /\ constructed_kind E k) f.

(** Overriding some of the parameters common to all fields. *)
Definition common_parameter (kv : str * val) : Prop :=
  match snd kv with
  | VBool _ => In (fst kv) [$"nonnull"; $"required"; $"ignore_null"; $"default"; $"constant";
                            $"title"; $"description"; $"notes"]
  | VNone | VStr _ => In (fst kv) [$"name"; $"default"; $"constant"; $"title"; $"description"; $"notes"]
  | v => fst kv = $"default"
         \/ In (fst kv) [$"constant"; $"title"; $"description"; $"notes"] /\ fieldless v = true
  end.

Definition given {A} (k : str) (kw : list (str * val)) (read : val -> A) (old : A) : A :=
  match aget k kw with Some v => read v | None => old end.
Definition read_bool (v : val) : bool := match v with VBool b => b | _ => false end.
Definition read_name (v : val) : option str := match v with VStr s => Some s | _ => None end.
Definition replaced (kw : list (str * val)) (p : params) : params :=
  {| p_name := given $"name" kw read_name (p_name p);
     p_nonnull := given $"nonnull" kw read_bool (p_nonnull p);
     p_required := given $"required" kw read_bool (p_required p);
     p_ignore_null := given $"ignore_null" kw read_bool (p_ignore_null p);
     p_default := given $"default" kw id (p_default p);
     p_constant := given $"constant" kw id (p_constant p);
     p_preprocessor := p_preprocessor p; p_extractor := p_extractor p;
     p_instantiator := p_instantiator p;
     p_title := given $"title" kw id (p_title p);
     p_description := given $"description" kw id (p_description p);
     p_notes := given $"notes" kw id (p_notes p);
     p_aspects := p_aspects p |}.

(** ... and some of those of a class: bounds, lengths, flags, the pattern, the number of segments. *)
Definition kind_parameter (k : kind) (kv : str * val) : Prop :=
  let (key, v) := kv in
  let bounds (ok : val -> Prop) := In key [$"minimum"; $"maximum"] /\ (v = VNone \/ ok v) in
  let lengths := In key [$"min_length"; $"max_length"] /\ (v = VNone \/ exists z, v = VInt z /\ (0 <= z)%Z) in
  let switch name := key = name /\ exists b, v = VBool b in
  match k with
  | KBinary _ _ | KEmail _ _ _ _ => lengths
  | KText _ _ _ _ => lengths \/ switch $"strip" \/ key = $"pattern" /\ (v = VNone \/ exists i, v = VObj i [])
  | KSequence _ _ _ _ => lengths \/ switch $"unique"
  | KInteger _ _ => bounds (fun v => exists z, v = VInt z)
  | KFloat _ _ => bounds (fun v => exists x, v = VFloat x)
  | KDate _ _ => bounds (fun v => exists d, v = VDate d)
  | KTime _ _ => bounds (fun v => exists t, v = VTime t)
  | KDecimal _ _ => bounds (fun v => exists d, v = VDec d)
  | KStructure _ _ _ => switch $"strict"
  | KToken _ => key = $"segments" /\ (v = VNone \/ exists z, v = VInt z)
  | _ => False
  end.

Definition read_int (v : val) : option Z := match v with VInt z => Some z | _ => None end.
Definition read_float (v : val) : option spec_float := match v with VFloat x => Some x | _ => None end.
Definition read_date (v : val) : option date := match v with VDate d => Some d | _ => None end.
Definition read_time (v : val) : option tod := match v with VTime t => Some t | _ => None end.
Definition read_dec (v : val) : option dec := match v with VDec d => Some d | _ => None end.
Definition read_pattern (v : val) : option nat := match v with VObj i _ => Some i | _ => None end.
Definition rekind (kw : list (str * val)) (k : kind) : kind :=
  let ints key o := given key kw read_int o in
  match k with
  | KBinary a b => KBinary (ints $"min_length" a) (ints $"max_length" b)
  | KEmail m e a b => KEmail m e (ints $"min_length" a) (ints $"max_length" b)
  | KText p a b s => KText (given $"pattern" kw read_pattern p) (ints $"min_length" a) (ints $"max_length" b)
                           (given $"strip" kw read_bool s)
  | KSequence i a b u => KSequence i (ints $"min_length" a) (ints $"max_length" b) (given $"unique" kw read_bool u)
  | KInteger a b => KInteger (ints $"minimum" a) (ints $"maximum" b)
  | KFloat a b => KFloat (given $"minimum" kw read_float a) (given $"maximum" kw read_float b)
  | KDate a b => KDate (given $"minimum" kw read_date a) (given $"maximum" kw read_date b)
  | KTime a b => KTime (given $"minimum" kw read_time a) (given $"maximum" kw read_time b)
  | KDecimal a b => KDecimal (given $"minimum" kw read_dec a) (given $"maximum" kw read_dec b)
  | KStructure d s o => KStructure d (given $"strict" kw read_bool s) o
  | KToken n => KToken (ints $"segments" n)
  | _ => k
  end.
Definition parameter (k : kind) (kv : str * val) : Prop := common_parameter kv \/ kind_parameter k kv.

(** The documented types of the parameters of each class (docstrings and signatures in
    /repo/scheme/fields/).  A boolean is an integer.  Bounds of dates, times and decimals may be
    texts.  Texts split at blanks stand for lists of strings. *)
Definition optional (P : val -> Prop) (v : val) : Prop := v = VNone \/ P v.
Definition an_int (v : val) : Prop := (exists z, v = VInt z) \/ exists b, v = VBool b.
Definition a_length (v : val) : Prop := (exists z, v = VInt z /\ (0 <= z)%Z) \/ exists b, v = VBool b.
Definition a_text (good : str -> Prop) (v : val) : Prop := exists s, v = VStr s /\ good s.
Definition a_list (good : val -> Prop) (v : val) : Prop := exists l, (v = VList l \/ v = VTuple l) /\ Forall good l.
Definition a_field (v : val) : Prop := exists f, v = VField f.
Definition serializable (v : val) : Prop :=
  match v with
  | VNone | VBool _ | VInt _ | VFloat _ | VStr _ | VList _ | VTuple _ | VDict _ _ | VSurr _ _ _ _ => True
  | _ => False
  end.
Definition convertible (E : env) (utc : bool) (dt : datetime) : Prop := exists d, dt_normalize E utc dt = Ok d.
Definition documented (E : env) (c : cls) (kw : list (str * val)) : Prop :=
  let a k := arg k kw in
  let both k1 k2 P := optional P (a k1) /\ optional P (a k2) in
  match c with
  | CField | CBoolean | CError | CObject | CUUID => True
  | CBinary => both $"min_length" $"max_length" a_length
  | CText => both $"min_length" $"max_length" a_length
      /\ optional (fun v => (exists i l, v = VObj i l) \/ a_text (fun s => e_compile E s <> None) v) (a $"pattern")
  | CEmail => both $"min_length" $"max_length" a_length /\ ~ (flag $"multiple" kw = true /\ flag $"extended" kw = true)
  | CDate => both $"minimum" $"maximum"
      (fun v => (exists d, v = VDate d) \/ a_text (fun s => parse_date (e_udigit E) s <> None) v)
  | CTime => both $"minimum" $"maximum"
      (fun v => (exists t, v = VTime t) \/ a_text (fun s => parse_tod (e_udigit E) s <> None) v)
  | CDateTime => both $"minimum" $"maximum"
      (fun v => (exists dt, v = VDateTime dt /\ convertible E (flag $"utc" kw) dt)
                \/ a_text (fun s => exists dt, parse_datetime (e_udigit E) s = Some dt
                                               /\ convertible E (flag $"utc" kw) dt) v)
  | CDecimal => both $"minimum" $"maximum"
      (fun v => (exists d, v = VDec d) \/ a_text (fun s => to_dec (e_udigit E) (VStr s) <> None) v)
  | CFloat => both $"minimum" $"maximum" (fun v => exists x, v = VFloat x)
  | CInteger => both $"minimum" $"maximum" an_int
  | CToken => optional an_int (a $"segments")
  | CDefinition =>
      truthy (a $"valid_fields") = false /\ (forall s, a $"valid_fields" <> VStr s)
      \/ a_text (fun s => Forall (fun w => exists c, cls_name c = w) (split_space s)) (a $"valid_fields")
      \/ a_list (a_text (fun w => exists c, cls_name c = w)) (a $"valid_fields")
  | CEnumeration =>
      (a_text (fun _ => True) (a $"enumeration") \/ a_list serializable (a $"enumeration"))
      /\ optional (fun v => a_text (fun _ => True) v \/ exists l, v = VList l /\ Forall serializable l)
                  (a $"ignored_values")
  | CMap => a_field (a $"value") /\ optional (fun v => exists p k, v = VField (Fld p k)) (a $"key")
      /\ optional (fun v => a_text (fun _ => True) v \/ a_list (fun _ => True) v) (a $"required_keys")
  | CSequence => a_field (a $"item") /\ both $"min_length" $"max_length" a_length
  | CTuple => a_list a_field (a $"values") /\ truthy (a $"values") = true
  | CUnion => a_list a_field (a $"fields") /\ truthy (a $"fields") = true
  | CSurrogate => True
  | CStructure => True
  end.

(** Arguments of a constructor: the slots of a class hold fields (or containers of fields) that are
    sound and nested at most [n] deep; the other arguments, except defaults, hold no fields. *)
Fixpoint made_of (E : env) (n : nat) (v : val) : Prop :=
  match v with
  | VField f => sound E f /\ within n f
  | VList l | VTuple l => (fix all (l : list val) : Prop :=
                             match l with [] => True | x :: l' => made_of E n x /\ all l' end) l
  | VDict _ l | VSurr _ _ _ l =>
      (fix all (l : list (val * val)) : Prop :=
         match l with [] => True | (a, x) :: l' => fieldless a = true /\ made_of E n x /\ all l' end) l
  | _ => True
  end.
Definition slots (c : cls) : list str :=
  match c with
  | CMap => [$"value"; $"key"]
  | CSequence => [$"item"]
  | CStructure => [$"structure"; $"polymorphic_on"]
  | CTuple => [$"values"]
  | CUnion => [$"fields"]
  | _ => []
  end.
Definition arguments (E : env) (n : nat) (c : cls) (kw : list (str * val)) : Prop :=
  forall key v, In (key, v) kw ->
    if smem key (slots c) then made_of E n v else key = $"default" \/ fieldless v = true.

(** A specification without any of its ['fieldtype'] entries, at every level. *)
Definition is_fieldtype (v : val) : bool := match v with VStr s => str_eqb $"fieldtype" s | _ => false end.
Fixpoint untyped (v : val) : val :=
  let entries := fix go (l : list (val * val)) : list (val * val) :=
                   match l with
                   | [] => []
                   | (a, x) :: l' => if is_fieldtype a then go l' else (a, untyped x) :: go l'
                   end in
  match v with
  | VList l => VList (map untyped l)
  | VTuple l => VTuple (map untyped l)
  | VDict o l => VDict o (entries l)
  | VSurr i s w l => VSurr i s w (entries l)
  | _ => v
  end.
