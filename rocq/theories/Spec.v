(** * Vocabulary of the property statements.

    Small definitions that say, without reference to the functions of the model, what the
    statements talk about. *)
From Verif Require Export Process.

(** The path reported for a field processed at the top level ([process(value)]: the ancestry is
    empty) is its name, or its type in parentheses (/repo/scheme/field.py:246-248); below the top
    level it is the path given by the parent. *)
Definition path_of (p : params) (k : kind) (anc : list str) : list str :=
  match anc with
  | [] => match p_name p with
          | Some (c :: s) => [c :: s]
          | _ => [$"(" ++ kind_type k ++ $")"]
          end
  | _ => anc
  end.

(** An error carrying one token and nothing else (/repo/scheme/exceptions.py:203-212). *)
Definition just_token (c : ecls) (path : list str) (tok : str) : res val :=
  Raise (XErr {| er_cls := c;
                 er_errors := [VDict false [(VStr $"token", VStr tok)]];
                 er_identity := path;
                 er_structure := None;
                 er_hasfield := true |}).

(** A [ValidationError] with the single token [tok]. *)
Definition fails (path : list str) (tok : str) : res val := just_token CValidation path tok.
(** An [InvalidTypeError] with the single token [invalid]. *)
Definition invalid_type (path : list str) : res val := just_token CInvalidType path $"invalid".

(** A [ValidationError] whose content is the structure [s]. *)
Definition fails_with (path : list str) (s : val) : res val :=
  Raise (XErr {| er_cls := CValidation; er_errors := []; er_identity := path;
                 er_structure := Some s; er_hasfield := true |}).

(** Neither a preprocessor nor a constant. *)
Definition plain (p : params) : Prop := p_preprocessor p = None /\ p_constant p = VNone.

(** The value is taken as a native one: not unserialized first. *)
Definition native (ph : phase) (ser : bool) : Prop := ~ (ph = Inbound /\ ser = true).

(** Optional bounds. *)
Definition at_least {A} (le : A -> A -> Prop) (bound : option A) (x : A) : Prop :=
  forall m, bound = Some m -> le m x.
Definition at_most {A} (le : A -> A -> Prop) (bound : option A) (x : A) : Prop :=
  forall m, bound = Some m -> le x m.

(** Null handling common to all fields. *)
Definition null_ok (p : params) (v r : val) : Prop := v = VNone /\ p_nonnull p = false /\ r = VNone.

(** ** Floats *)

(** The rational number denoted by a finite float: sign, mantissa, power of two. *)
Definition float_Q (f : spec_float) : Q :=
  match f with
  | S754_finite s m e => (inject_Z (if s then Zneg m else Zpos m) * Qpower (2 # 1) e)%Q
  | _ => 0%Q
  end.

(** Numerical order on floats that are not NaN. *)
Definition float_le (a b : spec_float) : Prop :=
  match a, b with
  | S754_infinity true, _ => True
  | _, S754_infinity false => True
  | S754_infinity false, _ => False
  | _, S754_infinity true => False
  | _, _ => (float_Q a <= float_Q b)%Q
  end.

(** ** Text *)

(** [t] is [s] without its leading and trailing whitespace. *)
Definition stripped (s t : str) : Prop :=
  exists a b,
    s = a ++ t ++ b
    /\ Forall (fun c => is_space c = true) a
    /\ Forall (fun c => is_space c = true) b
    /\ (forall c r, t = c :: r -> is_space c = false)
    /\ (forall c r, t = r ++ [c] -> is_space c = false).

(** The text a Text field works on: stripped unless [strip=False]. *)
Definition canonical_text (st : bool) (s t : str) : Prop :=
  if st then stripped s t else t = s.

(** The same field parameters with another [constant]. *)
Definition with_constant (p : params) (c : val) : params :=
  {| p_name := p_name p; p_nonnull := p_nonnull p; p_required := p_required p;
     p_ignore_null := p_ignore_null p; p_default := p_default p; p_constant := c;
     p_preprocessor := p_preprocessor p; p_extractor := p_extractor p;
     p_instantiator := p_instantiator p; p_title := p_title p; p_description := p_description p;
     p_notes := p_notes p; p_aspects := p_aspects p |}.

(** Kinds handled by [Field.process] with the conversions of [unserialize_value] and
    [serialize_value]. *)
Definition basic {F} (k : kindP val F) : bool :=
  match k with
  | KSequence _ _ _ _ | KMap _ _ _ | KTuple _ | KUnion _ | KStructure _ _ _ | KSurrogate _ => false
  | _ => true
  end.

(** ** Numerals *)

(** The number written with the decimal digits [ds], most significant first. *)
Fixpoint place_value (ds : list N) : Z :=
  match ds with
  | [] => 0
  | d :: r => Z.of_N d * 10 ^ Z.of_nat (length r) + place_value r
  end%Z.

(** [s] is a decimal rendering of [z]: blanks, an optional sign, ASCII digits, blanks. *)
Definition int_text (s : str) (z : Z) : Prop :=
  exists a sign ds b,
    s = a ++ sign ++ map (fun d => 48 + d)%N ds ++ b
    /\ Forall (fun c => is_ascii_space c = true) a
    /\ Forall (fun c => is_ascii_space c = true) b
    /\ ds <> [] /\ Forall (fun d => d < 10)%N ds
    /\ ((sign = [] \/ sign = $"+") /\ z = place_value ds
        \/ sign = $"-" /\ z = (- place_value ds)%Z).

(** The rational number denoted by a finite decimal. *)
Definition dec_Q (d : dec) : Q :=
  match d with
  | DFin neg c e => (inject_Z (if neg then - Z.of_N c else Z.of_N c) * Qpower (10 # 1) e)%Q
  | _ => 0%Q
  end.

Definition dec_is_nan (d : dec) : bool := match d with DNan _ _ _ => true | _ => false end.

(** Numerical order on decimals that are not NaN. *)
Definition decimal_le (a b : dec) : Prop :=
  match a, b with
  | DInf true, _ => True
  | _, DInf false => True
  | DInf false, _ => False
  | _, DInf true => False
  | _, _ => (dec_Q a <= dec_Q b)%Q
  end.

(** ** Binary *)

(** The characters of URL-safe base64 data (RFC 4648, section 5), without the padding [=]. *)
Definition urlsafe_char (c : N) : Prop :=
  (65 <= c <= 90 \/ 97 <= c <= 122 \/ 48 <= c <= 57 \/ c = 45 \/ c = 95)%N.

(** A character that carries data for the decoder: the standard alphabet is accepted too. *)
Definition base64_char (c : N) : bool :=
  ((65 <=? c) && (c <=? 90) || (97 <=? c) && (c <=? 122) || (48 <=? c) && (c <=? 57)
   || (c =? 43) || (c =? 47) || (c =? 45) || (c =? 95))%N.

(** Bytes are numbers below 256. *)
Definition bytes_ok (b : list N) : Prop := Forall (fun x => x < 256)%N b.

(** ** Containers *)

(** Two lists of the same length related position by position. *)
Definition pointwise {A B} (R : nat -> A -> B -> Prop) (l : list A) (m : list B) : Prop :=
  length l = length m
  /\ forall i a b, nth_error l i = Some a -> nth_error m i = Some b -> R i a b.

(** Path segment of a position: [[0]], [[1]], ... *)
Definition index_seg (i : nat) : str := $"[" ++ Z_text (Z.of_nat i) ++ $"]".

(** Outcomes of a call: a result, a structural error (the value is rejected), any other exception. *)
Definition accepted (o : res val) : Prop := exists r, o = Ok r.
Definition rejected (o : res val) : Prop := exists e, o = Raise (XErr e).
Definition orderly (o : res val) : Prop := forall x, o <> Raise (XPy x).

(** What is recorded in the result or in the error structure for a child with outcome [o]: its
    result, or its error. *)
Definition recorded (o : res val) (e : val) : Prop :=
  o = Ok e \/ exists x, o = Raise (XErr x) /\ e = VErr x.

(** The field in a slot is defined, with parameters [q] (a placeholder must have been given its
    definition). *)
Definition defined_as (E : env) (f : field) (q : params) : Prop :=
  match f with
  | Fld p _ => p = q
  | FUndef i => exists k, e_undef E i = Some (Fld q k)
  end.
Definition defined (E : env) (f : field) : Prop := exists q, defined_as E f q.

(** The keys of a dict are pairwise different. *)
Fixpoint distinct (L : localtz) (l : list val) : Prop :=
  match l with
  | [] => True
  | k :: l' => (forall k', In k' l' -> veq L k k' = false) /\ distinct L l'
  end.

(** [str(k)] and ['%s' % k]: a tuple on the right of [%] is the list of arguments, so only a
    1-tuple is possible. *)
Definition str_of (E : env) (k : val) : str :=
  match k with VStr s => s | VInt z => Z_text z | _ => e_str E k end.
Definition percent_s (E : env) (k : val) : option str :=
  match k with
  | VTuple [x] => Some (str_of E x)
  | VTuple _ => None
  | _ => Some (str_of E k)
  end.
(** Path segment of a map key. *)
Definition key_segment (s : str) : str := $"[" ++ s ++ $"]".
(** Path segment of a structure key. *)
Definition name_segment (s : str) : str := $"." ++ s.

(** The error with one token, as stored in an error structure. *)
Definition token_error (path : list str) (tok : str) : val :=
  VErr {| er_cls := CValidation; er_errors := [VDict false [(VStr $"token", VStr tok)]];
          er_identity := path; er_structure := None; er_hasfield := true |}.

(** The dict [acc] after the assignments [es], in order. *)
Definition set_all (L : localtz) (es acc : list (val * val)) : list (val * val) :=
  fold_left (fun a ke => dset L (fst ke) (snd ke) a) es acc.

(** ** Structures *)

(** The keys a structure visits, in order: those of the definition, or those of a key order that is
    not empty, each with its field. *)
Definition visits (defn : list (str * field)) (key_order : option (list str))
  (order : list (str * field)) : Prop :=
  match key_order with
  | Some (o :: os) => map fst order = o :: os /\ incl order defn
  | _ => order = defn
  end.
Definition has_order (key_order : option (list str)) : bool :=
  match key_order with Some (_ :: _) => true | _ => false end.

(** What becomes of one key [k] with field [f]: [None] when it is left out, otherwise the outcome
    recorded for it.  [run k f v] is what the field does with [v]. *)
Inductive fate (E : env) (run : str -> field -> val -> res val) (ph : phase) (partial : bool)
  (path : list str) (items : list (val * val)) : str * field -> option (res val) -> Prop :=
| fate_given : forall k f q v,
    defined_as E f q -> In (VStr k, v) items -> ~ (p_ignore_null q = true /\ v = VNone) ->
    fate E run ph partial path items (k, f) (Some (run k f v))
| fate_null_ignored : forall k f q,
    defined_as E f q -> In (VStr k, VNone) items -> p_ignore_null q = true ->
    fate E run ph partial path items (k, f) None
| fate_default : forall k f q,
    defined_as E f q -> (forall v, ~ In (VStr k, v) items) -> partial = false ->
    ph = Inbound -> p_default q <> VNone ->
    fate E run ph partial path items (k, f) (Some (run k f (p_default q)))
| fate_required : forall k f q,
    defined_as E f q -> (forall v, ~ In (VStr k, v) items) -> partial = false ->
    (ph = Outbound \/ p_default q = VNone) -> p_required q = true ->
    fate E run ph partial path items (k, f) (Some (fails path $"required"))
| fate_optional : forall k f q,
    defined_as E f q -> (forall v, ~ In (VStr k, v) items) -> partial = false ->
    (ph = Outbound \/ p_default q = VNone) -> p_required q = false ->
    fate E run ph partial path items (k, f) None
| fate_partial : forall k f,
    (forall v, ~ In (VStr k, v) items) -> partial = true ->
    fate E run ph partial path items (k, f) None.

(** The entries made from the visited keys: nothing for a key that is left out, otherwise what [R]
    relates to its outcome. *)
Inductive gathered (fates : str * field -> option (res val) -> Prop) (R : res val -> val -> Prop)
  : list (str * field) -> list (val * val) -> Prop :=
| gathered_nil : gathered fates R [] []
| gathered_skip : forall kf l es,
    fates kf None -> gathered fates R l es -> gathered fates R (kf :: l) es
| gathered_add : forall k f o e l es,
    fates (k, f) (Some o) -> R o e -> gathered fates R l es ->
    gathered fates R ((k, f) :: l) ((VStr k, e) :: es).

(** [l] is [m] with some elements left out. *)
Inductive sublist {A} : list A -> list A -> Prop :=
| sublist_nil : sublist [] []
| sublist_skip : forall x l m, sublist l m -> sublist l (x :: m)
| sublist_take : forall x l m, sublist l m -> sublist (x :: l) (x :: m).

(** ** Whole schemas *)

(** [P] holds of the field and of all its subfields, at any depth. *)
Inductive everywhere (P : params -> kind -> Prop) : field -> Prop :=
| everywhere_undef : forall i, everywhere P (FUndef i)
| everywhere_fld : forall p k,
    P p k -> (forall g, In g (subfields k) -> everywhere P g) -> everywhere P (Fld p k).

(** ... and of the fields the placeholders stand for. *)
Definition throughout (E : env) (P : params -> kind -> Prop) (f : field) : Prop :=
  everywhere P f /\ forall i g, e_undef E i = Some g -> everywhere P g.

(** Definitions are dicts: no key twice; a key order lists defined keys, none twice; the variants of
    a polymorphic structure carry the discriminator, a scalar field, with their identity as constant
    (/repo/scheme/fields/structure.py:96-99), and there is no key order. *)
Definition well_keyed (p : params) (k : kind) : Prop :=
  match k with
  | KStructure (SPlain d) _ ko =>
      NoDup (map fst d)
      /\ match ko with Some o => NoDup o /\ incl o (map fst d) | None => True end
  | KStructure (SPoly on vs) _ ko =>
      ko = None
      /\ exists q kd name, on = Fld q kd /\ p_name q = Some name
         /\ basic kd = true /\ kind_ignored kd = None
         /\ Forall (fun vd => NoDup (map fst (snd vd))
                              /\ In (name, Fld (with_constant q (fst vd)) kd) (snd vd)) vs
  | _ => True
  end.

(** Neither the preprocessor nor an import turns a value into null. *)
Definition null_free (E : env) (p : params) (k : kind) : Prop :=
  (forall i w, p_preprocessor p = Some i -> e_pre E i w <> Ok VNone)
  /\ (k = KObject -> forall s, e_import E s <> Some VNone).

(** ** Addresses

    What Email fields that are not extended make of texts.  /repo/scheme/fields/email.py:59-67 *)

Open Scope N_scope.

(** [t] is [s] without the whitespace and [,;:] around it.  /repo/scheme/fields/email.py:21, 63 *)
Definition separator (c : N) : Prop := 9 <= c <= 13 \/ c = 32 \/ In c $",;:".
Definition trimmed (s t : str) : Prop :=
  exists a b, s = a ++ t ++ b /\ Forall separator a /\ Forall separator b
    /\ (forall c r, t = c :: r -> ~ separator c) /\ (forall c r, t = r ++ [c] -> ~ separator c).

(** [t] is [s] in lower case: ASCII capitals become small letters, other ASCII characters stay, the
    table says what becomes of the others. *)
Definition lowercase (E : env) (s t : str) : Prop :=
  exists l, Forall2 (fun c u => (65 <= c <= 90 /\ u = [c + 32])
                                \/ (c < 128 /\ ~ 65 <= c <= 90 /\ u = [c])
                                \/ (128 <= c /\ u = e_ulower E c)) s l
            /\ t = concat l.

(** [t] is [s] with every maximal run of whitespace and [,;:] replaced by one comma.
    /repo/scheme/fields/email.py:20, 65 *)
Definition separator_re (c : N) : Prop := is_space c = true \/ In c $",;:".
Inductive commas : str -> str -> Prop :=
| commas_end : forall w, Forall (fun c => ~ separator_re c) w -> commas w w
| commas_run : forall w run rest t,
    Forall (fun c => ~ separator_re c) w -> run <> [] -> Forall separator_re run ->
    (forall c r, rest = c :: r -> ~ separator_re c) -> commas rest t ->
    commas (w ++ run ++ rest) (w ++ $"," ++ t).

(** What the Email field (not extended) makes of [s] before looking at it. *)
Definition email_normal (E : env) (multiple : bool) (s t : str) : Prop :=
  exists a b, trimmed s a /\ lowercase E a b /\ if multiple then commas b t else t = b.

(** Lower case as Unicode has it: lower casing a character above ASCII gives lower case characters, at
    least one, none of them a separator. *)
Definition lowers (E : env) : Prop :=
  forall c, 128 <= c -> e_ulower E c <> []
    /\ forall d, In d (e_ulower E c) -> ~ separator d /\ ~ 65 <= d <= 90 /\ (128 <= d -> e_ulower E d = [d]).

Close Scope N_scope.

(** ** Conformance

    What it means for a native value to conform to a field. *)

(** Kinds whose validation changes the value. *)
Definition normalises {F} (k : kindP val F) : bool :=
  match k with KText _ _ _ true | KDateTime _ _ _ => true | _ => false end.

(** Scalars: type, bounds, length, pattern, enumeration. *)
Definition scalar_conf (E : env) {F} (k : kindP val F) (v : val) : Prop :=
  match k with
  | KBinary mn mx => exists b, v = VBytes b
      /\ at_least Z.le mn (Z.of_nat (length b)) /\ at_most Z.le mx (Z.of_nat (length b))
  | KBoolean => exists b, v = VBool b
  | KDate mn mx =>
      (exists d, v = VDate d /\ at_least (fun a b => date_ltb b a = false) mn d
                 /\ at_most (fun a b => date_ltb b a = false) mx d)
      \/ (exists dt, v = VDateTime dt) /\ mn = None /\ mx = None
  | KTime mn mx => exists t, v = VTime t /\ at_least (fun a b => tod_ltb b a = false) mn t
                             /\ at_most (fun a b => tod_ltb b a = false) mx t
  | KDateTime mn mx utc => exists dt z, v = VDateTime dt /\ dt_tz dt = Some z
      /\ tz_is z (if utc then TzUTC else TzLocal) = true
      /\ at_least (fun a b => dt_lt (e_local E) b a = Ok false) mn dt
      /\ at_most (fun a b => dt_lt (e_local E) b a = Ok false) mx dt
  | KDecimal mn mx => exists d, v = VDec d
      /\ ((mn = None /\ mx = None) \/ dec_is_nan d = false)
      /\ (forall m, mn = Some m -> dec_is_nan m = false /\ decimal_le m d)
      /\ (forall m, mx = Some m -> dec_is_nan m = false /\ decimal_le d m)
  | KFloat mn mx => exists x, v = VFloat x
      /\ at_least (fun a b => a = S754_nan \/ b = S754_nan \/ float_le a b) mn x
      /\ at_most (fun a b => a = S754_nan \/ b = S754_nan \/ float_le a b) mx x
  | KInteger mn mx => exists z, v = VInt z /\ at_least Z.le mn z /\ at_most Z.le mx z
  | KDefinition valid => exists p k', v = VField (Fld p k')
      /\ match valid with Some (t :: ts) => In (kind_type k') (t :: ts) | _ => True end
  | KText pat mn mx st => exists s, v = VStr s /\ canonical_text st s s
      /\ at_least Z.le mn (Z.of_nat (length s)) /\ at_most Z.le mx (Z.of_nat (length s))
      /\ forall i, pat = Some i -> e_pattern E i s = true
  | KEmail multiple extended mn mx => exists s, v = VStr s
      /\ at_least Z.le mn (Z.of_nat (length s)) /\ at_most Z.le mx (Z.of_nat (length s))
      /\ rmatch_dollar (email_pattern multiple extended) s = true
  | KEnumeration l _ => exists x, In x l /\ veq (e_local E) x v = true
  | KError => exists e, v = VErr e
  | KSurrogate valid => exists i s w l, v = VSurr i s w l
      /\ match valid with Some (t :: ts) => exists name, e_identity E i = Some name /\ In name (t :: ts) | _ => True end
  | KToken seg => exists s, v = VStr s /\ rmatch_dollar (token_re (e_uword E)) s = true
      /\ forall m, seg = Some m -> (Z.of_nat (count_char 58 s) + 1)%Z = m
  | KUUID => exists s, v = VStr s /\ rmatch_dollar uuid_re s = true
  | KField | KObject => True
  | _ => False
  end.

(** Subfields come with the predicate "conforms to this subfield". *)
Definition cchild := (field * (val -> Prop))%type.

(** The entries of a structure: its keys in order, each value conforming; an absent key is neither
    required nor has a default, unless its nulls are ignored. *)
Definition struct_conf (E : env) (defn : list (str * cchild)) (ko : option (list str))
  (entries : list (val * val)) : Prop :=
  let order := match ko with Some (k :: ks) => k :: ks | _ => map fst defn end in
  sublist (map fst entries) (map VStr order)
  /\ (forall k y, In (VStr k, y) entries -> exists c, In (k, c) defn /\ snd c y)
  /\ (forall k c, In k order -> In (k, c) defn -> ~ In (VStr k) (map fst entries) ->
        exists q, defined_as E (fst c) q
          /\ (p_ignore_null q = true \/ p_required q = false /\ p_default q = VNone)).

(** Fields that may turn a value into null: those that ignore values, and placeholders and unions,
    which may stand for or contain such fields. *)
Definition may_nullify (f : field) : Prop :=
  match f with
  | Fld _ (KUnion _) | FUndef _ => True
  | Fld _ k => kind_ignored k <> None
  end.

(** One level: null where the field allows it, otherwise by class.  (An alternative of a union may
    turn a value into null, which the union then returns.) *)
Definition conf_body (E : env) (p : params) (k : kindP val cchild) (v : val) : Prop :=
  (v = VNone /\ p_nonnull p = false)
  \/ match k with
     | KUnion cs => v = VNone -> exists c, In c cs /\ may_nullify (fst c)
     | _ => v <> VNone
     end
     /\ match k with
        | KSequence c mn mx u => exists l, v = VList l
            /\ at_least Z.le mn (Z.of_nat (length l)) /\ at_most Z.le mx (Z.of_nat (length l))
            /\ Forall (snd c) l
            /\ (u = true -> Forall (fun x => hashable x = true) l
                /\ forall i j x y, (i < j)%nat -> nth_error l i = Some x -> nth_error l j = Some y ->
                                   veq (e_local E) y x = false)
        | KMap cv ck req => exists l, v = VDict false l
            /\ distinct (e_local E) (map fst l)
            /\ Forall (fun kv => match ck with
                                 | Some c => snd c (fst kv)
                                 | None => exists s, fst kv = VStr s
                                 end
                                 /\ hashable (fst kv) = true /\ percent_s E (fst kv) <> None
                                 /\ snd cv (snd kv)) l
            /\ (forall r x, req = Some r -> In x r ->
                  exists kv, In kv l /\ veq (e_local E) (fst kv) x = true)
        | KTuple cs => exists l, v = VTuple l /\ Forall2 (fun c x => snd c x) cs l
        | KUnion cs => exists c, In c cs /\ snd c v
        | KStructure (SPlain d) strict ko => exists l, v = VDict (has_order ko) l /\ struct_conf E d ko l
        | KStructure (SPoly on vs) strict ko => exists l name q y vk d,
            v = VDict (has_order ko) l
            /\ defined_as E (fst on) q /\ p_name q = Some name
            /\ In (VStr name, y) l /\ y <> VNone /\ snd on y /\ hashable y = true
            /\ find (fun vd => veq (e_local E) (fst vd) y) vs = Some (vk, d)
            /\ struct_conf E d ko l
        | _ => scalar_conf E k v
               /\ (p_constant p = VNone \/ normalises k = true
                   \/ veq (e_local E) v (p_constant p) = true)
               /\ (p_preprocessor p = None ->
                   (forall l x, kind_ignored k = Some l -> In x l -> veq (e_local E) x v = false)
                   /\ match k with
                      | KEmail multiple false _ _ => forall s, v = VStr s -> lowers E -> email_normal E multiple s s
                      | _ => True
                      end)
        end.

(** [conforms E n f v]: [v] conforms to [f], following at most [n] placeholders on a path. *)
Fixpoint conforms (E : env) (n : nat) : field -> val -> Prop :=
  fix conf (f : field) : val -> Prop :=
    match f with
    | FUndef i => fun v =>
        match e_undef E i, n with
        | Some (Fld p k), S m => conforms E m (Fld p k) v
        | _, _ => False
        end
    | Fld p k => conf_body E p (kmap (fun g => (g, conf g)) k)
    end.

(** ** Alternatives of a union *)

(** The Python types of the values that conform to a class of fields; of an enumeration, the values. *)
Definition native_type (E : env) (k : kind) (v : val) : Prop :=
  match k with
  | KBinary _ _ => exists b, v = VBytes b
  | KBoolean => exists b, v = VBool b
  | KDate _ _ => (exists d, v = VDate d) \/ exists dt, v = VDateTime dt
  | KDateTime _ _ _ => exists dt, v = VDateTime dt
  | KTime _ _ => exists t, v = VTime t
  | KDecimal _ _ => exists d, v = VDec d
  | KFloat _ _ => exists x, v = VFloat x
  | KInteger _ _ => exists z, v = VInt z
  | KText _ _ _ _ | KEmail _ _ _ _ | KToken _ | KUUID => exists s, v = VStr s
  | KDefinition _ => exists f, v = VField f
  | KError => exists e, v = VErr e
  | KSurrogate _ => exists i s w l, v = VSurr i s w l
  | KEnumeration l _ => exists x, In x l /\ veq (e_local E) x v = true
  | KSequence _ _ _ _ => exists l, v = VList l
  | KTuple _ => exists l, v = VTuple l
  | KMap _ _ _ | KStructure _ _ _ => exists o l, v = VDict o l
  | KField | KObject | KUnion _ => True
  end.

(** The types a class does not refuse: a tuple may be given as a list, a mapping as a surrogate. *)
Definition input_type (E : env) (k : kind) (v : val) : Prop :=
  native_type E k v
  \/ match k with
     | KTuple _ => exists l, v = VList l
     | KMap _ _ _ | KStructure _ _ _ => exists i s w l, v = VSurr i s w l
     | _ => False
     end.

(** Classes that return what they accept and refuse all else by its type. *)
Definition decisive (k : kind) : Prop :=
  match k with
  | KBoolean | KUUID | KToken None | KError | KBinary None None | KDate None None | KTime None None
  | KDecimal None None | KFloat None None | KInteger None None | KText None None None false => True
  | KEnumeration l None => Forall (fun x => is_num x = false) l
  | _ => False
  end.

(** An earlier alternative [f] does not stand in the way of values that conform to a later one [g]. *)
Definition lets_pass (E : env) (f g : field) : Prop :=
  match f, g with
  | Fld p k, Fld _ k' =>
      p_constant p = VNone
      /\ (decisive k
          \/ match k with KEnumeration _ _ => False | _ => True end
             /\ forall v, input_type E k v -> native_type E k' v -> False)
  | _, _ => False
  end.

(** Schemas whose fields leave conforming values alone: no preprocessor, nulls not ignored, no
    constant on a field that normalises, no signaling NaN among enumerated values; the alternatives
    of a union do not ignore values and earlier ones let pass what conforms to later ones; for
    Email fields that are not extended, lower case is as Unicode has it. *)
Definition tidy (E : env) (p : params) (k : kind) : Prop :=
  p_preprocessor p = None /\ p_ignore_null p = false
  /\ (normalises k = true -> p_constant p = VNone)
  /\ match k with
     | KUnion fs => Forall (fun f => ~ may_nullify f) fs /\ ForallOrdPairs (lets_pass E) fs
     | KEmail _ extended _ _ => extended = true \/ lowers E
     | KEnumeration l ig => forall x, In x l \/ In x (match ig with Some i => i | None => [] end) ->
                              snan_val x = false
     | KMap _ _ (Some req) => Forall (fun x => hashable x = true) req
     | _ => True
     end.

(** ** Errors *)

(** Fields whose errors are always their own: excluded are the classes that hand out errors as
    values or run code found at run time (Field, Error, Object, Definition, Surrogate), and
    preprocessors of containers, whose exceptions propagate. *)
Definition ordinary (p : params) (k : kind) : Prop :=
  match k with
  | KField | KError | KObject | KDefinition _ | KSurrogate _ => False
  | KSequence _ _ _ _ | KMap _ _ _ | KTuple _ => p_preprocessor p = None
  | _ => True
  end.

(** The errors a field may raise in its own name: [c] is the class of the error, [tok] its token.  Tied
    to: the calls of [construct] in /repo/scheme/field.py:418-475, 574-579 and in the [process] and
    [_validate_value] methods in /repo/scheme/fields. *)
Definition tells {F} (p : params) (k : kindP val F) (c : ecls) (tok : str) : Prop :=
  (c = CInvalidType /\ tok = $"invalid")
  \/ c = CValidation
     /\ (p_nonnull p = true /\ tok = $"nonnull"
         \/ match k with
            | KBinary mn mx => mn <> None /\ tok = $"min_length" \/ mx <> None /\ tok = $"max_length"
            | KDate mn mx => mn <> None /\ tok = $"minimum" \/ mx <> None /\ tok = $"maximum"
            | KDateTime mn mx _ =>
                mn <> None /\ tok = $"minimum" \/ mx <> None /\ tok = $"maximum" \/ tok = $"overflow"
            | KTime mn mx => mn <> None /\ tok = $"minimum" \/ mx <> None /\ tok = $"maximum"
            | KDecimal mn mx => mn <> None /\ tok = $"minimum" \/ mx <> None /\ tok = $"maximum"
            | KFloat mn mx => mn <> None /\ tok = $"minimum" \/ mx <> None /\ tok = $"maximum"
            | KInteger mn mx => mn <> None /\ tok = $"minimum" \/ mx <> None /\ tok = $"maximum"
            | KText pat mn mx _ =>
                mn <> None /\ tok = $"min_length" \/ mx <> None /\ tok = $"max_length"
                \/ pat <> None /\ tok = $"pattern"
            | KEmail _ _ mn mx =>
                mn <> None /\ tok = $"min_length" \/ mx <> None /\ tok = $"max_length" \/ tok = $"pattern"
            | KToken seg => seg <> None /\ tok = $"invalid"
            | KDefinition valid => tok = $"invalid" \/ valid <> None /\ tok = $"invalidfield"
            | KObject => tok = $"import"
            | KSequence _ mn mx unique =>
                mn <> None /\ tok = $"min_length" \/ mx <> None /\ tok = $"max_length"
                \/ unique = true /\ tok = $"duplicate"
            | KMap _ _ _ => tok = $"invalidkeys"
            | KTuple _ => tok = $"length"
            | KStructure (SPoly _ _) _ _ => tok = $"required" \/ tok = $"unrecognized"
            | _ => False
            end).

(** [located E f path e]: the error [e] raised by the field [f] at [path] names [path], and every
    error nested in it names the path of keys and indices at which it sits.  Exceptions, as the code
    stands: a missing or unknown key is reported under the path of the container
    (/repo/scheme/fields/structure.py:423-424, 441-442, map.py:219-220), and a polymorphic structure
    passes the error of its discriminator on as its own.  The tokens are those of [tells]. *)
Inductive located (E : env) : field -> list str -> err -> Prop :=
| located_own : forall p k path c tok,
    tells p k c tok ->
    located E (Fld p k) path
      {| er_cls := c; er_errors := [VDict false [(VStr $"token", VStr tok)]]; er_identity := path;
         er_structure := None; er_hasfield := true |}
| located_placeholder : forall i g path e,
    e_undef E i = Some g -> located E g path e -> located E (FUndef i) path e
| located_sequence : forall p item mn mx u path l,
    (forall i x, nth_error l i = Some (VErr x) -> located E item (path ++ [index_seg i]) x) ->
    located E (Fld p (KSequence item mn mx u)) path
      {| er_cls := CValidation; er_errors := []; er_identity := path;
         er_structure := Some (VList l); er_hasfield := true |}
| located_tuple : forall p fs path l,
    length l = length fs ->
    (forall i f x, nth_error fs i = Some f -> nth_error l i = Some (VErr x) ->
       located E f (path ++ [index_seg i]) x) ->
    located E (Fld p (KTuple fs)) path
      {| er_cls := CValidation; er_errors := []; er_identity := path;
         er_structure := Some (VList l); er_hasfield := true |}
| located_map : forall p value key req path l,
    (forall k x, In (k, VErr x) l ->
       (exists k' s, (k = k' \/ veq (e_local E) k k' = true) /\ percent_s E k' = Some s
          /\ located E value (path ++ [key_segment s]) x)
       \/ (exists r, req = Some r /\ In k r) /\ VErr x = token_error path $"required") ->
    located E (Fld p (KMap value key req)) path
      {| er_cls := CValidation; er_errors := []; er_identity := path;
         er_structure := Some (VDict false l); er_hasfield := true |}
| located_union : forall p fs g path e,
    In g fs -> located E g path e -> located E (Fld p (KUnion fs)) path e
| located_structure : forall p d strict ko path o l,
    (forall k x, In (k, VErr x) l ->
       (exists name f, k = VStr name /\ In (name, f) d /\ located E f (path ++ [name_segment name]) x)
       \/ (exists name, k = VStr name /\ In name (map fst d)) /\ VErr x = token_error path $"required"
       \/ strict = true /\ VErr x = token_error path $"unknown") ->
    located E (Fld p (KStructure (SPlain d) strict ko)) path
      {| er_cls := CValidation; er_errors := []; er_identity := path;
         er_structure := Some (VDict o l); er_hasfield := true |}
| located_variant : forall p on vs vk d strict ko path e,
    In (vk, d) vs -> located E (Fld p (KStructure (SPlain d) strict ko)) path e ->
    located E (Fld p (KStructure (SPoly on vs) strict ko)) path e
| located_discriminator : forall p on q vs strict ko name path e,
    defined_as E on q -> p_name q = Some name -> located E on (path ++ [name_segment name]) e ->
    located E (Fld p (KStructure (SPoly on vs) strict ko)) path e.

(** The errors directly nested in a structure. *)
Definition nested (s : val) (x : err) : Prop :=
  match s with
  | VList l => In (VErr x) l
  | VDict _ l => exists k, In (k, VErr x) l
  | _ => False
  end.

(** The error carries a token, or one of the errors nested in it does. *)
Inductive has_reason : err -> Prop :=
| reason_own : forall e tok,
    In (VDict false [(VStr $"token", VStr tok)]) (er_errors e) -> has_reason e
| reason_nested : forall e s x,
    er_structure e = Some s -> nested s x -> has_reason x -> has_reason e.

(** A value as Python has them: no dict in it has a key twice. *)
Inductive proper (L : localtz) : val -> Prop :=
| proper_intro : forall v,
    (forall l, as_dict v = Some l -> distinct L (map fst l) /\ forall kv, In kv l -> proper L (snd kv)) ->
    (forall l, v = VList l \/ v = VTuple l -> forall x, In x l -> proper L x) ->
    proper L v.

(** The key field of a map never turns two different keys into equal ones. *)
Definition separates (E : env) (desc : field -> res val) (recon : val -> res field) (g : field) : Prop :=
  forall n ph ser a1 a2 k1 k2 r1 r2,
    process_gen E desc recon n g false ph ser a1 k1 = Ok r1 ->
    process_gen E desc recon n g false ph ser a2 k2 = Ok r2 ->
    veq (e_local E) k1 k2 = false -> veq (e_local E) r1 r2 = false.

(** Ordinary fields, containers without preprocessor, maps that do not collapse keys; defaults are
    proper values. *)
Definition reasoned (E : env) (desc : field -> res val) (recon : val -> res field) (p : params) (k : kind)
  : Prop :=
  ordinary p k /\ proper (e_local E) (p_default p)
  /\ match k with
     | KMap _ (Some g) _ => separates E desc recon g
     | KStructure _ _ _ => p_preprocessor p = None
     | _ => True
     end.

(** ** Other exceptions *)

(** The exceptions other than structural errors that a field of class [k] may let escape, apart from
    those of its subfields; the remarks name the cause.  Tied to: /repo/scheme/field.py:418-475 and
    the [process] methods in /repo/scheme/fields. *)
Definition may_raise (E : env) (desc : field -> res val) (recon : val -> res field) (ph : phase) (ser : bool)
  (p : params) (k : kind) (x : pyexc) : Prop :=
  let pre_raises := exists i w, p_preprocessor p = Some i /\ e_pre E i w = Raise (XPy x) in
  let has_pre := p_preprocessor p <> None in
  match k with
  | KSequence _ _ _ unique =>
      unique = true /\ x = TypeError                        (* unhashable items *)
      \/ pre_raises \/ has_pre /\ x = TypeError             (* the preprocessor, or what it returned *)
  | KMap _ key req =>
      key <> None /\ x = TypeError                          (* unhashable key; a tuple formatted with % *)
      \/ (exists r y, req = Some r /\ In y r /\ hashable y = false) /\ x = TypeError
      \/ pre_raises \/ has_pre /\ x = AttributeError
  | KTuple _ => pre_raises \/ has_pre /\ (x = TypeError \/ x = KeyError)
  | KUnion _ => False
  | KStructure d _ ko =>
      has_pre /\ x = AttributeError                         (* the preprocessor returned no dict *)
      \/ (match d with
          | SPlain l => exists o name, ko = Some o /\ In name o /\ ~ In name (map fst l)
          | SPoly _ _ => False
          end /\ x = KeyError)                              (* key order with an unknown key *)
      \/ match d with
         | SPlain _ => False
         | SPoly on _ =>
             (exists q, defined_as E on q /\ p_name q = None) /\ x = TypeError
             \/ (exists n anc v r, process_gen E desc recon n on false ph ser anc v = Ok r /\ hashable r = false)
                /\ x = TypeError
             \/ (exists o, ko = Some o) /\ (x = TypeError \/ x = IndexError \/ x = KeyError)
         end
  | _ =>
      is_num (p_constant p) = true /\ x = InvalidOperation  (* a signaling NaN compared with it *)
      \/ match k with
         | KBinary _ _ => ph = Inbound /\ ser = true /\ x = BinasciiError
         | KDate mn mx => (mn <> None \/ mx <> None) /\ x = TypeError    (* a datetime compared with a date *)
         | KDateTime mn mx _ =>
             x = OverflowError                              (* conversion to the time zone of the field *)
             \/ (exists m, (mn = Some m \/ mx = Some m) /\ dt_tz m = None) /\ x = TypeError
         | KDecimal mn mx => (mn <> None \/ mx <> None) /\ x = InvalidOperation      (* NaN *)
         | KDefinition _ => ph = Outbound /\ ser = true /\ exists f, desc f = Raise (XPy x)
         | KEnumeration l ig =>
             (p_constant p <> VNone \/ p_preprocessor p <> None) /\ x = KeyError     (* the message *)
             \/ (exists y, In y (l ++ match ig with Some i => i | None => [] end) /\ is_num y = true)
                /\ x = InvalidOperation
         | KError => ph = Inbound /\ ser = true /\ x = TypeError
         | KSurrogate valid =>
             (exists t ts, valid = Some (t :: ts)) /\ (x = AttributeError \/ x = KeyError)
             \/ ser = true
                /\ match ph with
                   | Inbound =>                             (* the token, the version, the contents; the schema *)
                       x = TypeError \/ x = ValueError \/ x = RecursionError \/ exists d, recon d = Raise (XPy x)
                   | Outbound =>                            (* the version, the contents; the attribute surrogate *)
                       x = TypeError \/ x = IndexError \/ x = AttributeError \/ x = RecursionError
                       \/ exists g, desc g = Raise (XPy x)
                   end
         | _ => False
         end
  end.

(** The schemas of serialized surrogates: those of their classes, those reconstructed from a
    description, and on the way out those the surrogates carry.
    /repo/scheme/surrogate.py:114-127, 185-207 *)
Definition surrogate_schema (E : env) (recon : val -> res field) (ph : phase) (g : field) : Prop :=
  (exists impl, In g (e_schemas E impl))
  \/ match ph with Inbound => exists d, recon d = Ok g | Outbound => True end.

(** Exceptions that may escape from a schema: those of its fields, those of placeholders, and those of
    the schemas of surrogates. *)
Inductive may_escape (E : env) (desc : field -> res val) (recon : val -> res field) (ph : phase) (ser : bool)
  (x : pyexc) : field -> Prop :=
| escape_here : forall p k,
    may_raise E desc recon ph ser p k x -> may_escape E desc recon ph ser x (Fld p k)
| escape_sub : forall p k g,
    In g (subfields k) -> may_escape E desc recon ph ser x g -> may_escape E desc recon ph ser x (Fld p k)
| escape_schema : forall p valid g,
    ser = true -> surrogate_schema E recon ph g ->
    may_escape E desc recon ph ser x g -> may_escape E desc recon ph ser x (Fld p (KSurrogate valid))
| escape_placeholder : forall i g,
    e_undef E i = Some g -> may_escape E desc recon ph ser x g -> may_escape E desc recon ph ser x (FUndef i)
| escape_recursion : forall i,                              (* placeholders that lead to each other *)
    x = RecursionError -> may_escape E desc recon ph ser x (FUndef i)
| escape_undefined : forall i,
    ~ defined E (FUndef i) -> x = UndefinedFieldError \/ x = AttributeError ->
    may_escape E desc recon ph ser x (FUndef i).

(** Fields that let no other exception escape, whatever the value. *)
Definition tame (ph : phase) (ser : bool) (p : params) (k : kind) : Prop :=
  match k with
  | KSequence _ _ _ unique => unique = false /\ p_preprocessor p = None
  | KMap _ key req =>
      key = None /\ p_preprocessor p = None
      /\ match req with Some r => Forall (fun y => hashable y = true) r | None => True end
  | KTuple _ => p_preprocessor p = None
  | KUnion _ => True
  | KStructure (SPlain d) _ ko =>
      p_preprocessor p = None /\ match ko with Some o => incl o (map fst d) | None => True end
  | KStructure (SPoly on _) _ ko =>
      p_preprocessor p = None /\ ko = None
      /\ exists q l ig, on = Fld q (KEnumeration l ig) /\ p_name q <> None
         /\ Forall (fun y => exists s, y = VStr s) l
  | _ =>
      is_num (p_constant p) = false
      /\ match k with
         | KBinary _ _ => native ph ser
         | KDate mn mx => mn = None /\ mx = None
         | KDateTime _ _ _ | KDefinition _ | KError | KSurrogate _ => False
         | KDecimal mn mx => mn = None /\ mx = None
         | KEnumeration l ig =>
             p_constant p = VNone /\ p_preprocessor p = None
             /\ Forall (fun y => is_num y = false) (l ++ match ig with Some i => i | None => [] end)
         | _ => True
         end
  end.

(** The field has no placeholder at any depth. *)
Inductive complete : field -> Prop :=
| complete_fld : forall p k, (forall g, In g (subfields k) -> complete g) -> complete (Fld p k).

(** A field up to what only documents it: aspects, title, description and notes. *)
Definition bare (p : params) : params :=
  {| p_name := p_name p; p_nonnull := p_nonnull p; p_required := p_required p;
     p_ignore_null := p_ignore_null p; p_default := p_default p; p_constant := p_constant p;
     p_preprocessor := p_preprocessor p; p_extractor := p_extractor p;
     p_instantiator := p_instantiator p; p_title := VNone; p_description := VNone;
     p_notes := VNone; p_aspects := [] |}.

Fixpoint undocumented (f : field) : field :=
  match f with
  | FUndef n => FUndef n
  | Fld p k => Fld (bare p) (kmap undocumented k)
  end.

(** The values without a hash: lists, dicts, surrogates, signalling NaNs, and tuples holding one.
    For [set(value)] and dict keys, /repo/scheme/fields/sequence.py:206, map.py:206-221. *)
Inductive unhashable : val -> Prop :=
| unhashable_list l : unhashable (VList l)
| unhashable_dict o l : unhashable (VDict o l)
| unhashable_surrogate i s n l : unhashable (VSurr i s n l)
| unhashable_snan neg d : unhashable (VDec (DNan neg true d))
| unhashable_tuple l v : In v l -> unhashable v -> unhashable (VTuple l).
