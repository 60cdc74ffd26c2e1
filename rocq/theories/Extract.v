(** * Extraction, instantiation and interpolation of values. *)
From Verif Require Export Schema.

Section Values.
Context (E : env).
Let L := e_local E.

(** ** Loops with a caught exception *)

(** [try: target.append(...)  except FieldExcludedError: pass].
    /repo/scheme/fields/map.py:112-114, sequence.py:103-105, structure.py:216-219, tuple.py:87-89 *)
Definition unless_excluded (r : res val) : res (option val) :=
  match r with
  | Ok v => Ok (Some v)
  | Raise (XPy FieldExcludedError) => Ok None
  | Raise x => Raise x
  end.

(** [try: target[key] = ...  except UndefinedParameterError: continue].
    /repo/scheme/fields/map.py:166-169, structure.py:328-331 *)
Definition unless_missing (r : res val) : res (option val) :=
  match r with
  | Ok v => Ok (Some v)
  | Raise (XPy UndefinedParameterError) => Ok None
  | Raise x => Raise x
  end.

(** A loop that adds at most one element per round (the loops cited above).
    /repo/scheme/fields/map.py:100-118, structure.py:200-222 *)
Fixpoint gather {A B} (f : A -> res (option B)) (l : list A) : res (list B) :=
  match l with
  | [] => Ok []
  | a :: l' =>
      do b <- f a;
      do bs <- gather f l';
      Ok (match b with Some x => x :: bs | None => bs end)
  end.

(** A subfield together with what its method does.
    For the calls at /repo/scheme/fields/map.py:90-118, sequence.py:81-111, structure.py:184-225,
    tuple.py:68-96 *)
Definition worker := (field * (val -> res val))%type.

(** The call of a method of a subfield: AttributeError from a placeholder without field is
    UndefinedFieldError.  /repo/scheme/fields/map.py:115-119, sequence.py:106-110,
    structure.py:220-224, tuple.py:90-94, union.py:68-72 *)
Definition work (c : worker) (v : val) : res val := wrap_undef E (fst c) (snd c v).

(** ** Extraction *)

(** [self.extractor(self, subject)] with every exception turned into CannotExtractError.
    /repo/scheme/fields/map.py:97-101 and the same lines of sequence.py, structure.py, tuple.py *)
Definition run_extractor (p : params) (v : val) : res val :=
  match p_extractor p with
  | None => Ok v
  | Some i => match e_ext E i v with Ok w => Ok w | Raise _ => py CannotExtractError end
  end.

(** How a structure reads its subject: [getitem] on a dict or [getattr].
    /repo/scheme/fields/structure.py:197-202 *)
Inductive getter := GetItem (items : list (val * val)) | GetAttr (subject : val).

(** [getter(subject, name)]; [None] is KeyError or AttributeError.  The attributes of values other
    than [VObj] are not modelled.  /repo/scheme/fields/structure.py:184-225 *)
Definition get_name (g : getter) (name : str) : res (option val) :=
  match g with
  | GetItem items => Ok (sget name items)
  | GetAttr (VObj _ attrs) => Ok (aget name attrs)
  | GetAttr _ => py (OtherError 0)
  end.

(** The entry of one key of a structure: absent and null values are skipped.
    /repo/scheme/fields/structure.py:208-224 *)
Definition extract_entry (g : getter) (nc : str * worker) : res (option (val * val)) :=
  do o <- get_name g (fst nc);
  match o with
  | None | Some VNone => Ok None
  | Some v => do r <- unless_excluded (work (snd nc) v);
              Ok (match r with Some w => Some (VStr (fst nc), w) | None => None end)
  end.

(** The loop over the variants when the identity is falsy: the "fields" are dicts, which have no
    method [extract].  /repo/scheme/fields/structure.py:204-224, 545-550 *)
Fixpoint extract_variants (g : getter) (vs : list (val * list (str * worker))) : res val :=
  match vs with
  | [] => Ok (VDict false [])
  | (i, _) :: vs' =>
      do o <- match g with
              | GetItem items => Ok (dget L i items)
              | GetAttr _ => match i with VStr s => get_name g s | _ => py TypeError end
              end;
      match o with None | Some VNone => extract_variants g vs' | Some _ => py AttributeError end
  end.

(** [self.structure[identity]].  /repo/scheme/fields/structure.py:548 *)
Definition variant {C} (vs : list (val * C)) (ident : val) : res C :=
  if hashable ident then
    match find (fun vd => veq L (fst vd) ident) vs with
    | Some (_, c) => Ok c
    | None => py KeyError
    end
  else py TypeError.

(** [Structure.extract] after the extractor.  /repo/scheme/fields/structure.py:197-225 *)
Definition extract_structure (strict : bool) (d : sdefP val worker) (s : val) : res val :=
  do g <- match as_dict s with
          | Some items => Ok (GetItem items)
          | None => if strict then py CannotExtractError else Ok (GetAttr s)
          end;
  match d with
  | SPlain defn => do r <- gather (extract_entry g) defn; Ok (VDict false r)
  | SPoly on vs =>
      match fparams E (fst on) with
      | None => py AttributeError                       (* Undefined has no name *)
      | Some q =>
          match p_name q with
          | None => py (OtherError 0)                   (* the constructor requires a name *)
          | Some n =>
              do o <- get_name g n;
              match o with
              | None => match g with GetItem _ => py KeyError | GetAttr _ => py AttributeError end
              | Some ident =>
                  if truthy ident then
                    do defn <- variant vs ident;
                    do r <- gather (extract_entry g) defn; Ok (VDict false r)
                  else extract_variants g vs
              end
          end
      end
  end.

(** [Union.extract] after the extractor: the first field that does not raise CannotExtractError.
    /repo/scheme/fields/union.py:63-74 *)
Fixpoint extract_union (cs : list worker) (v : val) : res val :=
  match cs with
  | [] => py CannotExtractError
  | c :: cs' =>
      match work c v with
      | Raise (XPy CannotExtractError) => extract_union cs' v
      | r => r
      end
  end.

(** The loop of [Tuple.extract] over the fields and the subject.
    /repo/scheme/fields/tuple.py:84-94 *)
Fixpoint extract_tuple (cs : list worker) (l : list val) : res (list val) :=
  match cs with
  | [] => Ok []
  | c :: cs' =>
      match l with
      | [] => py IndexError
      | v :: l' =>
          do r <- unless_excluded (work c v);
          do rs <- extract_tuple cs' l';
          Ok (match r with Some w => w :: rs | None => rs end)
      end
  end.

(** One level of [extract]; [k] is the field itself (for [screen]), [kc] its subfields at work.
    /repo/scheme/field.py:349-360, /repo/scheme/fields/map.py:90-120, sequence.py:81-111,
    structure.py:184-225, tuple.py:68-96, union.py:54-74 *)
Definition extract_body (strict : bool) (tests : list (str * val)) (p : params) (k : kind)
  (kc : kindP val worker) (v : val) : res val :=
  if match tests with [] => true | _ => screen E p k tests end then
    if is_none v then Ok VNone else
    match kc with
    | KMap c _ _ =>
        do s <- run_extractor p v;
        match as_dict s with
        | None => py CannotExtractError
        | Some items =>
            do r <- gather (fun kv => do o <- unless_excluded (work c (snd kv));
                                      Ok (match o with Some w => Some (fst kv, w) | None => None end))
                           items;
            Ok (VDict false r)
        end
    | KSequence c _ _ _ =>
        do s <- run_extractor p v;
        match s with
        | VList l | VTuple l => do r <- gather (fun x => unless_excluded (work c x)) l; Ok (VList r)
        | _ => py CannotExtractError
        end
    | KTuple cs =>
        do s <- run_extractor p v;
        match s with
        | VList l | VTuple l => do r <- extract_tuple cs l; Ok (VTuple r)
        | _ => py CannotExtractError
        end
    | KUnion cs =>
        do s <- match p_extractor p with None => Ok v | Some i => e_ext E i v end;
        extract_union cs s
    | KStructure d _ _ => do s <- run_extractor p v; extract_structure strict d s
    | _ => run_extractor p v
    end
  else py FieldExcludedError.

(** [field.extract(subject, strict, **tests)].  Structural on the field; resolving a placeholder
    costs one unit of fuel, as in [process_gen].
    /repo/scheme/field.py:327-360 and the [extract] of /repo/scheme/fields/*.py *)
Fixpoint extract (n : nat) (strict : bool) (tests : list (str * val)) : field -> val -> res val :=
  fix ext (f : field) : val -> res val :=
    match f with
    | FUndef i => fun v =>
        match e_undef E i with
        | Some (Fld p k) =>
            match n with
            | O => py RecursionError
            | S m => extract m strict tests (Fld p k) v
            end
        | _ => py AttributeError
        end
    | Fld p k => extract_body strict tests p k (kmap (fun g => (g, ext g)) k)
    end.

(** ** Instantiation *)

(** A subfield together with its method [instantiate(value, key)].
    For the calls at /repo/scheme/fields/map.py:134-150, sequence.py:125-139, structure.py:291-307,
    tuple.py:125-139 *)
Definition maker := (field * (val -> val -> res val))%type.

(** The call of [instantiate] of a subfield.  /repo/scheme/fields/map.py:143-148,
    sequence.py:130-137, structure.py:298-305, tuple.py:129-137 *)
Definition make (c : maker) (v key : val) : res val := wrap_undef E (fst c) (snd c v key).

(** [Field.instantiate].  /repo/scheme/field.py:403-406 *)
Definition run_instantiator (p : params) (v key : val) : res val :=
  match p_instantiator p with
  | Some i => if is_none v then Ok v else e_inst E i v key
  | None => Ok v
  end.

(** Instantiate each of a list (the loops of Map, Sequence and Structure).
    /repo/scheme/fields/map.py:143-148, sequence.py:131-137, structure.py:297-305 *)
Fixpoint make_all {A B} (f : A -> res B) (l : list A) : res (list B) :=
  match l with
  | [] => Ok []
  | a :: l' => do b <- f a; do bs <- make_all f l'; Ok (b :: bs)
  end.

(** The loop of [Tuple.instantiate], with [value[i]].  /repo/scheme/fields/tuple.py:129-137 *)
Fixpoint make_tuple (cs : list maker) (i : nat) (v : val) : res (list val) :=
  match cs with
  | [] => Ok []
  | c :: cs' =>
      do x <- py_index E v i;
      do y <- make c x VNone;
      do ys <- make_tuple cs' (S i) v;
      Ok (y :: ys)
  end.

(** [definition[k].instantiate(v, k)].  /repo/scheme/fields/structure.py:298-305 *)
Definition make_entry (defn : list (str * maker)) (kv : val * val) : res (val * val) :=
  match fst kv with
  | VStr s => match aget s defn with
              | Some c => do w <- make c (snd kv) (fst kv); Ok (fst kv, w)
              | None => py KeyError
              end
  | _ => py KeyError
  end.

(** One level of [instantiate].  [value.items()] on anything but a dict is AttributeError, and
    [getitem(value, name)] TypeError; other objects are not modelled.
    /repo/scheme/fields/map.py:134-150, sequence.py:125-139, structure.py:291-307, tuple.py:125-139;
    [Union.instantiate] takes no key: a call with one is TypeError, one without
    NotImplementedError (union.py:76-77); here a key of None is a call without key, which holds for
    the items of sequences and tuples and at the top level. *)
Definition instantiate_body (p : params) (kc : kindP val maker) (v key : val) : res val :=
  match kc with
  | KMap c _ _ =>
      if is_none v then Ok VNone else
      match v with
      | VObj _ _ => py (OtherError 0)
      | _ =>
          match as_dict v with
          | None => py AttributeError
          | Some items =>
              do r <- make_all (fun kv => do w <- make c (snd kv) (fst kv); Ok (fst kv, w)) items;
              run_instantiator p (VDict false r) key
          end
      end
  | KSequence c _ _ _ =>
      if is_none v then Ok VNone else
      match v with
      | VObj _ _ => py (OtherError 0)
      | _ =>
          match py_iter v with
          | None => py TypeError
          | Some l => do r <- make_all (fun x => make c x VNone) l; run_instantiator p (VList r) key
          end
      end
  | KTuple cs =>
      if is_none v then Ok VNone else
      match v with
      | VObj _ _ => py (OtherError 0)
      | _ => do r <- make_tuple cs 0 v; run_instantiator p (VTuple r) key
      end
  | KUnion _ => match key with VNone => py NotImplementedError | _ => py TypeError end
  | KStructure d _ _ =>
      if is_none v then Ok VNone else
      match v with
      | VObj _ _ => py (OtherError 0)
      | _ =>
          match d with
          | SPlain defn =>
              match as_dict v with
              | None => py AttributeError
              | Some items => do r <- make_all (make_entry defn) items;
                              run_instantiator p (VDict false r) key
              end
          | SPoly on vs =>
              match fparams E (fst on) with
              | None => py AttributeError
              | Some q =>
                  match p_name q, as_dict v with
                  | None, _ => py (OtherError 0)
                  | _, None => py TypeError
                  | Some n, Some items =>
                      match sget n items with
                      | None => py KeyError
                      | Some ident =>
                          if truthy ident then
                            do defn <- variant vs ident;
                            do r <- make_all (make_entry defn) items;
                            run_instantiator p (VDict false r) key
                          else
                            (* [definition] is the dict of variants *)
                            match items with
                            | [] => run_instantiator p (VDict false []) key
                            | (k0, _) :: _ =>
                                match find (fun vd => veq L (fst vd) k0) vs with
                                | Some _ => py AttributeError
                                | None => py KeyError
                                end
                            end
                      end
                  end
              end
          end
      end
  | _ => run_instantiator p v key
  end.

(** [field.instantiate(value, key)]; fuel as in [extract].
    /repo/scheme/field.py:390-406 and the [instantiate] of /repo/scheme/fields/*.py *)
Fixpoint instantiate (n : nat) : field -> val -> val -> res val :=
  fix inst (f : field) : val -> val -> res val :=
    match f with
    | FUndef i => fun v key =>
        match e_undef E i with
        | Some (Fld p k) =>
            match n with
            | O => py RecursionError
            | S m => instantiate m (Fld p k) v key
            end
        | _ => py AttributeError
        end
    | Fld p k => instantiate_body p (kmap (fun g => (g, inst g)) k)
    end.

(** ** Interpolation *)

(** An [Interpolator] applied to given parameters: [evaluate] of an expression and [interpolate] of
    a template.  They are jinja2's and stay uninterpreted.
    /repo/scheme/interpolation.py:45-58 *)
Record interpolator := { ip_eval : str -> res val; ip_render : str -> res val }.

(** The longest prefix without the character [c], and the rest.
    For VARIABLE_EXPR, /repo/scheme/interpolation.py:15 *)
Fixpoint until (c : N) (s : str) : str * str :=
  match s with
  | [] => ([], [])
  | x :: s' => if (x =? c)%N then ([], s) else (x :: fst (until c s'), snd (until c s'))
  end.

(** Group 1 of [VARIABLE_EXPR.match(subject)]; [None] is no match.  The expression is
    deterministic, so that matching it is reading from left to right.
    /repo/scheme/interpolation.py:15 *)
Definition variable_expr (s : str) : option str :=
  match lstrip is_space s with
  | 36%N :: 123%N :: s1 =>                                (* "${" *)
      match until 125 s1 with                            (* "}" *)
      | (e, _ :: s2) => match e with
                        | [] => None
                        | _ => if forallb is_space s2 then Some e else None
                        end
      | (_, []) => None
      end
  | _ => None
  end.

(** [interpolate_parameters(subject, parameters, simple, interpolator)].
    /repo/scheme/interpolation.py:60-89 *)
Definition interpolate_parameters (ip : interpolator) (simple : bool) (v : val) : res val :=
  match v with
  | VStr [] => Ok (VStr [])
  | VStr s =>
      if simple then
        match variable_expr s with
        | Some e => ip_eval ip (strip is_space e)
        | None => Ok v
        end
      else ip_render ip s
  | _ => py ValueError
  end.

(** [isinstance(subject, self.equivalent)].  The classes of /repo/scheme/fields/: binary.py:12,
    boolean.py:10, date.py:19, datetime.py:16, decimal.py:16, definition.py:12, surrogate.py:13,
    time.py:15; a datetime is a date. *)
Definition is_equivalent {F} (k : kindP val F) (v : val) : bool :=
  match k, v with
  | KBinary _ _, VBytes _ | KBoolean, VBool _ | KDate _ _, VDate _ | KDate _ _, VDateTime _
  | KDateTime _ _ _, VDateTime _ | KDecimal _ _, VDec _ | KDefinition _, VField (Fld _ _)
  | KSurrogate _, VSurr _ _ _ _ | KTime _ _, VTime _ => true
  | _, _ => false
  end.

(** Which exception [int(v)], [float(v)] or [Decimal(v)] raises when it does not succeed.
    /repo/scheme/fields/integer.py:38-46, float.py:38-46, decimal.py:67-75 *)
Definition conversion_error (decimal : bool) (v : val) : pyexc :=
  match v with
  | VStr _ => if decimal then InvalidOperation else ValueError
  | VBytes _ => if decimal then TypeError else ValueError
  | VFloat S754_nan | VDec (DNan _ _ _) => ValueError
  | VFloat _ | VDec _ | VInt _ => OverflowError
  | VTuple _ | VList _ => if decimal then ValueError else TypeError
  | VObj _ _ => OtherError 0
  | _ => TypeError
  end.

(** /repo/scheme/fields/integer.py:38-46, float.py:38-46, decimal.py:67-75 *)
Definition converted {A} (decimal : bool) (inj : A -> val) (conv : val -> option A) (v : val)
  : res val :=
  match conv v with Some a => Ok (inj a) | None => py (conversion_error decimal v) end.

(** [subject = interpolate_parameters(...)] if it is a string (containers, surrogates).
    /repo/scheme/fields/map.py:152-170, sequence.py:141-163, structure.py:309-338, tuple.py:141-161,
    surrogate.py:36-47 *)
Definition interpolate_text (ip : interpolator) (v : val) : res val :=
  match v with VStr _ => interpolate_parameters ip true v | _ => Ok v end.

(** [surrogate.interpolate] given how a field interpolates and how descriptions are reconstructed.
    [contribute] does nothing unless overridden (not modelled); versions other than integers count as
    TypeError.  /repo/scheme/surrogate.py:101-112, 159-183 *)
Definition surr_interpolate (recon : val -> res field) (interp : field -> val -> res val)
  (items : list (val * val)) : res val :=
  let token := match sget $"_" items with Some t => t | None => VNone end in
  let items1 := sdel $"_" items in
  if negb (hashable token) then py TypeError else
  let impl := match token with VNone => O | t => e_impl E t end in
  match sget $"__schema__" items1 with
  | Some sch =>
      do f <- recon sch;
      do r <- interp f (VDict false (sdel $"__schema__" items1));
      match as_dict r with
      | Some l => Ok (VSurr impl (Some f) None l)
      | None => py TypeError
      end
  | None =>
      match e_schemas E impl with
      | [] => py ValueError
      | schemas =>
          let ver := match sget $"__version__" items1 with
                     | Some VNone | None => VInt (zlen schemas)
                     | Some w => w
                     end in
          match ver with
          | VInt z =>
              let i := (z - 1)%Z in
              let i' := if (i <? 0)%Z then (i + zlen schemas)%Z else i in
              if (i' <? 0)%Z then py ValueError
              else match nth_error schemas (Z.to_nat i') with
                   | None => py ValueError
                   | Some f =>
                       do r <- interp f (VDict false (sdel $"__version__" items1));
                       match as_dict r with
                       | Some l => Ok (VSurr impl None (Some z) l)
                       | None => py TypeError
                       end
                   end
          | _ => py TypeError
          end
      end
  end.

(** The entry of one key of a structure: an absent key is skipped, so is one with an undefined
    parameter.  /repo/scheme/fields/structure.py:322-336 *)
Definition interpolate_entry (items : list (val * val)) (nc : str * worker)
  : res (option (val * val)) :=
  match sget (fst nc) items with
  | None => Ok None
  | Some v => do r <- unless_missing (work (snd nc) v);
              Ok (match r with Some w => Some (VStr (fst nc), w) | None => None end)
  end.

(** The loop over the variants when the identity is falsy, as in [extract_variants].
    /repo/scheme/fields/structure.py:309-338 *)
Fixpoint interpolate_variants (items : list (val * val)) (vs : list (val * list (str * worker)))
  : res val :=
  match vs with
  | [] => Ok (VDict false [])
  | (i, _) :: vs' =>
      match dget L i items with None => interpolate_variants items vs' | Some _ => py AttributeError end
  end.

(** The loop of [Tuple.interpolate].  /repo/scheme/fields/tuple.py:151-159 *)
Fixpoint interpolate_tuple (cs : list worker) (l : list val) : res (list val) :=
  match cs with
  | [] => Ok []
  | c :: cs' =>
      match l with
      | [] => py IndexError
      | v :: l' => do w <- work c v; do ws <- interpolate_tuple cs' l'; Ok (w :: ws)
      end
  end.

(** One level of [interpolate].  /repo/scheme/field.py:408-416, /repo/scheme/fields/decimal.py:67-73,
    enumeration.py:46-54, float.py:38-44, integer.py:38-44, map.py:152-176, sequence.py:141-163,
    structure.py:309-338, surrogate.py:36-47, text.py:59-63, token.py:30-34, tuple.py:141-161,
    union.py:79-96 (the third argument is a name that does not exist), uuid.py:23-27 *)
Definition interpolate_body (recon : val -> res field) (sub : field -> val -> res val)
  (ip : interpolator) (kc : kindP val worker) (v : val) : res val :=
  if is_none v then Ok VNone else
  match kc with
  | KDecimal _ _ =>
      if is_equivalent kc v then Ok v
      else do w <- interpolate_parameters ip true v; converted true VDec (to_dec (e_udigit E)) w
  | KEnumeration l _ =>
      do b <- vmem_r L v l;
      if b then Ok v else
      do w <- interpolate_parameters ip true v;
      do b' <- vmem_r L w l;
      if b' then Ok w else py CannotInterpolateError
  | KFloat _ _ =>
      match v with
      | VInt _ | VBool _ | VFloat _ => converted false VFloat (to_float (e_udigit E)) v
      | _ => do w <- interpolate_parameters ip true v; converted false VFloat (to_float (e_udigit E)) w
      end
  | KInteger _ _ =>
      match v with
      | VInt _ | VBool _ | VFloat _ => converted false VInt (to_int (e_udigit E)) v
      | _ => do w <- interpolate_parameters ip true v; converted false VInt (to_int (e_udigit E)) w
      end
  | KText _ _ _ _ | KEmail _ _ _ _ | KToken _ => interpolate_parameters ip false v
  | KSurrogate _ =>
      do s <- interpolate_text ip v;
      match s with
      | VSurr _ _ _ _ => Ok s
      | VDict _ items => surr_interpolate recon sub items
      | _ => py ValueError
      end
  | KMap c _ _ =>
      do s <- interpolate_text ip v;
      match as_dict s with
      | None => py CannotInterpolateError
      | Some items =>
          do r <- gather (fun kv => do o <- unless_missing (work c (snd kv));
                                    Ok (match o with Some w => Some (fst kv, w) | None => None end))
                         items;
          Ok (VDict false r)
      end
  | KSequence c _ _ _ =>
      do s <- interpolate_text ip v;
      match s with
      | VList l | VTuple l => do r <- make_all (work c) l; Ok (VList r)
      | _ => py CannotInterpolateError
      end
  | KTuple cs =>
      do s <- interpolate_text ip v;
      match s with
      | VList l | VTuple l => do r <- interpolate_tuple cs l; Ok (VTuple r)
      | _ => py CannotInterpolateError
      end
  | KUnion cs =>
      do s <- interpolate_text ip v;
      match cs with
      | [] => py CannotInterpolateError
      | c :: _ => if undefined E (fst c) then py UndefinedFieldError else py NameError
      end
  | KStructure d _ _ =>
      do s <- interpolate_text ip v;
      match as_dict s with
      | None => py CannotInterpolateError
      | Some items =>
          match d with
          | SPlain defn => do r <- gather (interpolate_entry items) defn; Ok (VDict false r)
          | SPoly on vs =>
              match fparams E (fst on) with
              | None => py AttributeError
              | Some q =>
                  match p_name q with
                  | None => py (OtherError 0)
                  | Some n =>
                      match sget n items with
                      | None => py KeyError
                      | Some ident =>
                          if truthy ident then
                            do defn <- variant vs ident;
                            do r <- gather (interpolate_entry items) defn; Ok (VDict false r)
                          else interpolate_variants items vs
                      end
                  end
              end
          end
      end
  | _ => if is_equivalent kc v then Ok v else interpolate_parameters ip true v
  end.

(** [field.interpolate(subject, parameters, interpolator)]; fuel as in [process_gen].
    /repo/scheme/field.py:408-416 and the [interpolate] of /repo/scheme/fields/*.py *)
Fixpoint interpolate (recon : val -> res field) (n : nat) (ip : interpolator)
  : field -> val -> res val :=
  fix intp (f : field) : val -> res val :=
    match f with
    | FUndef i => fun v =>
        match e_undef E i with
        | Some (Fld p k) =>
            match n with
            | O => py RecursionError
            | S m => interpolate recon m ip (Fld p k) v
            end
        | _ => py AttributeError
        end
    | Fld p k =>
        interpolate_body recon
          (fun g v => match n with O => py RecursionError | S m => interpolate recon m ip g v end)
          ip (kmap (fun g => (g, intp g)) k)
    end.

End Values.
