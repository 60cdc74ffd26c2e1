(** * [process]: validation, serialization and unserialization of values by fields.

    Model of [Field.process] (/repo/scheme/field.py:418-475) and of the [process],
    [_validate_value], [_serialize_value], [_unserialize_value] and [_is_null] of every field class
    in /repo/scheme/fields/.  An error entry keeps its token; title and message are not modelled.
    The order in which unknown keys are reported (iteration over a [set]) is the order of the value. *)
From Verif Require Export Env.

(** What a parent calls on a subfield: phase, serialized, ancestry, value.
    [field.process].  /repo/scheme/field.py:418 *)
Definition procfun := phase -> bool -> list str -> val -> res val.
(** A subfield together with its [process] method.  /repo/scheme/fields/sequence.py:189-194 and the like. *)
Definition child := (field * procfun)%type.

(** The dict appended by [ValidationError.construct].  /repo/scheme/exceptions.py:206-209 *)
Definition entry (tok : str) : val := VDict false [(VStr $"token", VStr tok)].

(** [ValidationError(identity, field).construct(token)] and the [InvalidTypeError] variant.
    /repo/scheme/exceptions.py:203-212 *)
Definition own_err (c : ecls) (anc : list str) (tok : str) : err := Err c [entry tok] anc None true.
(** Raising a ValidationError with a token.  /repo/scheme/exceptions.py:203-209 *)
Definition verr {A} (anc : list str) (tok : str) : res A := Raise (XErr (own_err CValidation anc tok)).
(** Raising an InvalidTypeError with a token.  /repo/scheme/exceptions.py:211-212 *)
Definition terr {A} (anc : list str) (tok : str) : res A := Raise (XErr (own_err CInvalidType anc tok)).
(** [ValidationError(identity, field, value, structure)].  /repo/scheme/fields/sequence.py:205 and the like. *)
Definition struct_err (anc : list str) (s : val) : err := Err CValidation [] anc (Some s) true.
(** Raising it.  /repo/scheme/fields/sequence.py:205, map.py, tuple.py, structure.py: process *)
Definition serr {A} (anc : list str) (s : val) : res A := Raise (XErr (struct_err anc s)).

(** Raising an exception that is no structural error; used for all of /repo/scheme/fields/*.py *)
Definition py {A} (x : pyexc) : res A := Raise (XPy x).

(** A number, for [veq_r]: /repo/scheme/field.py:462 *)
Definition is_num (v : val) : bool := match num_of v with Some _ => true | None => false end.
(** A signalling NaN, for [veq_r]: /repo/scheme/field.py:462 *)
Definition snan_val (v : val) : bool := match v with VDec d => is_snan d | _ => false end.

(** [a == b] including the InvalidOperation raised by a signaling NaN compared with a number.
    /repo/scheme/field.py:462 *)
Definition veq_r (L : localtz) (a b : val) : res bool :=
  if (snan_val a && is_num b) || (snan_val b && is_num a) then py InvalidOperation
  else Ok (veq L a b).

(** [v in l].  /repo/scheme/fields/enumeration.py:70, 77 *)
Fixpoint vmem_r (L : localtz) (v : val) (l : list val) : res bool :=
  match l with
  | [] => Ok false
  | x :: l' => do b <- veq_r L x v; if b then Ok true else vmem_r L v l'
  end.

(** [guaranteed_name].  /repo/scheme/field.py:246-248 *)
Definition guaranteed_name (p : params) (type : str) : str :=
  match p_name p with
  | Some (c :: s) => c :: s
  | _ => $"(" ++ type ++ $")"
  end.

(** [Field._is_null] (/repo/scheme/field.py:574-579) and [Enumeration._is_null]
    (/repo/scheme/fields/enumeration.py:69-74): [Ok true] means the value is null. *)
Definition is_null (L : localtz) (p : params) (ignored : option (list val)) (anc : list str) (v : val)
  : res bool :=
  do ig <- match ignored with
           | Some l => vmem_r L v l
           | None => Ok false
           end;
  if is_none v || ig then
    if p_nonnull p then verr anc $"nonnull" else Ok true
  else Ok false.

(** [ignored_values] of an Enumeration.  /repo/scheme/fields/enumeration.py:69-70 *)
Definition kind_ignored {F} (k : kindP val F) : option (list val) :=
  match k with KEnumeration _ ig => ig | _ => None end.

(** ** Bounds *)

(** [minimum is not None and value < minimum].  /repo/scheme/fields/integer.py:60 and the like. *)
Definition below {A} (lt : A -> A -> bool) (v : A) (bound : option A) : bool :=
  match bound with Some b => lt v b | None => false end.
(** [maximum is not None and value > maximum].  /repo/scheme/fields/integer.py:65 and the like. *)
Definition above {A} (lt : A -> A -> bool) (v : A) (bound : option A) : bool :=
  match bound with Some b => lt b v | None => false end.

(** The minimum then maximum check shared by Integer (/repo/scheme/fields/integer.py:59-67), Float,
    Date, Time. *)
Definition check_bounds {A} (lt : A -> A -> bool) (anc : list str) (mn mx : option A) (v : A) (r : val)
  : res val :=
  if below lt v mn then verr anc $"minimum"
  else if above lt v mx then verr anc $"maximum"
  else Ok r.

(** min_length then max_length.  /repo/scheme/fields/text.py:71-85, binary.py:57-71 *)
Definition check_length (anc : list str) (mn mx : option Z) (n : Z) (r : val) : res val :=
  if below Z.ltb n mn then verr anc $"min_length"
  else if above Z.ltb n mx then verr anc $"max_length"
  else Ok r.

(** [Decimal.__lt__]: comparing a NaN raises InvalidOperation.  /repo/scheme/fields/decimal.py:92, 97 *)
Definition dec_lt (a b : dec) : res bool :=
  match a, b with
  | DNan _ _ _, _ | _, DNan _ _ _ => py InvalidOperation
  | _, _ => Ok (num_ltb (num_of_dec a) (num_of_dec b))
  end.

(** [datetime.__lt__].  /repo/scheme/fields/datetime.py:103, 108 *)
Definition dt_lt (L : localtz) (a b : datetime) : res bool :=
  match dt_tz a, dt_tz b with
  | None, None => Ok (wall_ltb a b)
  | Some x, Some y =>
      if tz_is x y then Ok (wall_ltb a b)
      else let i := (dt_secs a - utcoffset L x (dt_secs a))%Z in
           let j := (dt_secs b - utcoffset L y (dt_secs b))%Z in
           Ok ((i <? j)%Z || ((i =? j)%Z && (t_us (dt_time a) <? t_us (dt_time b))%Z))
  | _, _ => py TypeError
  end.

(** Minimum then maximum with a comparison that may raise.
    /repo/scheme/fields/decimal.py:91-99, datetime.py:102-110 *)
Definition check_bounds_r {A} (lt : A -> A -> res bool) (anc : list str) (mn mx : option A) (v : A)
  (r : val) : res val :=
  do b <- match mn with Some m => lt v m | None => Ok false end;
  if b then verr anc $"minimum"
  else do a <- match mx with Some m => lt m v | None => Ok false end;
       if a then verr anc $"maximum" else Ok r.

(** [value > maximum] on datetimes is [maximum < value]; the same holds for decimals. *)

(** ** Unserialization of scalars *)

(** [int(value)]; [None] is any exception.  /repo/scheme/fields/integer.py:51 *)
Definition to_int (ud : N -> option N) (v : val) : option Z :=
  match v with
  | VInt z => Some z
  | VBool b => Some (b2z b)
  | VFloat f => Z_of_float f
  | VDec d => Z_of_dec d
  | VStr s => parse_int ud s
  | VBytes b => parse_int_ascii b
  | _ => None
  end.

(** [float(value)]; [None] is any exception.  /repo/scheme/fields/float.py:48 *)
Definition to_float (ud : N -> option N) (v : val) : option spec_float :=
  match v with
  | VFloat f => Some f
  | VInt z => float_of_Z z
  | VBool b => float_of_Z (b2z b)
  | VDec d => float_of_dec d
  | VStr s => parse_float ud s
  | VBytes b => parse_float_ascii b
  | _ => None
  end.

(** [Decimal((sign, digits, exponent))].  For /repo/scheme/fields/decimal.py:83 *)
Fixpoint digit_list (l : list val) : option (list N) :=
  match l with
  | [] => Some []
  | VInt z :: l' =>
      if ((0 <=? z) && (z <=? 9))%Z
      then match digit_list l' with Some r => Some (Z.to_N z :: r) | None => None end
      else None
  | VBool b :: l' => match digit_list l' with Some r => Some (Z.to_N (b2z b) :: r) | None => None end
  | _ => None
  end.

(** [Decimal((sign, digits, exponent))].  /repo/scheme/fields/decimal.py:83 *)
Definition dec_of_triple (sign digs expo : val) : option dec :=
  match (match sign with VInt 0 => Some false | VInt 1 => Some true | VBool b => Some b | _ => None end),
        (match digs with VTuple l | VList l => digit_list l | _ => None end) with
  | Some neg, Some ds =>
      match expo with
      | VInt e => Some (DFin neg (digits_val ds) e)
      | VBool b => Some (DFin neg (digits_val ds) (b2z b))
      | VStr s => if str_eqb s $"F" then Some (DInf neg)
                  else if str_eqb s $"n" then Some (DNan neg false (digits_val ds))
                  else if str_eqb s $"N" then Some (DNan neg true (digits_val ds))
                  else None
      | _ => None
      end
  | _, _ => None
  end.

(** [Decimal(value)]; [None] is any exception.  /repo/scheme/fields/decimal.py:83 *)
Definition to_dec (ud : N -> option N) (v : val) : option dec :=
  match v with
  | VDec d => Some d
  | VStr s => parse_dec ud s
  | VInt z => Some (dec_of_Z z)
  | VBool b => Some (dec_of_Z (b2z b))
  | VFloat f => Some (dec_of_float f)
  | VTuple [s; d; e] | VList [s; d; e] => dec_of_triple s d e
  | _ => None
  end.

(** [try: return convert(value) except Exception: raise InvalidTypeError(...).construct('invalid')].
    /repo/scheme/fields/date.py:72-75 and the like. *)
Definition or_invalid {A} (anc : list str) (inj : A -> val) (o : option A) : res val :=
  match o with Some a => Ok (inj a) | None => terr anc $"invalid" end.

(** The field of a [VField] value when it is a [Field] instance (a placeholder is not).
    [isinstance(value, Field)].  /repo/scheme/fields/definition.py:52 *)
Definition as_field (v : val) : option field :=
  match v with VField (Fld p k) => Some (Fld p k) | _ => None end.

(** [str.lower()], character by character: the special rule for a capital sigma at the end of a word is
    left out.  /repo/scheme/fields/email.py:63 *)
Definition lower (ul : N -> str) (s : str) : str :=
  flat_map (fun c => if (c <? 128)%N then [lower_ascii c] else ul c) s.

(** SEPARATORS.  /repo/scheme/fields/email.py:21 *)
Definition is_separator (c : N) : bool := is_ascii_space c || in_list $",;:" c.
(** [\s] or one of [,;:].  /repo/scheme/fields/email.py:20 *)
Definition is_separator_re (c : N) : bool := is_space c || in_list $",;:" c.

(** [SEPARATOR_EXPR.sub(',', value)]: every maximal run becomes one comma.
    /repo/scheme/fields/email.py:20, 65 *)
Fixpoint sub_separators (inrun : bool) (s : str) : str :=
  match s with
  | [] => []
  | c :: s' => if is_separator_re c
               then (if inrun then [] else [44%N]) ++ sub_separators true s'
               else c :: sub_separators false s'
  end.

(** [Email.preprocessor] on text.  /repo/scheme/fields/email.py:59-67 *)
Definition email_preprocess (ul : N -> str) (multiple extended : bool) (s : str) : str :=
  if extended then s
  else let v := lower ul (strip is_separator s) in
       if multiple then sub_separators false v else v.

Section Proc.
Variable E : env.
Let L := e_local E.

(** [describe] and [reconstruct], used by Definition and Surrogate fields; the knot is tied in
    [Describe.v]. *)
Variable desc : field -> res val.
Variable recon : val -> res field.

(** [_unserialize_value] of the scalar fields. *)
Definition unserialize_value {F} (k : kindP val F) (anc : list str) (v : val) : res val :=
  let ud := e_udigit E in
  match k with
  | KBinary _ _ =>                       (* /repo/scheme/fields/binary.py:47-51 *)
      match v with
      | VBytes b => match b64_decode b with Some r => Ok (VBytes r) | None => py BinasciiError end
      | _ => terr anc $"invalid"
      end
  | KDate _ _ =>                         (* /repo/scheme/fields/date.py:68-75 *)
      match v with
      | VDate _ | VDateTime _ => Ok v
      | VStr s => or_invalid anc VDate (parse_date ud s)
      | _ => terr anc $"invalid"
      end
  | KDateTime _ _ _ =>                   (* /repo/scheme/fields/datetime.py:86-94 *)
      match v with
      | VDateTime _ => Ok v
      | VStr s => or_invalid anc VDateTime (parse_datetime ud s)
      | _ => terr anc $"invalid"
      end
  | KTime _ _ =>                         (* /repo/scheme/fields/time.py:64-72 *)
      match v with
      | VTime _ => Ok v
      | VStr s => or_invalid anc VTime (parse_tod ud s)
      | _ => terr anc $"invalid"
      end
  | KDecimal _ _ =>                      (* /repo/scheme/fields/decimal.py:78-85 *)
      or_invalid anc VDec (to_dec ud v)
  | KFloat _ _ =>                        (* /repo/scheme/fields/float.py:46-50 *)
      or_invalid anc VFloat (to_float ud v)
  | KInteger _ _ =>                      (* /repo/scheme/fields/integer.py:46-53 *)
      match v with
      | VBool _ => terr anc $"invalid"
      | _ => or_invalid anc VInt (to_int ud v)
      end
  | KDefinition _ =>                     (* /repo/scheme/fields/definition.py:44-49 *)
      match recon v with
      | Ok f => Ok (VField f)
      | Raise _ => verr anc $"invalid"
      end
  | KError =>                            (* /repo/scheme/fields/error.py:18-25 *)
      match v with
      | VErr _ => Ok v
      | VTuple [es; s] => err_unserialize es s
      | _ => terr anc $"invalid"
      end
  | KObject =>                           (* /repo/scheme/fields/object.py:26-34 *)
      match v with
      | VStr s => match e_import E s with Some o => Ok o | None => verr anc $"import" end
      | _ => Ok v
      end
  | _ => Ok v                            (* /repo/scheme/field.py:589-596 *)
  end.

(** [preprocessor]: the parameter if given, else the method of Email.
    /repo/scheme/field.py:455-460, /repo/scheme/fields/email.py:59-67 *)
Definition preprocess {F} (p : params) (k : kindP val F) (v : val) : res val :=
  match p_preprocessor p with
  | Some n => e_pre E n v
  | None =>
      match k with
      | KEmail multiple extended _ _ =>
          if extended then Ok v
          else match v with
               | VStr s => Ok (VStr (email_preprocess (e_ulower E) multiple extended s))
               | _ => py AttributeError
               end
      | _ => Ok v
      end
  end.

(** [DateTime._normalize_value].  /repo/scheme/fields/datetime.py:71-79 *)
Definition dt_normalize (utc : bool) (dt : datetime) : res datetime :=
  let target := if utc then TzUTC else TzLocal in
  match dt_tz dt with
  | None => Ok (with_tz dt (Some target))
  | Some z => if tz_is z target then Ok dt
              else match astimezone L dt z target with
                   | Some r => Ok r
                   | None => py OverflowError
                   end
  end.

(** The pattern the constructor of Email picks.  /repo/scheme/fields/email.py:33-45 *)
Definition email_pattern (multiple extended : bool) : re :=
  if multiple then email_list_re else if extended then email_extended_re else email_re.

(** [_validate_value] of the scalar fields: the validated value. *)
Definition validate_value {F} (k : kindP val F) (anc : list str) (v : val) : res val :=
  match k with
  | KBinary mn mx =>                     (* /repo/scheme/fields/binary.py:53-71 *)
      match v with
      | VBytes b => check_length anc mn mx (zlen b) v
      | _ => terr anc $"invalid"
      end
  | KBoolean =>                          (* /repo/scheme/fields/boolean.py:16-18 *)
      match v with VBool _ => Ok v | _ => terr anc $"invalid" end
  | KDate mn mx =>                       (* /repo/scheme/fields/date.py:77-89; a datetime is a date *)
      match v with
      | VDate d => check_bounds date_ltb anc mn mx d v
      | VDateTime _ => match mn, mx with None, None => Ok v | _, _ => py TypeError end
      | _ => terr anc $"invalid"
      end
  | KDateTime mn mx utc =>               (* /repo/scheme/fields/datetime.py:96-112 *)
      match v with
      | VDateTime dt => do n <- dt_normalize utc dt;
                        check_bounds_r (dt_lt L) anc mn mx n (VDateTime n)
      | _ => terr anc $"invalid"
      end
  | KTime mn mx =>                       (* /repo/scheme/fields/time.py:74-87 *)
      match v with
      | VTime t => check_bounds tod_ltb anc mn mx t v
      | _ => terr anc $"invalid"
      end
  | KDecimal mn mx =>                    (* /repo/scheme/fields/decimal.py:87-99 *)
      match v with
      | VDec d => check_bounds_r dec_lt anc mn mx d v
      | _ => terr anc $"invalid"
      end
  | KFloat mn mx =>                      (* /repo/scheme/fields/float.py:52-64 *)
      match v with
      | VFloat f => check_bounds (fun a b => num_ltb (num_of_float a) (num_of_float b)) anc mn mx f v
      | _ => terr anc $"invalid"
      end
  | KInteger mn mx =>                    (* /repo/scheme/fields/integer.py:55-67 *)
      match v with
      | VInt z => check_bounds Z.ltb anc mn mx z v
      | _ => terr anc $"invalid"
      end
  | KDefinition valid =>                 (* /repo/scheme/fields/definition.py:51-59 *)
      match as_field v with
      | Some (Fld _ k') =>
          match valid with
          | Some (t :: ts) => if smem (kind_type k') (t :: ts) then Ok v else verr anc $"invalidfield"
          | _ => Ok v
          end
      | _ => terr anc $"invalid"
      end
  | KText pat mn mx strp =>              (* /repo/scheme/fields/text.py:65-90 *)
      match v with
      | VStr s =>
          let s' := if strp then strip is_space s else s in
          do r <- check_length anc mn mx (zlen s') (VStr s');
          match pat with
          | Some n => if e_pattern E n s' then Ok r else verr anc $"pattern"
          | None => Ok r
          end
      | _ => terr anc $"invalid"
      end
  | KEmail multiple extended mn mx =>    (* /repo/scheme/fields/email.py:27-51, text.py:65-90 *)
      match v with
      | VStr s =>
          do r <- check_length anc mn mx (zlen s) v;
          if rmatch_dollar (email_pattern multiple extended) s then Ok r else verr anc $"pattern"
      | _ => terr anc $"invalid"
      end
  | KEnumeration l _ =>                  (* /repo/scheme/fields/enumeration.py:76-79 *)
      do b <- vmem_r L v l;
      if b then Ok v else terr anc $"invalid"
  | KError =>                            (* /repo/scheme/fields/error.py:27-30 *)
      match v with VErr _ => Ok v | _ => terr anc $"invalid" end
  | KSurrogate valid =>                  (* /repo/scheme/fields/surrogate.py:61-67; the message of the
                                            error uses a parameter that is not given: KeyError *)
      match v with
      | VSurr impl _ _ _ =>
          match valid with
          | Some (name :: names) =>
              match e_identity E impl with
              | None => py AttributeError
              | Some s => if existsb (str_eqb s) (name :: names) then Ok v else py KeyError
              end
          | _ => Ok v
          end
      | _ => terr anc $"invalid"
      end
  | KToken seg =>                        (* /repo/scheme/fields/token.py:36-43 *)
      match v with
      | VStr s =>
          if rmatch_dollar (token_re (e_uword E)) s then
            match seg with
            | Some n => if (Z.of_nat (count_char 58 s) + 1 =? n)%Z then Ok v else verr anc $"invalid"
            | None => Ok v
            end
          else terr anc $"invalid"
      | _ => terr anc $"invalid"
      end
  | KUUID =>                             (* /repo/scheme/fields/uuid.py:29-32 *)
      match v with
      | VStr s => if rmatch_dollar uuid_re s then Ok v else terr anc $"invalid"
      | _ => terr anc $"invalid"
      end
  | _ => Ok v                            (* /repo/scheme/field.py:598-610 *)
  end.

(** [_serialize_value] of the scalar fields. *)
Definition serialize_value {F} (k : kindP val F) (v : val) : res val :=
  match k, v with
  | KBinary _ _, VBytes b => Ok (VBytes (b64_encode b))        (* binary.py:44-45 *)
  | KDate _ _, VDate d => Ok (VStr (date_text (e_pad E) d))    (* date.py:65-66 *)
  | KDate _ _, VDateTime dt => Ok (VStr (date_text (e_pad E) (dt_date dt)))
  | KTime _ _, VTime t => Ok (VStr (tod_text t))               (* time.py:61-62 *)
  | KDateTime _ _ _, VDateTime dt =>                           (* datetime.py:81-84 *)
      let z := match dt_tz dt with Some z => z | None => TzLocal end in
      if tz_is z TzUTC then Ok (VStr (datetime_text (e_pad E) dt))
      else match astimezone L dt z TzUTC with
           | Some u => Ok (VStr (datetime_text (e_pad E) u))
           | None => py OverflowError
           end
  | KDecimal _ _, VDec d => Ok (VStr (dec_text d))             (* decimal.py:75-76 *)
  | KDefinition _, VField f => desc f                          (* definition.py:41-42 *)
  | KError, VErr e => Ok (err_serialize e)                     (* error.py:15-16 *)
  | KObject, VStr _ => Ok v                                    (* object.py:17-24 *)
  | KObject, _ => match e_identify E v with
                  | Some s => Ok (VStr s)
                  | None => terr [$"(unknown)"] $"invalid"
                  end
  | _, _ => Ok v                                               (* field.py:581-587 *)
  end.

(** [InvalidTypeError(...).construct('invalid')] as written in [Field.process]
    (/repo/scheme/field.py:459-463): the message of Enumeration
    (/repo/scheme/fields/enumeration.py:15) needs a parameter [values] that is not given there, so
    formatting it (/repo/scheme/field.py:26-29) raises KeyError. *)
Definition construct_invalid {A F} (k : kindP val F) (anc : list str) : res A :=
  match k with
  | KEnumeration _ _ => py KeyError
  | _ => terr anc $"invalid"
  end.

(** [Field.process] after the ancestry is settled, for the fields that do not override it.
    /repo/scheme/field.py:449-475.  [unser] and [ser_v] are the two conversions. *)
Definition process_scalar {F} (p : params) (k : kindP val F)
  (unser : list str -> val -> res val) (ser_v : val -> res val)
  (ph : phase) (ser : bool) (anc : list str) (v : val) : res val :=
  do nul <- is_null L p (kind_ignored k) anc v;
  if nul then Ok VNone else
  do v1 <- (if ser && phase_eqb ph Inbound then unser anc v else Ok v);
  do v2 <- match preprocess p k v1 with Ok w => Ok w | Raise _ => construct_invalid k anc end;
  do c <- (if is_none (p_constant p) then Ok true else veq_r L v2 (p_constant p));
  if negb c then construct_invalid k anc else
  do v3 <- validate_value k anc v2;
  if ser && phase_eqb ph Outbound then
    match ser_v v3 with
    | Raise (XPy OverflowError) => verr anc $"overflow"
    | r => r
    end
  else Ok v3.

(** ** Structural fields *)

(** ['[%s]' % i].  /repo/scheme/fields/sequence.py:194, tuple.py:185 *)
Definition idx_seg (i : nat) : str := $"[" ++ N_text (N.of_nat i) ++ $"]".

(** ['[%s]' % name] for a key.  /repo/scheme/fields/map.py:206 *)
Definition key_seg (k : val) : res str :=
  match k with
  | VStr s => Ok ($"[" ++ s ++ $"]")
  | VInt z => Ok ($"[" ++ Z_text z ++ $"]")
  | VTuple [x] => Ok ($"[" ++ (match x with VStr s => s | VInt z => Z_text z | _ => e_str E x end) ++ $"]")
  | VTuple _ => py TypeError
  | _ => Ok ($"[" ++ e_str E k ++ $"]")
  end.

(** Parameters of the field in a slot; [None] when the slot holds an undefined placeholder.
    /repo/scheme/fields/structure.py:414, 416, 425 *)
Definition fparams (f : field) : option params :=
  match f with
  | Fld p _ => Some p
  | FUndef n => match e_undef E n with Some (Fld p _) => Some p | _ => None end
  end.

(** [isinstance(field, Undefined)] where an AttributeError has been raised.
    /repo/scheme/fields/structure.py:434 *)
Definition undefined (f : field) : bool :=
  match fparams f with Some _ => false | None => true end.

(** [except AttributeError: if isinstance(field, Undefined): raise UndefinedFieldError].
    /repo/scheme/fields/sequence.py:198-202, structure.py:433-437 and the like. *)
Definition wrap_undef (f : field) (r : res val) : res val :=
  match r with
  | Raise (XPy AttributeError) => if undefined f then py UndefinedFieldError else r
  | _ => r
  end.

(** Collects the outcome of one subvalue: a structural error is stored in place.
    /repo/scheme/fields/sequence.py:193-197 and the like. *)
Definition collect (r : res val) : res (val * bool) :=
  match r with
  | Ok v => Ok (v, true)
  | Raise (XErr e) => Ok (VErr e, false)
  | Raise x => Raise x
  end.

(** Preprocessors of Sequence, Map and Tuple: exceptions propagate.
    /repo/scheme/fields/sequence.py:175-176, map.py:188-189, tuple.py:171-172 *)
Definition pre_raw (p : params) (v : val) : res val :=
  match p_preprocessor p with Some n => e_pre E n v | None => Ok v end.

(** The loop of [Sequence.process].  /repo/scheme/fields/sequence.py:191-202 *)
Fixpoint seq_loop (c : child) (ph : phase) (ser : bool) (anc : list str) (i : nat) (l : list val)
  : res (list val * bool) :=
  match l with
  | [] => Ok ([], true)
  | v :: l' =>
      do x <- collect (wrap_undef (fst c) (snd c ph ser (anc ++ [idx_seg i]) v));
      do r <- seq_loop c ph ser anc (S i) l';
      Ok (fst x :: fst r, snd x && snd r)
  end.

(** [len(set(sequence)) != len(sequence)] for hashable items.  /repo/scheme/fields/sequence.py:206 *)
Fixpoint has_dup (l : list val) : bool :=
  match l with
  | [] => false
  | v :: l' => vmem L v l' || has_dup l'
  end.

(** [Sequence.process].  /repo/scheme/fields/sequence.py:165-209 *)
Definition process_sequence (p : params) (c : child) (minl maxl : option Z) (unique : bool)
  (ph : phase) (ser : bool) (anc : list str) (v : val) : res val :=
  do nul <- is_null L p None anc v;
  if nul then Ok VNone else
  match v with
  | VList _ =>
      do v1 <- pre_raw p v;
      match py_iter v1 with
      | None => py TypeError
      | Some l =>
          if below Z.ltb (zlen l) minl then verr anc $"min_length"
          else if above Z.ltb (zlen l) maxl then verr anc $"max_length"
          else
            do r <- seq_loop c ph ser anc 0 l;
            if negb (snd r) then serr anc (VList (fst r))
            else if unique then
              if forallb hashable (fst r) then
                if has_dup (fst r) then verr anc $"duplicate" else Ok (VList (fst r))
              else py TypeError
            else Ok (VList (fst r))
      end
  | _ => terr anc $"invalid"
  end.

(** The loop over items of [Map.process].  /repo/scheme/fields/map.py:195-214 *)
Fixpoint map_loop (cv : child) (ck : option child) (ph : phase) (ser : bool) (anc : list str)
  (items : list (val * val)) (acc : list (val * val)) (valid : bool) : res (list (val * val) * bool) :=
  match items with
  | [] => Ok (acc, valid)
  | (name, sub) :: rest =>
      do name' <- match ck with
                  | Some c =>
                      do seg <- key_seg name;
                      match snd c ph ser (anc ++ [seg]) name with
                      | Raise (XErr _) => verr anc $"invalidkeys"
                      | r => r
                      end
                  | None => match name with VStr _ => Ok name | _ => verr anc $"invalidkeys" end
                  end;
      do seg <- key_seg name';
      do x <- collect (wrap_undef (fst cv) (snd cv ph ser (anc ++ [seg]) sub));
      if hashable name'
      then map_loop cv ck ph ser anc rest (dset L name' (fst x) acc) (valid && snd x)
      else py TypeError
  end.

(** The loop over required keys.  /repo/scheme/fields/map.py:216-221 *)
Fixpoint map_required (anc : list str) (req : list val) (acc : list (val * val)) (valid : bool)
  : res (list (val * val) * bool) :=
  match req with
  | [] => Ok (acc, valid)
  | name :: rest =>
      if hashable name then
        if dmem L name acc then map_required anc rest acc valid
        else map_required anc rest
               (dset L name (VErr (own_err CValidation anc $"required")) acc) false
      else py TypeError
  end.

(** [Map.process].  /repo/scheme/fields/map.py:178-226 *)
Definition process_map (p : params) (cv : child) (ck : option child) (req : option (list val))
  (ph : phase) (ser : bool) (anc : list str) (v : val) : res val :=
  do nul <- is_null L p None anc v;
  if nul then Ok VNone else
  match as_dict v with
  | None => terr anc $"invalid"
  | Some _ =>
      do v1 <- pre_raw p v;
      match as_dict v1 with
      | None => py AttributeError                      (* value.items() *)
      | Some items =>
          do r1 <- map_loop cv ck ph ser anc items [] true;
          do r2 <- match req with
                   | Some l => map_required anc l (fst r1) (snd r1)
                   | None => Ok r1
                   end;
          if snd r2 then Ok (VDict false (fst r2)) else serr anc (VDict false (fst r2))
      end
  end.

(** [value[i]] on whatever a preprocessor returned.  /repo/scheme/fields/tuple.py:184 *)
Definition py_index (v : val) (i : nat) : res val :=
  match v with
  | VDict _ l | VSurr _ _ _ l =>
      match dget L (VInt (Z.of_nat i)) l with Some x => Ok x | None => py KeyError end
  | _ => match py_iter v with
         | Some l => match nth_error l i with Some x => Ok x | None => py IndexError end
         | None => py TypeError
         end
  end.

(** The loop of [Tuple.process].  /repo/scheme/fields/tuple.py:179-193 *)
Fixpoint tuple_loop (cs : list child) (ph : phase) (ser : bool) (anc : list str) (i : nat) (v : val)
  : res (list val * bool) :=
  match cs with
  | [] => Ok ([], true)
  | c :: cs' =>
      do u <- py_index v i;
      do x <- collect (wrap_undef (fst c) (snd c ph ser (anc ++ [idx_seg i]) u));
      do r <- tuple_loop cs' ph ser anc (S i) v;
      Ok (fst x :: fst r, snd x && snd r)
  end.

(** [Tuple.process].  /repo/scheme/fields/tuple.py:163-198 *)
Definition process_tuple (p : params) (cs : list child)
  (ph : phase) (ser : bool) (anc : list str) (v : val) : res val :=
  do nul <- is_null L p None anc v;
  if nul then Ok VNone else
  match v with
  | VList _ | VTuple _ =>
      do v1 <- pre_raw p v;
      match py_iter v1 with
      | None => py TypeError
      | Some l =>
          if Nat.eqb (length l) (length cs) then
            do r <- tuple_loop cs ph ser anc 0 v1;
            if snd r then Ok (VTuple (fst r)) else serr anc (VList (fst r))
          else verr anc $"length"
      end
  | _ => terr anc $"invalid"
  end.

(** [Union.process].  /repo/scheme/fields/union.py:98-115 *)
Fixpoint union_loop (cs : list child) (ph : phase) (ser : bool) (anc : list str) (v : val) : res val :=
  match cs with
  | [] => terr anc $"invalid"
  | c :: cs' =>
      match wrap_undef (fst c) (snd c ph ser anc v) with
      | Raise (XErr e) => match er_cls e with
                          | CInvalidType => union_loop cs' ph ser anc v
                          | _ => Raise (XErr e)
                          end
      | r => r
      end
  end.

(** [Union.process] around the loop.  /repo/scheme/fields/union.py:98-102 *)
Definition process_union (p : params) (cs : list child)
  (ph : phase) (ser : bool) (anc : list str) (v : val) : res val :=
  do nul <- is_null L p None anc v;
  if nul then Ok VNone else union_loop cs ph ser anc v.

(** [name in names] and [names.remove(name)] for the set of keys of the value.
    /repo/scheme/fields/structure.py:409 *)
Definition kmem (name : str) (names : list val) : bool :=
  existsb (fun k => match k with VStr s => str_eqb name s | _ => false end) names.
(** [names.remove(name)].  /repo/scheme/fields/structure.py:410 *)
Definition kdel (name : str) (names : list val) : list val :=
  filter (fun k => match k with VStr s => negb (str_eqb name s) | _ => true end) names.

(** What the loop of [Structure.process] decides about one key before processing it.
    /repo/scheme/fields/structure.py:408-429 *)
Inductive decision := DSkip | DRequired | DProcess (v : val).

(** See [decision].  /repo/scheme/fields/structure.py:409-422 *)
Definition decide (ph : phase) (partial : bool) (f : field) (present : bool) (value : option val)
  : res decision :=
  match (if present then value else None) with
  | Some v => Ok (DProcess v)
  | None =>
      if partial then Ok DSkip
      else match fparams f with
           | None => py AttributeError           (* Undefined has no attribute 'default'/'required' *)
           | Some p =>
               if phase_eqb ph Inbound && negb (is_none (p_default p)) then Ok (DProcess (p_default p))
               else if p_required p then Ok DRequired
               else Ok DSkip
           end
  end.

(** The loop over [key_order].  /repo/scheme/fields/structure.py:407-437.  [names] is the set of
    keys not yet visited. *)
Fixpoint struct_loop (defn : list (str * child)) (items : list (val * val)) (partial : bool)
  (ph : phase) (ser : bool) (anc : list str) (order : list str) (names : list val)
  (acc : list (val * val)) (valid : bool) : res (list val * list (val * val) * bool) :=
  match order with
  | [] => Ok (names, acc, valid)
  | name :: order' =>
      match aget name defn with
      | None => py KeyError
      | Some c =>
          let present := kmem name names in
          let names' := kdel name names in
          do d <- decide ph partial (fst c) present (sget name items);
          match d with
          | DSkip => struct_loop defn items partial ph ser anc order' names' acc valid
          | DRequired =>
              struct_loop defn items partial ph ser anc order' names'
                (sset name (VErr (own_err CValidation anc $"required")) acc) false
          | DProcess v =>
              match fparams (fst c) with
              | None => py UndefinedFieldError   (* field.ignore_null on a placeholder, caught *)
              | Some q =>
                  if p_ignore_null q && is_none v then
                    struct_loop defn items partial ph ser anc order' names' acc valid
                  else
                    do x <- collect (wrap_undef (fst c) (snd c ph ser (anc ++ [$"." ++ name]) v));
                    struct_loop defn items partial ph ser anc order' names'
                      (sset name (fst x) acc) (valid && snd x)
              end
          end
      end
  end.

(** The loop over the unknown keys.  /repo/scheme/fields/structure.py:439-443 *)
Definition add_unknown (anc : list str) (names : list val) (acc : list (val * val)) : list (val * val) :=
  fold_left (fun a name => dset L name (VErr (own_err CValidation anc $"unknown")) a) names acc.

(** [self.key_order[identity]] when [identity] is true: the key order is a list, so the identity
    must be an index, and the string found there is then iterated over.
    /repo/scheme/fields/structure.py:397-405 *)
Definition poly_order (order : list str) (identity : val) : res (list str) :=
  let at_index (z : Z) :=
    let z' := if (z <? 0)%Z then (z + zlen order)%Z else z in
    if (z' <? 0)%Z then py IndexError
    else match nth_error order (Z.to_nat z') with
         | Some s => Ok (map (fun c => [c]) s)
         | None => py IndexError
         end in
  if truthy identity then
    match identity with
    | VInt z => at_index z
    | VBool b => at_index (b2z b)
    | _ => py TypeError
    end
  else Ok order.

(** The rest of [Structure.process] once the definition is chosen.
    /repo/scheme/fields/structure.py:397-448 *)
Definition struct_run (defn : list (str * child)) (strict : bool) (key_order : option (list str))
  (identity : val) (partial : bool) (ph : phase) (ser : bool) (anc : list str)
  (items : list (val * val)) : res val :=
  do order <- match key_order with
              | Some (o :: os) => poly_order (o :: os) identity
              | _ => Ok (map fst defn)
              end;
  let ordered := match key_order with Some (_ :: _) => true | _ => false end in
  do r <- struct_loop defn items partial ph ser anc order (map fst items) [] true;
  let '(names, acc, valid) := r in
  let acc' := if strict then add_unknown anc names acc else acc in
  let valid' := valid && (negb strict || match names with [] => true | _ => false end) in
  if valid' then Ok (VDict ordered acc') else serr anc (VDict ordered acc').

(** [Structure.process].  /repo/scheme/fields/structure.py:359-448 *)
Definition process_structure (p : params) (d : sdefP val child) (strict : bool)
  (key_order : option (list str)) (partial : bool)
  (ph : phase) (ser : bool) (anc : list str) (v : val) : res val :=
  do nul <- is_null L p None anc v;
  if nul then Ok VNone else
  match as_dict v with
  | None => terr anc $"invalid"
  | Some _ =>
      do v1 <- match pre_raw p v with Ok w => Ok w | Raise _ => terr anc $"invalid" end;
      match as_dict v1 with
      | None => py AttributeError                      (* value.keys() *)
      | Some items =>
          match d with
          | SPlain defn => struct_run defn strict key_order VNone partial ph ser anc items
          | SPoly on variants =>
              match fparams (fst on) with
              | None => py AttributeError
              | Some q =>
                  let found := match p_name q with
                               | Some n => sget n items
                               | None => dget L VNone items
                               end in
                  match found with
                  | None | Some VNone => verr anc $"required"
                  | Some ident =>
                      match p_name q with
                      | None => py TypeError             (* '.' + None *)
                      | Some n =>
                          do ident' <- snd on ph ser (anc ++ [$"." ++ n]) ident;
                          if hashable ident' then
                            match find (fun vd => veq L (fst vd) ident') variants with
                            | Some (_, (kf :: rest)) =>
                                struct_run (kf :: rest) strict key_order ident' partial ph ser anc items
                            | _ => verr anc $"unrecognized"
                            end
                          else py TypeError
                      end
                  end
              end
          end
      end
  end.

(** ** Surrogates *)

(** [surrogate.unserialize] (/repo/scheme/surrogate.py:129-139, 185-207) given how a field
    unserializes.  [import_object] is [e_impl], which always gives a class.  Simplification: a version
    that is not an integer counts as TypeError (a boolean or another object with [__sub__] could
    also index the list), and so does a schema that makes something other than a dict of the contents
    ([dict(value)] also takes lists of pairs). *)
Definition surr_unserialize (unser : field -> list str -> val -> res val) (anc : list str) (v : val)
  : res val :=
  match as_dict v with
  | None => terr anc $"invalid"
  | Some items =>
      let token := match sget $"_" items with Some t => t | None => VNone end in
      let items1 := sdel $"_" items in
      if negb (hashable token) then py TypeError else
      let impl := match token with VNone => O | t => e_impl E t end in
      match sget $"__schema__" items1 with
      | Some sch =>
          if truthy sch then
            do f <- recon sch;
            do r <- unser f anc (VDict false (sdel $"__schema__" items1));
            match as_dict r with
            | Some l => Ok (VSurr impl (Some f) None l)
            | None => py TypeError                       (* dict(None) *)
            end
          else py ValueError
      | None =>
          match e_schemas E impl with
          | [] => Ok (VSurr impl None None items1)
          | schemas =>
              let ver := match sget $"__version__" items1 with Some w => w | None => VInt 1 end in
              match ver with
              | VInt z =>
                  let i := (z - 1)%Z in
                  let i' := if (i <? 0)%Z then (i + zlen schemas)%Z else i in
                  if (i' <? 0)%Z then py ValueError
                  else match nth_error schemas (Z.to_nat i') with
                       | None => py ValueError
                       | Some f =>
                           do r <- unser f anc (VDict false (sdel $"__version__" items1));
                           match as_dict r with
                           | Some l => Ok (VSurr impl None (Some z) l)
                           | None => py TypeError
                           end
                       end
              | _ => py TypeError
              end
          end
      end
  end.

(** [value[key] = x].  /repo/scheme/surrogate.py:120, 124, 126 *)
Definition entered (key : str) (x r : val) : res val :=
  match r with
  | VDict ordered l => Ok (VDict ordered (sset key x l))
  | VSurr i s z l => Ok (VSurr i s z (sset key x l))     (* surrogates are dicts *)
  | _ => py TypeError
  end.

(** [value['_'] = self.surrogate].  /repo/scheme/surrogate.py:126 *)
Definition tagged (impl : nat) (r : val) : res val :=
  match e_surrogate E impl with
  | Some token => entered $"_" (VStr token) r
  | None => py AttributeError
  end.

(** [surrogate.serialize] given how a field serializes.  /repo/scheme/surrogate.py:114-127 *)
Definition surr_serialize (ser : field -> list str -> val -> res val) (v : val) : res val :=
  match v with
  | VSurr impl schema version items =>
      match schema with
      | Some f =>
          do r <- ser f [] (VDict false items);
          do d <- desc f;
          do r' <- entered $"__schema__" d r;
          tagged impl r'
      | None =>
          match e_schemas E impl with
          | [] => tagged impl (VDict false items)
          | schemas =>
              match version with
              | None => py TypeError
              | Some z =>
                  let i := (z - 1)%Z in
                  let i' := if (i <? 0)%Z then (i + zlen schemas)%Z else i in
                  if (i' <? 0)%Z then py IndexError
                  else match nth_error schemas (Z.to_nat i') with
                       | None => py IndexError
                       | Some f =>
                           do r <- ser f [] (VDict false items);
                           do r' <- (if (1 <? z)%Z then entered $"__version__" (VInt z) r else Ok r);
                           tagged impl r'
                       end
              end
          end
      end
  | _ => py AttributeError
  end.

(** ** All fields *)

(** One level of [process]: the class of the field decides; [sub] is how schemas found at run time
    (surrogates) are processed.  /repo/scheme/field.py:445-475 and the [process] of /repo/scheme/fields/*.py *)
Definition process_body (sub : field -> procfun) (p : params) (k : kindP val child) (partial : bool)
  (ph : phase) (ser : bool) (anc0 : list str) (v : val) : res val :=
  let anc := match anc0 with [] => [guaranteed_name p (kind_type k)] | _ => anc0 end in
  match k with
  | KSequence c mn mx u => process_sequence p c mn mx u ph ser anc v
  | KMap cv ck req => process_map p cv ck req ph ser anc v
  | KTuple cs => process_tuple p cs ph ser anc v
  | KUnion cs => process_union p cs ph ser anc v
  | KStructure d strict order => process_structure p d strict order partial ph ser anc v
  | KSurrogate _ =>
      process_scalar p k (surr_unserialize (fun f a w => sub f Inbound true a w))
                         (surr_serialize (fun f a w => sub f Outbound true a w))
                     ph ser anc v
  | _ => process_scalar p k (unserialize_value k) (serialize_value k) ph ser anc v
  end.

(** [process].  Structural on the field; resolving a placeholder or processing with a schema found
    at run time costs one unit of fuel, and running out of fuel is RecursionError.
    /repo/scheme/field.py:418-475, 628-633 *)
Fixpoint process_gen (n : nat) : field -> bool -> procfun :=
  fix proc (f : field) : bool -> procfun :=
    match f with
    | FUndef i => fun partial ph ser anc v =>
        match e_undef E i with
        | Some (Fld p k) =>
            match n with
            | O => py RecursionError
            | S m => process_gen m (Fld p k) partial ph ser anc v
            end
        | _ => py AttributeError
        end
    | Fld p k => fun partial =>
        process_body (fun g ph ser anc v => match n with
                                            | O => py RecursionError
                                            | S m => process_gen m g false ph ser anc v
                                            end)
          p (kmap (fun g => (g, proc g false)) k) partial
    end.

End Proc.
