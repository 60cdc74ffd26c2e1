(** * Model of the texts of errors: [FieldError] and the tables of errors of the field classes
    (/repo/scheme/field.py:17-54, 165-169, the [errors] attributes in /repo/scheme/fields), and
    [ValidationError.construct] (/repo/scheme/exceptions.py:203-209), with the [errors] parameter of field
    constructors, by which a caller replaces messages. *)
From Verif Require Export Util Construct.

(** A [FieldError]: token, title and message.  /repo/scheme/field.py:17-25 (the two display flags are
    always True in the code). *)
Record ferror := { fe_token : str; fe_title : str; fe_message : str }.

(** The [errors] declared by Field itself.  /repo/scheme/field.py:165-169 *)
Definition base_errors : list ferror :=
  [{| fe_token := $"invalid"; fe_title := $"invalid value"; fe_message := $"%(field)s is an invalid value" |};
   {| fe_token := $"nonnull"; fe_title := $"null value"; fe_message := $"%(field)s must be a non-null value" |};
   {| fe_token := $"overflow"; fe_title := $"overflow error"; fe_message := $"%(field)s overflowed" |}].

(** The error that is only about the type of the value.  /repo/scheme/fields/*.py: errors *)
Definition invalid_error (message : str) : ferror :=
  {| fe_token := $"invalid"; fe_title := $"invalid value"; fe_message := message |}.

(** The [errors] declared by Text.  /repo/scheme/fields/text.py:17-24 *)
Definition text_errors : list ferror :=
  [invalid_error $"%(field)s must be a textual value";
   {| fe_token := $"pattern"; fe_title := $"invalid value"; fe_message := $"%(field)s has an invalid value" |};
   {| fe_token := $"min_length"; fe_title := $"minimum length";
      fe_message := $"%(field)s must contain at least %(min_length)d non-whitespace %(noun)s" |};
   {| fe_token := $"max_length"; fe_title := $"maximum length";
      fe_message := $"%(field)s may contain at most %(max_length)d %(noun)s" |}].

(** The pair of errors about bounds of a class, given the two messages.
    /repo/scheme/fields/date.py:22-27, datetime.py:19-24, decimal.py:17-22, float.py:13-18,
    integer.py:13-18, time.py:18-23 *)
Definition bound_errors (minimum maximum : str) : list ferror :=
  [{| fe_token := $"minimum"; fe_title := $"minimum value"; fe_message := minimum |};
   {| fe_token := $"maximum"; fe_title := $"maximum value"; fe_message := maximum |}].

(** The [errors] attribute declared in the body of each class, for Email with those of Text before and
    those set by its constructor behind. *)
Definition declared {F} (k : kindP val F) : list ferror :=
  match k with
  | KField => []
  | KBinary _ _ =>                                    (* /repo/scheme/fields/binary.py:15-19 *)
      [invalid_error $"%(field)s must be a binary value";
       {| fe_token := $"min_length"; fe_title := $"minimum length";
          fe_message := $"%(field)s must contain at least %(min_length)d %(noun)s" |};
       {| fe_token := $"max_length"; fe_title := $"maximum length";
          fe_message := $"%(field)s must contain at most %(max_length)d %(noun)s" |}]
  | KBoolean => [invalid_error $"%(field)s must be a boolean value"]   (* boolean.py:12-14 *)
  | KDate _ _ =>                                      (* date.py:23-27 *)
      invalid_error $"%(field)s must be a date value"
      :: bound_errors $"%(field)s must not occur before %(minimum)s" $"%(field)s must not occur after %(maximum)s"
  | KDateTime _ _ _ =>                                (* datetime.py:20-24 *)
      invalid_error $"%(field)s must be a datetime value"
      :: bound_errors $"%(field)s must not occur before %(minimum)s" $"%(field)s must not occur after %(maximum)s"
  | KDecimal _ _ =>                                   (* decimal.py:18-22 *)
      invalid_error $"%(field)s must be a decimal value"
      :: bound_errors $"%(field)s must be greater then or equal to %(minimum)s"
                      $"%(field)s must be less then or equal to %(maximum)s"
  | KDefinition _ =>                                  (* definition.py:14-17 *)
      [invalid_error $"%(field)s must be a field definition";
       {| fe_token := $"invalidfield"; fe_title := $"invalid field";
          fe_message := $"%(field)s must be one of %(fields)s" |}]
  | KEmail multiple _ _ _ =>                          (* email.py:26-27, 33-45; field.py:202-205 *)
      text_errors
      ++ [{| fe_token := $"pattern"; fe_title := $"invalid value";
             fe_message := if multiple then $"%(field)s must be a list of valid email addresses"
                           else $"%(field)s must be a valid email address" |}]
  | KEnumeration _ _ => [invalid_error $"%(field)s must be one of %(values)s"]  (* enumeration.py:14-16 *)
  | KError => [invalid_error $"%(field)s must be a structural error"]           (* error.py:11-13 *)
  | KFloat _ _ =>                                     (* float.py:14-18 *)
      invalid_error $"%(field)s must be a floating-point number"
      :: bound_errors $"%(field)s must be greater then or equal to %(minimum)f"
                      $"%(field)s must be less then or equal to %(maximum)f"
  | KInteger _ _ =>                                   (* integer.py:14-18 *)
      invalid_error $"%(field)s must be an integer"
      :: bound_errors $"%(field)s must be greater then or equal to %(minimum)d"
                      $"%(field)s must be less then or equal to %(maximum)d"
  | KMap _ _ _ =>                                     (* map.py:37-41 *)
      [invalid_error $"%(field)s must be a map";
       {| fe_token := $"invalidkeys"; fe_title := $"invalid keys"; fe_message := $"%(field)s must have valid keys" |};
       {| fe_token := $"required"; fe_title := $"required key";
          fe_message := $"%(field)s is missing required key '%(name)s'" |}]
  | KObject =>                                        (* object.py:12-15 *)
      [invalid_error $"%(field)s must be a python object";
       {| fe_token := $"import"; fe_title := $"object import"; fe_message := $"cannot import %(value)r" |}]
  | KSequence _ _ _ _ =>                              (* sequence.py:36-41 *)
      [invalid_error $"%(field)s must be a sequence";
       {| fe_token := $"min_length"; fe_title := $"minimum length";
          fe_message := $"%(field)s must have at least %(min_length)d %(noun)s" |};
       {| fe_token := $"max_length"; fe_title := $"maximum length";
          fe_message := $"%(field)s must have at most %(max_length)d %(noun)s" |};
       {| fe_token := $"duplicate"; fe_title := $"duplicate value";
          fe_message := $"%(field)s must not have duplicate values" |}]
  | KStructure _ _ _ =>                               (* structure.py:56-62 *)
      [invalid_error $"%(field)s must be a structure";
       {| fe_token := $"required"; fe_title := $"required field";
          fe_message := $"%(field)s is missing required field '%(name)s'" |};
       {| fe_token := $"unknown"; fe_title := $"unknown field";
          fe_message := $"%(field)s includes an unknown field '%(name)s'" |};
       {| fe_token := $"unrecognized"; fe_title := $"unrecognized polymorphic identity";
          fe_message := $"%(field)s must specify a recognized polymorphic identity" |}]
  | KSurrogate _ =>                                   (* surrogate.py:16-19 *)
      [invalid_error $"%(field)s must be a surrogate";
       {| fe_token := $"invalid-surrogate"; fe_title := $"invalid surrogate";
          fe_message := $"%(field)s must be one of %(surrogate)s" |}]
  | KText _ _ _ _ => text_errors
  | KTime _ _ =>                                      (* time.py:19-23 *)
      invalid_error $"%(field)s must be a time value"
      :: bound_errors $"%(field)s must not occur before %(minimum)s" $"%(field)s must not occur after %(maximum)s"
  | KToken _ => [invalid_error $"%(field)s must be a valid token"]     (* token.py:16-18 *)
  | KTuple _ =>                                       (* tuple.py:23-26 *)
      [invalid_error $"%(field)s must be a tuple";
       {| fe_token := $"length"; fe_title := $"invalid length";
          fe_message := $"%(field)s must contain exactly %(length)d values" |}]
  | KUnion _ => []                                    (* union.py declares none *)
  | KUUID => [invalid_error $"%(field)s must be a UUID"]               (* uuid.py:16-18 *)
  end.

(** The table of errors of a class: the inherited one, updated with the declared errors.
    /repo/scheme/field.py:32-54 *)
Definition error_table {F} (k : kindP val F) : list (str * ferror) :=
  fold_left (fun t e => aset (fe_token e) e t) (base_errors ++ declared k) [].

Section Message.
Variable E : env.
(** [repr(value)] and ['%f' % value].  Used by the messages of /repo/scheme/fields/*.py: errors *)
Variable repr : val -> str.
(** Used by the messages of /repo/scheme/fields/*.py: errors *)
Variable fixed : val -> str.

(** [str(value)] of a parameter of a message.  /repo/scheme/field.py:26-28 *)
Definition arg_text (v : val) : str :=
  match v with
  | VStr s => s
  | VInt z => Z_text z
  | VDec d => dec_text d
  | _ => e_str E v
  end.

(** One conversion of ['%'] formatting.  [%d] of a number that is no integer is cut.
    /repo/scheme/field.py:26-28 *)
Definition convert (c : N) (v : val) : res str :=
  if (c =? 115)%N then Ok (arg_text v)                                            (* s *)
  else if (c =? 114)%N then Ok (repr v)                                         (* r *)
  else if (c =? 100)%N then                                                     (* d *)
    match v with
    | VStr _ | VBytes _ => py TypeError
    | _ => match to_int (fun _ => None) v with
           | Some z => Ok (Z_text z)
           | None => if is_num v then py OverflowError else py TypeError
           end
    end
  else if (c =? 102)%N then (if is_num v then Ok (fixed v) else py TypeError)   (* f *)
  else py ValueError.

(** Where the scan of a template is: in the text, behind [%], in the name, behind the name.
    For /repo/scheme/field.py:26-28 *)
Inductive scan := SText | SPercent | SName (acc : str) | SConv (name : str).

(** [template % params] for a dict of parameters: conversions [%(name)c] and [%%].  Other conversions
    (flags, widths, other letters) and names containing parentheses do not occur in the messages of
    the package; here the former are errors and the latter end at the first [)].  /repo/scheme/field.py:26-28 *)
Fixpoint percent (st : scan) (template : str) (params : list (str * val)) : res str :=
  match template with
  | [] => match st with SText => Ok [] | _ => py ValueError end
  | c :: t =>
      match st with
      | SText => if (c =? 37)%N then percent SPercent t params
                 else do r <- percent SText t params; Ok (c :: r)
      | SPercent => if (c =? 40)%N then percent (SName []) t params
                    else if (c =? 37)%N then do r <- percent SText t params; Ok (c :: r)
                    else py ValueError
      | SName acc => if (c =? 41)%N then percent (SConv (rev_append acc [])) t params
                     else percent (SName (c :: acc)) t params
      | SConv name =>
          match aget name params with
          | None => py KeyError
          | Some v => do s <- convert c v; do r <- percent SText t params; Ok (s ++ r)
          end
      end
  end.

(** [FieldError.format].  /repo/scheme/field.py:26-29 *)
Definition format_message (p : params) (message : str) (given : list (str * val)) : res str :=
  let name := match p_name p with Some (c :: s) => c :: s | _ => $"unknown-field" end in
  let params := match aget $"field" given with
                | Some _ => given
                | None => aset $"field" (VStr name) given
                end in
  percent SText message params.

(** The table of errors of a field made with the parameter [errors]: the table of the class, updated
    with the errors given, one after the other.  /repo/scheme/field.py:205-208 *)
Definition field_errors (table : list (str * ferror)) (errors : list ferror) : list (str * ferror) :=
  fold_left (fun t e => aset (fe_token e) e t) errors table.

(** What a constructor may get as [errors]: a list of errors from a caller, the table of the instance from
    [clone].  /repo/scheme/field.py:171-175, 250-263 *)
Inductive errors_argument := ErrorList (l : list ferror) | ErrorTable (t : list (str * ferror)).

(** [if errors: ...] in [Field.__init__]: the table of the instance, [None] if it keeps that of the class.
    The loop over a table runs over its keys, texts, which have no [token].
    /repo/scheme/field.py:205-208 *)
Definition init_errors (table : list (str * ferror)) (a : errors_argument) : res (option (list (str * ferror))) :=
  match a with
  | ErrorList [] | ErrorTable [] => Ok None
  | ErrorList l => Ok (Some (field_errors table l))
  | ErrorTable (_ :: _) => py AttributeError
  end.

(** The part of [clone] about the errors: the attribute of the instance, if it has one, is copied and passed
    on unless the caller gives errors.  Email passes its own to the constructor of Text, whatever it gets.
    /repo/scheme/field.py:250-263, fields/email.py:31-47 *)
Definition clone_errors {F} (k : kindP val F) (own : option (list (str * ferror))) (given : option (list ferror))
  : res (option (list (str * ferror))) :=
  match k with
  | KEmail _ _ _ _ => Ok own
  | _ => match given, own with
         | Some l, _ => init_errors (error_table k) (ErrorList l)
         | None, Some t => init_errors (error_table k) (ErrorTable t)
         | None, None => Ok None
         end
  end.

(** [ValidationError.construct]: the entry appended, for the table [table] of the field.
    /repo/scheme/exceptions.py:206-209 *)
Definition construct_entry (table : list (str * ferror)) (p : params) (token : str) (given : list (str * val))
  : res val :=
  match aget token table with
  | None => py KeyError
  | Some e => do m <- format_message p (fe_message e) given;
              Ok (VDict false [(VStr $"token", VStr (fe_token e)); (VStr $"title", VStr (fe_title e));
                               (VStr $"message", VStr m)])
  end.
(** ... for a field made with the parameter [errors], which Email replaces by its own.
    /repo/scheme/exceptions.py:206-209, field.py:205-208, fields/email.py:31-46 *)
Definition construct_given {F} (p : params) (k : kindP val F) (errors : list ferror) (token : str)
    (given : list (str * val)) : res val :=
  construct_entry (field_errors (error_table k) match k with KEmail _ _ _ _ => [] | _ => errors end) p token given.
(** ... for a field made without the parameter [errors].  /repo/scheme/exceptions.py:206-209 *)
Definition construct_error {F} (p : params) (k : kindP val F) (token : str) (given : list (str * val)) : res val :=
  construct_entry (error_table k) p token given.

(** The noun of the length messages of Text and Binary.  /repo/scheme/fields/text.py:73-75, 81-83,
    binary.py:59-61, 67-69 *)
Definition noun_for (one many : str) (n : Z) : val := VStr (if (n >? 1)%Z then many else one).

(** The keyword arguments of [construct] where a field reports [tok], [name] being the key concerned:
    /repo/scheme/fields/binary.py:62-71, date.py:83-89, datetime.py:104-110, decimal.py:93-99,
    definition.py:57-59, enumeration.py:78-79, float.py:58-64, integer.py:61-67, map.py:220-221,
    object.py:33-34, sequence.py:180-186, structure.py:386-387, 418-419, 442-443, surrogate.py:66-67,
    text.py:76-85, time.py:81-87, tuple.py:176-177; none at the other places. *)
Definition arguments {F} (k : kindP val F) (tok : str) (name : val) : list (str * val) :=
  let one (key : str) (o : option val) := match o with Some v => [(key, v)] | None => [] end in
  let bounds (mn mx : option val) :=
    if str_eqb tok $"minimum" then one $"minimum" mn
    else if str_eqb tok $"maximum" then one $"maximum" mx else [] in
  let lengths (noun : Z -> val) (mn mx : option Z) :=
    if str_eqb tok $"min_length"
    then match mn with Some n => [($"min_length", VInt n); ($"noun", noun n)] | None => [] end
    else if str_eqb tok $"max_length"
    then match mx with Some n => [($"max_length", VInt n); ($"noun", noun n)] | None => [] end
    else [] in
  match k with
  | KBinary mn mx => lengths (noun_for $"byte" $"bytes") mn mx
  | KText _ mn mx _ | KEmail _ _ mn mx => lengths (noun_for $"character" $"characters") mn mx
  | KSequence _ mn mx _ => lengths (fun n => VStr (pluralize (e_local E) $"item" (VInt n))) mn mx
  | KDate mn mx =>
      bounds (option_map (fun d => VStr (date_text (e_pad E) d)) mn)
             (option_map (fun d => VStr (date_text (e_pad E) d)) mx)
  | KDateTime mn mx _ =>
      bounds (option_map (fun d => VStr (datetime_text (e_pad E) d)) mn)
             (option_map (fun d => VStr (datetime_text (e_pad E) d)) mx)
  | KTime mn mx =>
      bounds (option_map (fun t => VStr (tod_text t)) mn) (option_map (fun t => VStr (tod_text t)) mx)
  | KDecimal mn mx => bounds (option_map VDec mn) (option_map VDec mx)
  | KFloat mn mx => bounds (option_map VFloat mn) (option_map VFloat mx)
  | KInteger mn mx => bounds (option_map VInt mn) (option_map VInt mx)
  | KDefinition (Some valid) =>
      if str_eqb tok $"invalidfield" then [($"fields", VStr (join $", " (sort_str valid)))] else []
  | KSurrogate (Some valid) =>
      if str_eqb tok $"invalid-surrogate" then [($"surrogates", VStr (join $", " (sort_str valid)))] else []
  | KEnumeration l _ =>
      if str_eqb tok $"invalid" then [($"values", VStr (join $", " (map repr l)))] else []
  | KObject => if str_eqb tok $"import" then [($"value", name)] else []
  | KTuple values => if str_eqb tok $"length" then [($"length", VInt (Z.of_nat (length values)))] else []
  | KMap _ _ _ => if str_eqb tok $"required" then [($"name", name)] else []
  | KStructure _ _ _ =>
      if str_eqb tok $"required" || str_eqb tok $"unknown" then [($"name", name)] else []
  | _ => []
  end.

End Message.
