(** * Model of [__repr__] of fields, and of the names of time zones.

    /repo/scheme/field.py:214-232, the [__repr__] of /repo/scheme/fields/*.py and
    /repo/scheme/timezone.py:15-48.  [repr] of plain values and of placeholders is a parameter; a field
    among them (the default of a Definition) is not followed.  The dict given to Structure is taken to
    be a plain one. *)
From Verif Require Export Fmt.

Section Repr.
Variable E : env.
(** [repr(value)].  /repo/scheme/field.py:217-231 and the [__repr__] of /repo/scheme/fields/*.py *)
Variable repr : val -> str.
(** [repr] of a placeholder, which has no method of its own.  /repo/scheme/field.py:616-634 *)
Variable repr_undef : nat -> str.

(** [type(self).__name__].  /repo/scheme/field.py:232 *)
Definition class_label {F} (k : kindP val F) : str :=
  match k with
  | KField => $"Field" | KBinary _ _ => $"Binary" | KBoolean => $"Boolean" | KDate _ _ => $"Date"
  | KDateTime _ _ _ => $"DateTime" | KDecimal _ _ => $"Decimal" | KDefinition _ => $"Definition"
  | KEmail _ _ _ _ => $"Email" | KEnumeration _ _ => $"Enumeration" | KError => $"Error"
  | KFloat _ _ => $"Float" | KInteger _ _ => $"Integer" | KMap _ _ _ => $"Map"
  | KObject => $"Object" | KSequence _ _ _ _ => $"Sequence" | KStructure _ _ _ => $"Structure"
  | KSurrogate _ => $"Surrogate" | KText _ _ _ _ => $"Text" | KTime _ _ => $"Time"
  | KToken _ => $"Token" | KTuple _ => $"Tuple" | KUnion _ => $"Union" | KUUID => $"UUID"
  end.

(** ['%r' % value]: a tuple is taken for the list of all arguments.  /repo/scheme/field.py:223, 231 *)
Definition percent_r (v : val) : res str :=
  match v with
  | VTuple [x] => Ok (repr x)
  | VTuple _ => py TypeError
  | _ => Ok (repr v)
  end.

(** [aspects.append('label=%r' % value)] if there is a value.
    /repo/scheme/fields/binary.py:38-41 and the like *)
Definition maybe {A} (label : str) (text : A -> str) (o : option A) : list str :=
  match o with Some a => [label ++ $"=" ++ text a] | None => [] end.
(** [aspects.append(text)] if the condition holds.  /repo/scheme/fields/datetime.py:57-58 and the like *)
Definition flagged (b : bool) (text : str) : list str := if b then [text] else [].
(** The lengths.  /repo/scheme/fields/binary.py:37-41, text.py:51-54, sequence.py:65-68 *)
Definition lengths (mn mx : option Z) : list str :=
  maybe $"min_length" (fun z => repr (VInt z)) mn ++ maybe $"max_length" (fun z => repr (VInt z)) mx.
(** The bounds.  /repo/scheme/fields/date.py:49-53, datetime.py:52-56, decimal.py:51-55, float.py:31-35,
    integer.py:31-35, time.py:45-49 *)
Definition bounds_text {A} (text : A -> val) (mn mx : option A) : list str :=
  maybe $"minimum" (fun a => repr (text a)) mn ++ maybe $"maximum" (fun a => repr (text a)) mx.

(** [repr] of a tuple of fields.  /repo/scheme/fields/tuple.py:51, union.py:45 *)
Definition tuple_text (l : list str) : str :=
  match l with
  | [x] => $"(" ++ x ++ $",)"
  | _ => $"(" ++ join $", " l ++ $")"
  end.
(** [repr] of a dict.  /repo/scheme/fields/structure.py:116 *)
Definition dict_text (l : list (str * str)) : str :=
  $"{" ++ join $", " (map (fun kv => fst kv ++ $": " ++ snd kv) l) ++ $"}".
(** [repr] of a dict of fields.  /repo/scheme/fields/structure.py:116 *)
Definition fields_text (l : list (str * (field * res str))) : res str :=
  do items <- each (fun kf => do s <- snd (snd kf); Ok (repr (VStr (fst kf)), s)) l;
  Ok (dict_text items).

(** The aspects each class adds; nested fields come with their [repr].
    /repo/scheme/fields/ binary.py:36-42, date.py:48-54, datetime.py:51-60, decimal.py:50-56,
    email.py:51-57, enumeration.py:43-44, float.py:30-36, integer.py:30-36, map.py:66-75,
    sequence.py:63-71, structure.py:115-123, surrogate.py:30-34, text.py:48-57, time.py:44-50,
    token.py:24-28, tuple.py:50-51, union.py:44-45 *)
Definition own_aspects (k : kindP val (field * res str)) : res (list str) :=
  match k with
  | KBinary mn mx => Ok (lengths mn mx)
  | KDate mn mx => Ok (bounds_text (fun d => VStr (date_text (e_pad E) d)) mn mx)
  | KDateTime mn mx utc =>
      Ok (bounds_text (fun d => VStr (datetime_text (e_pad E) d)) mn mx ++ flagged utc $"utc=True")
  | KDecimal mn mx => Ok (bounds_text VDec mn mx)
  | KEmail multiple extended mn mx =>
      Ok (flagged multiple $"multiple=True" ++ flagged extended $"extended=True" ++ lengths mn mx
          ++ [$"strip=False"])
  | KEnumeration l _ => Ok [$"enumeration=[" ++ join $", " (map repr l) ++ $"]"]
  | KFloat mn mx => Ok (bounds_text VFloat mn mx)
  | KInteger mn mx => Ok (bounds_text VInt mn mx)
  | KMap value key required_keys =>
      do a <- match key with Some kf => do s <- snd kf; Ok [$"key=" ++ s] | None => Ok [] end;
      do s <- snd value;
      do c <- match required_keys with
              | Some ((_ :: _) as ks) =>
                  do l <- sort_items [] (map (fun x => (x, tt)) ks);
                  Ok [$"required_keys=" ++ repr (VList (map fst l))]
              | _ => Ok []
              end;
      Ok (a ++ [$"value=" ++ s] ++ c)
  | KSequence item mn mx unique =>
      do s <- snd item;
      Ok ([$"item=" ++ s] ++ lengths mn mx ++ flagged unique $"unique=True")
  | KStructure d strict key_order =>
      do a <- match d with
              | SPlain l => do s <- fields_text l; Ok [$"structure=" ++ s]
              | SPoly on variants =>
                  do l <- each (fun vl => do s <- fields_text (snd vl); Ok (repr (fst vl), s)) variants;
                  let name := match fst on with Fld q _ => p_name q | FUndef _ => None end in
                  Ok [$"structure=" ++ dict_text l;
                      $"polymorphic_on=" ++ repr (match name with Some s => VStr s | None => VNone end)]
              end;
      Ok (a ++ flagged (negb strict) $"strict=False"
          ++ match key_order with
             | Some ((_ :: _) as names) => [$"key_order=" ++ repr (VList (map VStr names))]
             | _ => []
             end)
  | KSurrogate (Some ((_ :: _) as names)) =>
      Ok [$"valid_surrogates=" ++ repr (VList (map VStr (sort_str names)))]
  | KText _ mn mx strip => Ok (lengths mn mx ++ flagged (negb strip) $"strip=False")
  | KTime mn mx => Ok (bounds_text VTime mn mx)
  | KToken segments => Ok (maybe $"segments" (fun z => repr (VInt z)) segments)
  | KTuple l => do s <- each snd l; Ok [$"values=" ++ tuple_text s]
  | KUnion l => do s <- each snd l; Ok [$"fields=" ++ tuple_text s]
  | _ => Ok []
  end.

(** [Field.__repr__].  /repo/scheme/field.py:214-232 *)
Fixpoint field_repr (f : field) : res str :=
  match f with
  | FUndef i => Ok (repr_undef i)
  | Fld p k =>
      do own <- own_aspects (kmap (fun g => (g, field_repr g)) k);
      do dflt <- (if is_none (p_default p) then Ok []
                  else do s <- percent_r (p_default p); Ok [$"default=" ++ s]);
      do title <- (if truthy (p_title p) then do s <- percent_r (p_title p); Ok [$"title=" ++ s] else Ok []);
      Ok (class_label k ++ $"("
          ++ join $", " (match p_name p with Some ((_ :: _) as s) => [$"name=" ++ repr (VStr s)] | _ => [] end
                         ++ own
                         ++ flagged (truthy (p_constant p)) $"constant=True"
                         ++ dflt
                         ++ flagged (p_nonnull p) $"nonnull=True"
                         ++ flagged (p_required p) $"required=True"
                         ++ flagged (p_ignore_null p) $"ignore_null=True"
                         ++ title)
          ++ $")")
  end.

End Repr.

(** ** Time zones of a fixed offset *)

(** A zone: its name and its offset in minutes, if given.  Simplification: whole minutes.
    /repo/scheme/timezone.py:15-24 *)
Record zone := { z_name : option str; z_offset : option Z }.

(** [offset.days] and [offset.seconds] of [timedelta(minutes=m)].  /repo/scheme/timezone.py:22 *)
Definition delta_days (m : Z) : Z := (60 * m / 86400)%Z.
(** /repo/scheme/timezone.py:22 *)
Definition delta_seconds (m : Z) : Z := (60 * m mod 86400)%Z.

(** ['%+03d' % n].  /repo/scheme/timezone.py:43-45 *)
Definition signed_two (n : Z) : str :=
  let digits := Z_text (Z.abs n) in
  (if (n <? 0)%Z then $"-" else $"+") ++ (match digits with [_] => $"0" | _ => [] end) ++ digits.

(** [FixedOffsetTimezone.__repr__].  /repo/scheme/timezone.py:26-29 *)
Definition zone_repr (z : zone) : res str :=
  match z_name z, z_offset z with
  | Some ((_ :: _) as s), _ => Ok s
  | _, Some m => Ok ($"FixedOffsetTimezone(" ++ Z_text (delta_seconds m) ++ $")")
  | _, None => py AttributeError
  end.

(** [FixedOffsetTimezone.tzname].  ['%d'] cuts the quotient [seconds / 60], which is exact for whole
    minutes.  /repo/scheme/timezone.py:34-45 *)
Definition zone_tzname (z : zone) : res str :=
  match z_name z, z_offset z with
  | Some s, _ => Ok s
  | None, None => py AttributeError
  | None, Some m =>
      let seconds := (delta_seconds m + delta_days m * 86400)%Z in
      let hours := (seconds / 3600)%Z in
      let minutes := (seconds mod 3600 / 60)%Z in
      Ok (if (minutes =? 0)%Z then signed_two hours else signed_two hours ++ $":" ++ Z_text minutes)
  end.
