(** * What the claims about [repr] of fields and about zone names say, apart from the model's helpers. *)
From Verif Require Export Repr Spec BuildSpec.

(** ['%r'] shows a value; of a tuple of one value, that value; other tuples are not shown.
    /repo/scheme/field.py:223, 231 *)
Inductive shown_r (repr : val -> str) : val -> str -> Prop :=
| shown_plain v : (forall l, v <> VTuple l) -> shown_r repr v (repr v)
| shown_single x : shown_r repr (VTuple [x]) (repr x).
(** Values that ['%r'] can show.  /repo/scheme/field.py:223, 231 *)
Definition printable (v : val) : Prop := forall l, v = VTuple l -> length l = 1%nat.

(** [label] stands for the value of [o], if there is one.  /repo/scheme/fields/binary.py:38-41 *)
Definition given_as {A} (name : str) (o : option A) (show : A -> str) (label text : str) : Prop :=
  label = name /\ exists a, o = Some a /\ text = show a.
(** [label] stands if [P] holds.  /repo/scheme/field.py:220-229 *)
Definition set_when (name value : str) (P : Prop) (label text : str) : Prop :=
  label = name /\ text = value /\ P.
(** Parts joined by commas.  /repo/scheme/fields/structure.py:116, tuple.py:51 *)
Definition listed {A} (R : A -> str -> Prop) (first last : str) (l : list A) (text : str) : Prop :=
  exists parts, Forall2 R l parts /\ text = first ++ join $", " parts ++ last.

Section Says.
Variable E : env.
Variable repr : val -> str.
Variable undef : nat -> str.

(** [text] is what [repr] gives for the field [g].  /repo/scheme/field.py:214 *)
Definition of_field (g : field) (text : str) : Prop := field_repr E repr undef g = Ok text.
(** An entry of a structure.  /repo/scheme/fields/structure.py:116 *)
Definition of_entry (kf : str * field) (text : str) : Prop :=
  exists s, of_field (snd kf) s /\ text = repr (VStr (fst kf)) ++ $": " ++ s.
(** A variant of a polymorphic structure.  /repo/scheme/fields/structure.py:116 *)
Definition of_variant (vl : val * list (str * field)) (text : str) : Prop :=
  exists s, listed of_entry $"{" $"}" (snd vl) s /\ text = repr (fst vl) ++ $": " ++ s.
(** A tuple of fields.  /repo/scheme/fields/tuple.py:51, union.py:45 *)
Definition of_tuple (l : list field) (text : str) : Prop :=
  listed of_field $"(" (if Nat.eqb (length l) 1 then $",)" else $")") l text.

(** Minimum and maximum; dates and datetimes are shown as texts.
    /repo/scheme/fields/ date.py:48-54, datetime.py:51-60, decimal.py:50-56, float.py:30-36,
    integer.py:30-36, time.py:44-50 *)
Definition limits (k : kind) : option val * option val :=
  match k with
  | KDate mn mx => (option_map (fun d => VStr (date_text (e_pad E) d)) mn,
                    option_map (fun d => VStr (date_text (e_pad E) d)) mx)
  | KDateTime mn mx _ => (option_map (fun d => VStr (datetime_text (e_pad E) d)) mn,
                          option_map (fun d => VStr (datetime_text (e_pad E) d)) mx)
  | KDecimal mn mx => (option_map VDec mn, option_map VDec mx)
  | KFloat mn mx => (option_map VFloat mn, option_map VFloat mx)
  | KInteger mn mx => (option_map VInt mn, option_map VInt mx)
  | KTime mn mx => (option_map VTime mn, option_map VTime mx)
  | _ => (None, None)
  end.
(** Minimum and maximum of the length.  /repo/scheme/fields/ binary.py:36-42, sequence.py:63-71,
    text.py:48-57 *)
Definition length_limits (k : kind) : option Z * option Z :=
  match k with
  | KBinary mn mx | KEmail _ _ mn mx | KSequence _ mn mx _ | KText _ mn mx _ => (mn, mx)
  | _ => (None, None)
  end.

(** What [repr] of a field of class [k] says about the parameters of the class: [label] and [text].
    /repo/scheme/fields/*.py: [__repr__] *)
Definition says_own (k : kind) (label text : str) : Prop :=
  given_as $"minimum" (fst (limits k)) repr label text
  \/ given_as $"maximum" (snd (limits k)) repr label text
  \/ given_as $"min_length" (fst (length_limits k)) (fun z => repr (VInt z)) label text
  \/ given_as $"max_length" (snd (length_limits k)) (fun z => repr (VInt z)) label text
  \/ match k with
     | KDateTime _ _ utc => set_when $"utc" $"True" (utc = true) label text
     | KEmail multiple extended _ _ =>
         set_when $"multiple" $"True" (multiple = true) label text
         \/ set_when $"extended" $"True" (extended = true) label text
         \/ set_when $"strip" $"False" True label text
     | KEnumeration l _ => label = $"enumeration" /\ text = $"[" ++ join $", " (map repr l) ++ $"]"
     | KMap value key required_keys =>
         (label = $"key" /\ exists g, key = Some g /\ of_field g text)
         \/ (label = $"value" /\ of_field value text)
         \/ (label = $"required_keys" /\ exists names sorted,
               required_keys = Some (map VStr names) /\ names <> [] /\ sorted_names names sorted
               /\ text = repr (VList (map VStr sorted)))
     | KSequence item _ _ unique =>
         (label = $"item" /\ of_field item text) \/ set_when $"unique" $"True" (unique = true) label text
     | KStructure d strict key_order =>
         (label = $"structure" /\ match d with
                                  | SPlain l => listed of_entry $"{" $"}" l text
                                  | SPoly _ variants => listed of_variant $"{" $"}" variants text
                                  end)
         \/ (label = $"polymorphic_on" /\ exists q k' variants,
               d = SPoly (Fld q k') variants
               /\ text = repr (match p_name q with Some s => VStr s | None => VNone end))
         \/ set_when $"strict" $"False" (strict = false) label text
         \/ (label = $"key_order" /\ exists names,
               key_order = Some names /\ names <> [] /\ text = repr (VList (map VStr names)))
     | KSurrogate valid =>
         label = $"valid_surrogates" /\ exists names sorted,
           valid = Some names /\ names <> [] /\ sorted_names names sorted
           /\ text = repr (VList (map VStr sorted))
     | KText _ _ _ strip => set_when $"strip" $"False" (strip = false) label text
     | KToken segments => given_as $"segments" segments (fun z => repr (VInt z)) label text
     | KTuple l => label = $"values" /\ of_tuple l text
     | KUnion l => label = $"fields" /\ of_tuple l text
     | _ => False
     end.

(** What [repr] of a field says.  /repo/scheme/field.py:214-232 *)
Definition says (p : params) (k : kind) (label text : str) : Prop :=
  (label = $"name" /\ exists s, p_name p = Some s /\ s <> [] /\ text = repr (VStr s))
  \/ says_own k label text
  \/ set_when $"constant" $"True" (truthy (p_constant p) = true) label text
  \/ (label = $"default" /\ p_default p <> VNone /\ shown_r repr (p_default p) text)
  \/ set_when $"nonnull" $"True" (p_nonnull p = true) label text
  \/ set_when $"required" $"True" (p_required p = true) label text
  \/ set_when $"ignore_null" $"True" (p_ignore_null p = true) label text
  \/ (label = $"title" /\ truthy (p_title p) = true /\ shown_r repr (p_title p) text).
End Says.

(** The fields whose [repr] is part of that of [f]: the discriminator of a polymorphic structure is
    not among them.  /repo/scheme/fields/*.py: [__repr__] *)
Definition shown_fields (k : kind) : list field :=
  match k with
  | KMap v key _ => v :: match key with Some g => [g] | None => [] end
  | KSequence g _ _ _ => [g]
  | KStructure (SPlain l) _ _ => map snd l
  | KStructure (SPoly _ variants) _ _ => flat_map (fun vl => map snd (snd vl)) variants
  | KTuple l | KUnion l => l
  | _ => []
  end.
Inductive shown_in : field -> field -> Prop :=
| shown_self f : shown_in f f
| shown_inner h g p k : In g (shown_fields k) -> shown_in h g -> shown_in h (Fld p k).

(** Required keys are texts, as the constructor asks for, and a discriminator is a field.
    /repo/scheme/fields/map.py:55-60, structure.py:79-80 *)
Definition well_made (k : kind) : Prop :=
  match k with
  | KMap _ _ (Some ks) => exists names, ks = map VStr names
  | KStructure (SPoly on _) _ _ => exists q k', on = Fld q k'
  | _ => True
  end.

(** ** Zones *)

(** The usual name of an offset of [m] minutes: sign, hours and minutes, two digits each, the minutes
    only if there are any.  For /repo/scheme/timezone.py:34-45 *)
Definition two_digits (n : Z) : str := if (n <? 10)%Z then $"0" ++ Z_text n else Z_text n.
Definition usual_name (m : Z) : str :=
  let h := (Z.abs m / 60)%Z in
  let r := (Z.abs m mod 60)%Z in
  (if (m <? 0)%Z then $"-" else $"+") ++ two_digits h ++ if (r =? 0)%Z then [] else $":" ++ two_digits r.
