(** * Vocabulary for the claims about descriptions (C43). *)
From Verif Require Export ConSpec CalSpec.
Open Scope Z_scope.

(** Plain data: the values that [_describe_parameter] keeps as they are and that
    [_construct_parameter] reads back.  A dict with a key ['fieldtype'] would be read back as a field.
    /repo/scheme/field.py:539-572 *)
Fixpoint data (v : val) : bool :=
  match v with
  | VNone | VBool _ | VInt _ | VFloat _ | VStr _ => true
  | VList l | VTuple l => forallb data l
  | VDict ordered l => negb ordered && forallb (fun kv => negb (is_fieldtype (fst kv)) && data (snd kv)) l
  | _ => false
  end.

(** A specification built of JSON-like values only, which can be handed to any serializer. *)
Fixpoint plainv (v : val) : bool :=
  match v with
  | VNone | VBool _ | VInt _ | VFloat _ | VStr _ => true
  | VList l | VTuple l => forallb plainv l
  | VDict ordered l => negb ordered && forallb (fun kv => plainv (snd kv)) l
  | _ => false
  end.

(** The values that [_describe_parameter] refuses: the parameter is dropped.
    /repo/scheme/field.py:304-307, 319-323, 572 *)
Definition opaque (v : val) : bool :=
  match v with
  | VBytes _ | VDec _ | VDate _ | VTime _ | VDateTime _ | VObj _ _ | VErr _ => true
  | _ => false
  end.
Definition told (v : val) : Prop := data v = true \/ opaque v = true.
Definition kept (v : val) : val := if data v then v else VNone.

(** The classes that describe their default themselves.
    /repo/scheme/fields/map.py:77-88, sequence.py:74-80, tuple.py:54-68, structure.py:148-174 *)
Definition own_default (k : kind) : bool :=
  match k with
  | KMap _ _ _ | KSequence _ _ _ _ | KStructure _ _ _ | KTuple _ => true
  | _ => false
  end.

(** What a description drops: the preprocessor, extractor and instantiator, constants and defaults
    that are not plain data, empty defaults of structural fields, the pattern of texts, the ignored
    values of enumerations, the segments of tokens and the key order of structures. *)
Definition undescribed_params (p : params) (k : kind) : params :=
  {| p_name := p_name p; p_nonnull := p_nonnull p; p_required := p_required p;
     p_ignore_null := p_ignore_null p;
     p_default := if own_default k then (if truthy (p_default p) then p_default p else VNone)
                  else kept (p_default p);
     p_constant := kept (p_constant p);
     p_preprocessor := None; p_extractor := None; p_instantiator := None;
     p_title := p_title p; p_description := p_description p; p_notes := p_notes p;
     p_aspects := p_aspects p |}.
Definition undescribed_kind (k : kind) : kind :=
  match k with
  | KText _ mn mx strip => KText None mn mx strip
  | KEnumeration l _ => KEnumeration l None
  | KToken _ => KToken None
  | KStructure d strict _ => KStructure d strict None
  | _ => k
  end.
Fixpoint undescribed (f : field) : field :=
  match f with
  | FUndef i => FUndef i
  | Fld p k => Fld (undescribed_params p k) (undescribed_kind (kmap undescribed k))
  end.

(** A value that is serialized as itself. *)
Definition unchanged (E : env) (f : field) (v : val) : Prop :=
  forall desc recon n, process_gen E desc recon n f false Outbound true [] v = Ok v.

(** Defaults that survive: plain data for most classes; for the structural ones a default that is
    false, or one whose items are plain data and serialized as themselves. *)
Definition describable_default (E : env) (k : kind) (d : val) : Prop :=
  if own_default k then
    truthy d = false
    \/ data d = true
       /\ match k with
          | KMap value _ _ => exists l, d = VDict false l /\ forall kx, In kx l -> unchanged E value (snd kx)
          | KSequence it _ _ _ => exists l, d = VList l /\ forall x, In x l -> unchanged E it x
          | KTuple fs => exists l, d = VTuple l /\ Forall2 (unchanged E) fs l
          | KStructure (SPlain fs) _ _ =>
              exists l, d = VDict false (strs l)
                /\ forall s x, In (s, x) l -> exists q kx, aget s fs = Some (Fld q kx)
                                              /\ forall desc, serialize_value E desc kx x = Ok x
          | _ => False
          end
  else told d.

(** Documentation that gets in nobody's way: its keys are no parameters. *)
Definition reserved (k : kind) : list str :=
  base_args ++ class_args (cls_of k) ++ [$"fieldtype"; $"cls"; $"self"; []].
Definition describable_params (E : env) (p : params) (k : kind) : Prop :=
  told (p_constant p) /\ told (p_title p) /\ told (p_description p) /\ told (p_notes p)
  /\ describable_default E k (p_default p)
  /\ forall key v, In (key, v) (p_aspects p) -> told v /\ ~ In key (reserved k).

(** Bounds that the text in a description denotes; names and identities that are no ['fieldtype']. *)
Definition unambiguous (l : list (str * field)) : Prop := forall s f, In (s, f) l -> s <> $"fieldtype".
Definition describable_kind (E : env) (k : kind) : Prop :=
  let day d := existing_day d /\ (e_pad E = true \/ 1000 <= d_year d) in
  let moment dt utc := utc = true /\ day (dt_date dt) /\ existing_time (dt_time dt) /\ t_us (dt_time dt) = 0 in
  let time t := existing_time t /\ t_us t = 0 in
  match k with
  | KDate mn mx => forall d, mn = Some d \/ mx = Some d -> day d
  | KTime mn mx => forall t, mn = Some t \/ mx = Some t -> time t
  | KDateTime mn mx utc => forall dt, mn = Some dt \/ mx = Some dt -> moment dt utc
  | KEnumeration l _ => forallb data l = true
  | KMap _ _ rk => forall l, rk = Some l -> forallb data l = true
  | KStructure (SPlain l) _ _ => unambiguous l
  | KStructure (SPoly on vs) _ _ =>
      (forall vd, In vd vs -> data (fst vd) = true /\ fst vd <> VStr $"fieldtype" /\ unambiguous (snd vd)
                              /\ exists q kd, on = Fld q kd
                                   /\ forall desc, serialize_value E desc kd (fst vd) = Ok (fst vd))
      /\ ForallOrdPairs (fun a b => veq (e_local E) (fst a) (fst b) = false) vs
  | _ => True
  end.
Definition describable (E : env) (f : field) : Prop :=
  everywhere (fun p k => describable_params E p k /\ describable_kind E k) f.

(** A field that a description tells completely. *)
Definition fully_described (p : params) (k : kind) : Prop :=
  p_preprocessor p = None /\ p_extractor p = None /\ p_instantiator p = None
  /\ data (p_constant p) = true
  /\ (if own_default k then truthy (p_default p) = true \/ p_default p = VNone else data (p_default p) = true)
  /\ match k with
     | KText pat _ _ _ => pat = None
     | KEnumeration _ ignored => ignored = None
     | KToken segments => segments = None
     | KStructure _ _ order => order = None
     | _ => True
     end.

(** The boolean parameters of a field: its value and the value that a constructor takes if none is
    given. *)
Inductive flagged (p : params) : kind -> str -> bool -> bool -> Prop :=
| flag_required : forall k, flagged p k $"required" (p_required p) false
| flag_nonnull : forall k, flagged p k $"nonnull" (p_nonnull p) false
| flag_ignore_null : forall k, flagged p k $"ignore_null" (p_ignore_null p) false
| flag_unique : forall item mn mx u, flagged p (KSequence item mn mx u) $"unique" u false
| flag_strict : forall d strict order, flagged p (KStructure d strict order) $"strict" strict true
| flag_strip : forall pat mn mx strip, flagged p (KText pat mn mx strip) $"strip" strip true
| flag_utc : forall mn mx utc, flagged p (KDateTime mn mx utc) $"utc" utc false
| flag_extended : forall mu ex mn mx, flagged p (KEmail mu ex mn mx) $"extended" ex false
| flag_multiple : forall mu ex mn mx, flagged p (KEmail mu ex mn mx) $"multiple" mu false.

(** The entries of a description that describe nested fields, given the description [sub] of each. *)
Inductive nested_entry (sub : field -> val -> Prop) : kind -> str -> val -> Prop :=
| nested_item : forall item mn mx u d, sub item d -> nested_entry sub (KSequence item mn mx u) $"item" d
| nested_value : forall value key req d, sub value d -> nested_entry sub (KMap value key req) $"value" d
| nested_key : forall value key req d, sub key d -> nested_entry sub (KMap value (Some key) req) $"key" d
| nested_values : forall fs ds, Forall2 sub fs ds -> nested_entry sub (KTuple fs) $"values" (VList ds)
| nested_fields : forall fs ds, Forall2 sub fs ds -> nested_entry sub (KUnion fs) $"fields" (VList ds)
| nested_structure : forall l ds strict order,
    Forall2 (fun sf d => fst d = VStr (fst sf) /\ sub (snd sf) (snd d)) l ds ->
    nested_entry sub (KStructure (SPlain l) strict order) $"structure" (VDict false ds)
| nested_on : forall on vs strict order d,
    sub on d -> nested_entry sub (KStructure (SPoly on vs) strict order) $"polymorphic_on" d.
