(** * Specifications of the XML format (C64). *)
From Verif Require Export StSpec CsvSpec XmlText.

(** A tag of ASCII letters, digits and [_.-] that starts with a letter or an underscore. *)
Definition tag_letter (c : N) : Prop := (65 <= c <= 90)%N \/ (97 <= c <= 122)%N \/ c = 95%N.
Definition tag_ok (s : str) : Prop :=
  exists c s', s = c :: s' /\ tag_letter c
               /\ forall d, In d s' -> tag_letter d \/ (48 <= d <= 57)%N \/ d = 45%N \/ d = 46%N.

(** A text of characters XML can represent and keeps: no control characters but tab and LF, no
    surrogates, neither U+FFFE nor U+FFFF. *)
Definition text_ok (s : str) : Prop :=
  forall c, In c s -> c = 9%N \/ c = 10%N \/ (32 <= c < 55296)%N \/ (57344 <= c < 65534)%N \/ (65536 <= c < 1114112)%N.

(** The field in a slot: itself, or what the placeholder was defined as. *)
Definition field_at (E : env) (f : field) (p : params) (k : kind) : Prop :=
  f = Fld p k \/ exists n, f = FUndef n /\ e_undef E n = Some (Fld p k).

(** The tag of an element for a field: its name if it has one. *)
Definition titled (p : params) (otherwise tag : str) : Prop :=
  p_name p = Some tag /\ tag <> [] \/ (p_name p = None \/ p_name p = Some []) /\ tag = otherwise.

(** The types whose values are neither booleans, numbers nor made of other values. *)
Definition textual (k : kind) : Prop :=
  ~ In (kind_type k) [$"boolean"; $"integer"; $"float"; $"structure"; $"map"; $"sequence"; $"tuple"; $"union"].

(** Values the format supports for a kind of field: null anywhere, booleans, integers, floats (as far
    as the text Python gives them is read back), texts for all other scalar fields, and structures,
    maps, sequences and tuples of these.  [T] restricts the tags, [X] the texts. *)
Inductive supported (E : env) (T X : str -> Prop) : kind -> val -> Prop :=
| sup_null : forall k, supported E T X k VNone
| sup_boolean : forall b, supported E T X KBoolean (VBool b)
| sup_integer : forall mn mx z, supported E T X (KInteger mn mx) (VInt z)
| sup_float : forall mn mx x,
    parse_float (e_udigit E) (e_str E (VFloat x)) = Some x -> X (e_str E (VFloat x)) ->
    supported E T X (KFloat mn mx) (VFloat x)
| sup_text : forall k s, textual k -> X s -> supported E T X k (VStr s)
| sup_structure : forall fs strict order o l,
    NoDup (map fst l) ->
    (forall key v, In (key, v) l -> exists s f p k,
        key = VStr s /\ T s /\ aget s fs = Some f /\ field_at E f p k /\ supported E T X k v) ->
    supported E T X (KStructure (SPlain fs) strict order) (VDict o l)
| sup_map : forall f p k kf r o l,
    field_at E f p k -> NoDup (map fst l) ->
    (forall key v, In (key, v) l -> exists s, key = VStr s /\ T s) ->
    (forall key v, In (key, v) l -> supported E T X k v) ->
    supported E T X (KMap f kf r) (VDict o l)
| sup_sequence : forall f p k tag a b u l,
    field_at E f p k -> titled p $"item" tag -> T tag ->
    (forall v, In v l -> supported E T X k v) ->
    supported E T X (KSequence f a b u) (VList l)
| sup_tuple : forall fs l,
    length fs = length l ->
    (forall i f v, nth_error fs i = Some f -> nth_error l i = Some v -> exists p k tag,
        field_at E f p k /\ titled p $"value" tag /\ T tag /\ supported E T X k v) ->
    supported E T X (KTuple fs) (VTuple l).

(** The value with null in place of empty texts. *)
Fixpoint null_texts (v : val) : val :=
  match v with
  | VStr [] => VNone
  | VList l => VList (map null_texts l)
  | VTuple l => VTuple (map null_texts l)
  | VDict o l => VDict o (map (fun kv => (fst kv, null_texts (snd kv))) l)
  | _ => v
  end.
