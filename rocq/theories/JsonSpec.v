(** * Specifications of the JSON format (C74). *)
From Verif Require Export StSpec JsonText.

(** Texts JSON carries unchanged: characters of Python without a high surrogate directly followed by
    a low one. *)
Definition carried (s : str) : Prop :=
  (forall c, In c s -> (c < 1114112)%N)
  /\ forall a h l b, s = a ++ h :: l :: b -> ~ ((55296 <= h < 56320)%N /\ (56320 <= l < 57344)%N).

(** Texts without surrogates. *)
Definition no_surrogates (s : str) : Prop :=
  forall c, In c s -> (c < 1114112)%N /\ ~ (55296 <= c < 57344)%N.

(** Some decimal digits. *)
Definition digits_only (s : str) : Prop := s <> [] /\ forall c, In c s -> (48 <= c <= 57)%N.

(** The numbers of JSON with a fraction or an exponent. *)
Definition float_syntax (s : str) : Prop :=
  exists sign whole fraction exponent,
    s = sign ++ whole ++ fraction ++ exponent
    /\ (sign = [] \/ sign = $"-")
    /\ (whole = $"0" \/ digits_only whole /\ forall r, whole <> 48%N :: r)
    /\ (fraction = [] \/ exists ds, fraction = $"." ++ ds /\ digits_only ds)
    /\ (exponent = [] \/ exists e sg ds, exponent = e ++ sg ++ ds /\ (e = $"e" \/ e = $"E")
                         /\ (sg = [] \/ sg = $"-" \/ sg = $"+") /\ digits_only ds)
    /\ fraction ++ exponent <> [].

(** The [repr] of a float is a number of JSON and reads as the same float.  Python guarantees this of
    every finite float. *)
Definition prints (E : env) (f : spec_float) : Prop :=
  float_syntax (e_str E (VFloat f)) /\ parse_float (e_udigit E) (e_str E (VFloat f)) = Some f.

Definition finite (f : spec_float) : Prop :=
  match f with S754_nan | S754_infinity _ => False | _ => True end.

(** The text of a key that is not a text. *)
Inductive key_text (E : env) : val -> str -> Prop :=
| key_str : forall s, key_text E (VStr s) s
| key_int : forall z, key_text E (VInt z) (Z_text z)
| key_true : key_text E (VBool true) $"true"
| key_false : key_text E (VBool false) $"false"
| key_null : key_text E VNone $"null"
| key_float : forall f, finite f -> key_text E (VFloat f) (e_str E (VFloat f))
| key_nan : key_text E (VFloat S754_nan) $"NaN"
| key_inf : key_text E (VFloat (S754_infinity false)) $"Infinity"
| key_ninf : key_text E (VFloat (S754_infinity true)) $"-Infinity".

(** [w] is what comes back when [v] goes through JSON: tuples become lists, every dict becomes a
    plain one in the same order, keys become texts; everything else is unchanged. *)
Inductive json (E : env) : val -> val -> Prop :=
| json_null : json E VNone VNone
| json_bool : forall b, json E (VBool b) (VBool b)
| json_int : forall z, json E (VInt z) (VInt z)
| json_finite : forall f, finite f -> prints E f -> json E (VFloat f) (VFloat f)
| json_special : forall f, ~ finite f -> json E (VFloat f) (VFloat f)
| json_text : forall s, carried s -> json E (VStr s) (VStr s)
| json_list : forall l m, Forall2 (json E) l m -> json E (VList l) (VList m)
| json_tuple : forall l m, Forall2 (json E) l m -> json E (VTuple l) (VList m)
| json_dict : forall v l m, as_dict v = Some l ->
    Forall2 (fun kv kw => (exists t, key_text E (fst kv) t /\ carried t /\ fst kw = VStr t)
                          /\ json E (snd kv) (snd kw)) l m ->
    NoDup (map fst m) -> json E v (VDict false m).

(** Values that are exactly the documents of JSON. *)
Inductive document (E : env) : val -> Prop :=
| doc_null : document E VNone
| doc_bool : forall b, document E (VBool b)
| doc_int : forall z, document E (VInt z)
| doc_float : forall f, (finite f -> prints E f) -> document E (VFloat f)
| doc_text : forall s, carried s -> document E (VStr s)
| doc_list : forall l, (forall v, In v l -> document E v) -> document E (VList l)
| doc_dict : forall l,
    NoDup (map fst l) ->
    (forall k v, In (k, v) l -> exists s, k = VStr s /\ carried s) ->
    (forall k v, In (k, v) l -> document E v) ->
    document E (VDict false l).

(** Values [json.dumps] accepts: nothing but null, booleans, numbers, texts and containers of such,
    with simple keys. *)
Inductive dumpable : val -> Prop :=
| dump_null : dumpable VNone
| dump_bool : forall b, dumpable (VBool b)
| dump_int : forall z, dumpable (VInt z)
| dump_float : forall f, dumpable (VFloat f)
| dump_text : forall s, dumpable (VStr s)
| dump_list : forall l, (forall v, In v l -> dumpable v) -> dumpable (VList l)
| dump_tuple : forall l, (forall v, In v l -> dumpable v) -> dumpable (VTuple l)
| dump_dict : forall v l, as_dict v = Some l ->
    (forall k x, In (k, x) l ->
       match k with VStr _ | VInt _ | VBool _ | VNone | VFloat _ => True | _ => False end /\ dumpable x) ->
    dumpable v.

(** Every float inside a value prints. *)
Inductive floats_print (E : env) : val -> Prop :=
| fp_float : forall f, (finite f -> prints E f) -> floats_print E (VFloat f)
| fp_list : forall l, (forall v, In v l -> floats_print E v) -> floats_print E (VList l)
| fp_dict : forall o l, (forall k v, In (k, v) l -> floats_print E v) -> floats_print E (VDict o l)
| fp_other : forall v, match v with VFloat _ | VList _ | VDict _ _ => False | _ => True end -> floats_print E v.
