(** Property theorems proved in ReqProofs.v (generated by tools/mkprops.py). *)
From Verif Require Import ReqSpec Demo ReqProofs.

(** C48.  The attributes of the class that tests may name: the type, the base type (None for the
    bare Field), and whether it is structural. *)
Theorem C48_screen_class_attributes :
  forall E p k,
    let '(t, base, container) := class_table k in
    attribute E p k $"type" = VStr t
    /\ attribute E p k $"basetype" = match base with Some b => VStr b | None => VNone end
    /\ attribute E p k $"structural" = VBool container.
Proof. exact screen_class_attributes. Qed.
Print Assumptions C48_screen_class_attributes.

Example C48_class_example :
  screen env0 p0 KUUID [($"basetype", VStr $"text"); ($"structural", VBool false)] = true
  /\ screen env0 p0 KUUID [($"type", VStr $"text")] = false.
Proof. split; reflexivity. Qed.

(** C53.  A union extracts with its first field that does not refuse with CannotExtractError,
    whatever else that field does, from what its own extractor makes of the subject; when all fields
    refuse, so does the union.  An exception of its extractor is not turned into a refusal. *)
Theorem C53_union_extract_exact :
  forall E n strict tests p fs v,
    takes_part E tests p (KUnion fs) -> v <> VNone -> Forall (defined E) fs ->
    let ext f s := extract E n strict tests f s in
    let out := ext (Fld p (KUnion fs)) v in
    (forall i x, p_extractor p = Some i -> e_ext E i v = Raise x -> out = Raise x)
    /\ forall s, match p_extractor p with None => s = v | Some i => e_ext E i v = Ok s end ->
        (forall before f after,
           fs = before ++ f :: after ->
           (forall g, In g before -> ext g s = py CannotExtractError) ->
           ext f s <> py CannotExtractError -> out = ext f s)
        /\ ((forall f, In f fs -> ext f s = py CannotExtractError) -> out = py CannotExtractError).
Proof. exact union_extract_exact. Qed.
Print Assumptions C53_union_extract_exact.

Example C53_union_example :
  let fs := [Fld p0 (KSequence (Fld p0 KBoolean) None None false); Fld p_req KBoolean; Fld p0 KBoolean] in
  extract env0 0 true [] (Fld p0 (KUnion fs)) (VStr $"ab") = Ok (VStr $"ab")
  /\ extract env0 0 true [($"required", VBool false)] (Fld p0 (KUnion fs)) (VStr $"ab") = py FieldExcludedError.
Proof. split; reflexivity. Qed.

(** C76.  has_required_fields is True for a polymorphic structure; otherwise it is True exactly
    when some field is required and has no default.  (Fields that are placeholders must have been
    defined; otherwise an AttributeError may be raised.) *)
Theorem C76_has_required_fields_exact :
  forall E l ps,
    Forall2 (parameters_of E) l ps ->
    (forall on vs, has_required_fields E (SPoly on vs) = Ok true)
    /\ (has_required_fields E (SPlain l) = Ok true <-> exists s q, In (s, q) ps /\ must_be_given q)
    /\ (has_required_fields E (SPlain l) = Ok false <-> forall s q, In (s, q) ps -> ~ must_be_given q).
Proof. exact has_required_fields_exact. Qed.
Print Assumptions C76_has_required_fields_exact.

Example C76_example :
  has_required_fields env0 (SPlain [($"a", Fld p0 KBoolean); ($"b", Fld p_req KBoolean)]) = Ok true
  /\ has_required_fields env0 (SPlain [($"a", Fld (p_def (VBool true)) KBoolean)]) = Ok false.
Proof. split; reflexivity. Qed.

(** C76.  What it means: when it is True the structure refuses the empty dict inbound, and when
    it is False it accepts the empty dict provided that the fields accept their defaults. *)
Theorem C76_has_required_fields_meaning :
  forall E desc recon n p defn strict ser anc o,
    p_preprocessor p = None -> NoDup (map fst defn) -> Forall (fun kf => defined E (snd kf)) defn ->
    let f := Fld p (KStructure (SPlain defn) strict None) in
    let path := path_of p (KStructure (SPlain defn) strict None) anc in
    (has_required_fields E (SPlain defn) = Ok true ->
       forall r, process_gen E desc recon n f false Inbound ser anc (VDict o []) <> Ok r)
    /\ (has_required_fields E (SPlain defn) = Ok false ->
       (forall k g q, In (k, g) defn -> defined_as E g q -> p_default q <> VNone ->
          exists w, process_gen E desc recon n g false Inbound ser (path ++ [name_segment k]) (p_default q) = Ok w) ->
       exists r, process_gen E desc recon n f false Inbound ser anc (VDict o []) = Ok r).
Proof. exact has_required_fields_meaning. Qed.
Print Assumptions C76_has_required_fields_meaning.

Example C76_meaning_example :
  run0 (Fld p0 (KStructure (SPlain [($"a", Fld (p_def (VBool true)) KBoolean); ($"b", Fld p0 KBoolean)]) true None))
    Inbound false (VDict false []) = Ok (VDict false [(VStr $"a", VBool true)]).
Proof. reflexivity. Qed.

(** C77.  redefine adds the given values to an enumeration (strategy append) or puts them in
    place of the old ones (replace): afterwards the members are exactly the values equal to an old
    or given one, none twice.  Any other strategy is a ValueError and values that cannot be hashed
    are a TypeError. *)
Theorem C77_redefine_exact :
  forall E old enumeration new,
    values_given enumeration new ->
    (forall strategy kept, strategy = $"append" /\ kept = old \/ strategy = $"replace" /\ kept = [] ->
       (Forall simple kept -> Forall simple new ->
          exists l, redefine E old enumeration strategy = Ok l
            /\ (forall v, among (e_local E) v l <-> among (e_local E) v kept \/ among (e_local E) v new)
            /\ distinct (e_local E) l /\ incl l (kept ++ new))
       /\ ((exists v, In v (kept ++ new) /\ hashable v = false) -> redefine E old enumeration strategy = py TypeError))
    /\ (forall strategy, strategy <> $"append" -> strategy <> $"replace" ->
          redefine E old enumeration strategy = py ValueError).
Proof. exact redefine_exact. Qed.
Print Assumptions C77_redefine_exact.

Example C77_example :
  redefine env0 [VStr $"a"; VInt 1] (VStr $"a b") $"append" = Ok [VStr $"a"; VInt 1; VStr $"b"]
  /\ redefine env0 [VStr $"a"; VInt 1] (VList [VBool true; VInt 1]) $"replace" = Ok [VBool true]
  /\ redefine env0 [] (VList []) $"prepend" = py ValueError.
Proof. repeat split; reflexivity. Qed.
