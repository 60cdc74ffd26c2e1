(** Property theorems proved in UndefProofs.v (generated by tools/mkprops.py). *)
From Verif Require Import Spec Demo UndefSpec UndefProofs.

(** C38.  A schema containing placeholders behaves, after the placeholders were defined, as the schema with
    the definitions in their place: exactly the same outcomes. *)
Theorem C38_placeholder_transparent :
  forall E desc recon f partial ph ser anc v r,
    settles E desc recon f partial ph ser anc v r <-> settles E desc recon (resolve E f) partial ph ser anc v r.
Proof. exact placeholder_transparent. Qed.
Print Assumptions C38_placeholder_transparent.

(* A tree: a list of trees. *)
Example C38_resolve_example :
  let E := with_undef env0 (fun i => match i with
                                     | O => Some (Fld p0 (KSequence (FUndef 0) None (Some 1%Z) false))
                                     | _ => None
                                     end) in
  let tree := VList [VList [VList []]] in
  resolve E (FUndef 0) = Fld p0 (KSequence (FUndef 0) None (Some 1%Z) false)
  /\ settles E nodesc norecon (FUndef 0) false Inbound true [] tree (Ok tree)
  /\ settles E nodesc norecon (resolve E (FUndef 0)) false Inbound true [] (VList [VList []; VList []])
       (fails [$"(sequence)"] $"max_length").
Proof.
  split; [reflexivity|]. split; (split; [discriminate|exists 3%nat; reflexivity]).
Qed.

(** C38.  The outcome does not depend on how much recursion was allowed. *)
Theorem C38_outcome_unique :
  forall E desc recon f partial ph ser anc v r r',
    settles E desc recon f partial ph ser anc v r -> settles E desc recon f partial ph ser anc v r' -> r = r'.
Proof. exact outcome_unique. Qed.
Print Assumptions C38_outcome_unique.

Example C38_unique_example :
  settles env0 nodesc norecon (Fld p0 (KInteger None None)) false Inbound true [] (VStr $"12") (Ok (VInt 12)).
Proof. split; [discriminate|]. exists O. reflexivity. Qed.

(** C38.  A sequence whose item field is an unresolved placeholder raises UndefinedFieldError on every
    nonempty list within its length bounds; the empty list does not need the item field. *)
Theorem C38_undefined_sequence :
  forall E desc recon n p item mn mx u partial ph ser anc l,
    p_preprocessor p = None -> unresolved E item ->
    at_least Z.le mn (Z.of_nat (length l)) -> at_most Z.le mx (Z.of_nat (length l)) ->
    process_gen E desc recon n (Fld p (KSequence item mn mx u)) partial ph ser anc (VList l) =
    match l with [] => Ok (VList []) | _ => Raise (XPy UndefinedFieldError) end.
Proof. exact undefined_sequence. Qed.
Print Assumptions C38_undefined_sequence.

Example C38_sequence_example :
  unresolved env0 (FUndef 7)
  /\ run0 (Fld p0 (KSequence (FUndef 7) None None false)) Inbound true (VList [VInt 1]) = Raise (XPy UndefinedFieldError)
  /\ run0 (Fld p0 (KSequence (FUndef 7) None None false)) Inbound true (VList []) = Ok (VList []).
Proof. split; [intros [q [k H]]; discriminate|]. split; reflexivity. Qed.

(** C38.  A tuple raises UndefinedFieldError at its first unresolved placeholder, when the fields before it
    accept or reject their values. *)
Theorem C38_undefined_tuple :
  forall E desc recon n p before f after partial ph ser anc v l,
    p_preprocessor p = None -> v = VList l \/ v = VTuple l ->
    length l = length (before ++ f :: after) ->
    unresolved E f -> Forall (defined E) before ->
    let path := path_of p (KTuple (before ++ f :: after)) anc in
    (forall i g x, nth_error before i = Some g -> nth_error l i = Some x ->
       orderly (process_gen E desc recon n g false ph ser (path ++ [index_seg i]) x)) ->
    process_gen E desc recon n (Fld p (KTuple (before ++ f :: after))) partial ph ser anc v
    = Raise (XPy UndefinedFieldError).
Proof. exact undefined_tuple. Qed.
Print Assumptions C38_undefined_tuple.

Example C38_tuple_example :
  run0 (Fld p0 (KTuple [Fld p0 (KInteger None None); FUndef 7])) Inbound true (VList [VStr $"x"; VInt 2])
  = Raise (XPy UndefinedFieldError).
Proof. reflexivity. Qed.

(** C38.  A union raises UndefinedFieldError when every field before the unresolved placeholder rejects the
    type of the value. *)
Theorem C38_undefined_union :
  forall E desc recon n p before f after partial ph ser anc v,
    v <> VNone -> unresolved E f -> Forall (defined E) before ->
    let path := path_of p (KUnion (before ++ f :: after)) anc in
    Forall (fun g => exists e, process_gen E desc recon n g false ph ser path v = Raise (XErr e)
                               /\ er_cls e = CInvalidType) before ->
    process_gen E desc recon n (Fld p (KUnion (before ++ f :: after))) partial ph ser anc v
    = Raise (XPy UndefinedFieldError).
Proof. exact undefined_union. Qed.
Print Assumptions C38_undefined_union.

Example C38_union_example :
  run0 (Fld p0 (KUnion [Fld p0 (KInteger None None); FUndef 7])) Inbound false (VStr $"x")
  = Raise (XPy UndefinedFieldError)
  /\ run0 (Fld p0 (KUnion [Fld p0 (KInteger None None); FUndef 7])) Inbound false (VInt 1) = Ok (VInt 1).
Proof. split; reflexivity. Qed.

(** C38.  A map (with text keys) whose value field is an unresolved placeholder raises UndefinedFieldError on
    every nonempty dict of text keys. *)
Theorem C38_undefined_map :
  forall E desc recon n p value req partial ph ser anc o k x rest,
    p_preprocessor p = None -> unresolved E value ->
    process_gen E desc recon n (Fld p (KMap value None req)) partial ph ser anc (VDict o ((VStr k, x) :: rest))
    = Raise (XPy UndefinedFieldError).
Proof. exact undefined_map. Qed.
Print Assumptions C38_undefined_map.

Example C38_map_example :
  run0 (Fld p0 (KMap (FUndef 7) None None)) Outbound false (VDict false [(VStr $"a", VInt 1)])
  = Raise (XPy UndefinedFieldError).
Proof. reflexivity. Qed.

(** C38.  A structure visiting an unresolved placeholder (the keys before it being defined, and accepting or
    rejecting their values) raises UndefinedFieldError when the key is given, AttributeError when it is
    absent unless partial. *)
Theorem C38_undefined_structure :
  forall E desc recon n p defn strict ko before k f after partial ph ser anc o items,
    p_preprocessor p = None -> NoDup (map fst defn) -> NoDup (map fst (before ++ (k, f) :: after)) ->
    visits defn ko (before ++ (k, f) :: after) -> distinct (e_local E) (map fst items) ->
    unresolved E f -> Forall (fun kf => defined E (snd kf)) before ->
    let path := path_of p (KStructure (SPlain defn) strict ko) anc in
    let out := process_gen E desc recon n (Fld p (KStructure (SPlain defn) strict ko)) partial ph ser anc (VDict o items) in
    Forall (fun kf => forall r,
       fate E (fun k f x => process_gen E desc recon n f false ph ser (path ++ [name_segment k]) x)
         ph partial path items kf (Some r) -> orderly r) before ->
    ((exists v, In (VStr k, v) items) -> out = Raise (XPy UndefinedFieldError))
    /\ ((forall v, ~ In (VStr k, v) items) -> partial = false -> out = Raise (XPy AttributeError)).
Proof. exact undefined_structure. Qed.
Print Assumptions C38_undefined_structure.

Example C38_structure_example :
  let f := Fld p0 (KStructure (SPlain [($"a", Fld p0 (KInteger None None)); ($"b", FUndef 7)]) true None) in
  run0 f Inbound true (VDict false [(VStr $"b", VInt 1)]) = Raise (XPy UndefinedFieldError)
  /\ run0 f Inbound true (VDict false [(VStr $"a", VInt 1)]) = Raise (XPy AttributeError)
  /\ process_gen env0 nodesc norecon 0 f true Inbound true [] (VDict false [(VStr $"a", VInt 1)])
     = Ok (VDict false [(VStr $"a", VInt 1)]).
Proof. repeat split; reflexivity. Qed.
