(** Property theorems proved in ExtractProofs.v (generated by tools/mkprops.py). *)
From Verif Require Import Spec Demo ExtractSpec ExtractProofs.

(** C53.  Structure.extract, read from a dict by key or, when not strict, from an object by
    attribute: the result is a dict with exactly those keys of the definition for which the subject
    has a value that is not null and whose field is not excluded, in the order of the definition,
    each with the value extracted by its field. *)
Theorem C53_structure_extract_exact :
  forall E n strict tests p defn st ko subject look r,
    let f := Fld p (KStructure (SPlain defn) st ko) in
    takes_part E tests p (KStructure (SPlain defn) st ko) -> p_extractor p = None ->
    reads strict subject look -> subject <> VNone ->
    (extract E n strict tests f subject = Ok r <->
     exists es, r = VDict false es
       /\ entries_made FieldExcludedError false look (fun g v => extract E n strict tests g v) defn es).
Proof. exact structure_extract_exact. Qed.
Print Assumptions C53_structure_extract_exact.

(* One key absent, one null, one excluded by the test, one kept; the unknown key "z" is ignored.  The
   same from an object that is not a dict. *)
Example C53_example :
  let f := Fld p0 (KStructure (SPlain [($"a", Fld p0 (KInteger None None)); ($"b", Fld p0 KBoolean);
                                       ($"c", Fld p0 KBoolean); ($"d", Fld p_req KBoolean)]) true None) in
  let v := VDict false [(VStr $"z", VInt 0); (VStr $"a", VInt 7); (VStr $"c", VNone); (VStr $"d", VBool true)] in
  extract env0 0 true [($"required", VBool false)] f v = Ok (VDict false [(VStr $"a", VInt 7)])
  /\ extract env0 0 false [] f (VObj 4 [($"d", VBool true); ($"q", VInt 1)])
     = Ok (VDict false [(VStr $"d", VBool true)])
  /\ extract env0 0 true [] f (VObj 4 [($"d", VBool true)]) = py CannotExtractError
  /\ reads false (VObj 4 [($"d", VBool true); ($"q", VInt 1)])
           (fun k => aget k [($"d", VBool true); ($"q", VInt 1)]).
Proof.
  cbn zeta. split; [vm_compute; reflexivity|]. split; [vm_compute; reflexivity|]. split; [vm_compute; reflexivity|].
  right. split; [reflexivity|]. eexists. eexists. split; reflexivity.
Qed.

(** C53.  A polymorphic structure does the same with the definition of the variant that the
    subject's own discriminator names. *)
Theorem C53_polymorphic_extract_exact :
  forall E n strict tests p q kd name vs st ko subject look ident i defn r,
    let k := KStructure (SPoly (Fld q kd) vs) st ko in
    takes_part E tests p k -> p_extractor p = None -> p_name q = Some name ->
    reads strict subject look -> subject <> VNone ->
    look name = Some ident -> truthy ident = true -> hashable ident = true ->
    find (fun vd => veq (e_local E) (fst vd) ident) vs = Some (i, defn) ->
    (extract E n strict tests (Fld p k) subject = Ok r <->
     exists es, r = VDict false es
       /\ entries_made FieldExcludedError false look (fun g v => extract E n strict tests g v) defn es).
Proof. exact polymorphic_extract_exact. Qed.
Print Assumptions C53_polymorphic_extract_exact.

Example C53_polymorphic :
  let on := Fld (p_named $"type") (KText None None None true) in
  let f := Fld p0 (KStructure (SPoly on [(VStr $"x", [($"type", on); ($"a", Fld p0 KBoolean)]);
                                         (VStr $"y", [($"type", on); ($"b", Fld p0 KBoolean)])]) true None) in
  extract env0 0 true [] f (VDict false [(VStr $"a", VBool true); (VStr $"b", VBool false); (VStr $"type", VStr $"y")])
  = Ok (VDict false [(VStr $"type", VStr $"y"); (VStr $"b", VBool false)])
  /\ extract env0 0 true [] f (VDict false [(VStr $"a", VBool true)]) = py KeyError.
Proof. vm_compute. auto. Qed.

(** C53.  With a falsy discriminator the variants themselves are taken for the fields, under their
    identities as keys: nothing is extracted if the subject has none of these, and otherwise an exception
    is raised; from an object, by an identity that is no text at the latest. *)
Theorem C53_polymorphic_extract_falsy :
  forall E n strict tests p q kd name vs st ko subject ident,
    let k := KStructure (SPoly (Fld q kd) vs) st ko in
    takes_part E tests p k -> p_extractor p = None -> p_name q = Some name -> truthy ident = false ->
    let out := extract E n strict tests (Fld p k) subject in
    (forall items, as_dict subject = Some items -> sget name items = Some ident ->
       ((forall i d, In (i, d) vs -> dget (e_local E) i items = None \/ dget (e_local E) i items = Some VNone) ->
          out = Ok (VDict false []))
       /\ (forall i d x, In (i, d) vs -> dget (e_local E) i items = Some x -> x <> VNone -> out = py AttributeError))
    /\ (forall cls attrs, subject = VObj cls attrs -> strict = false -> aget name attrs = Some ident ->
       ((forall i d, In (i, d) vs -> exists s, i = VStr s /\ (aget s attrs = None \/ aget s attrs = Some VNone)) ->
          out = Ok (VDict false []))
       /\ (forall before i d after, vs = before ++ (i, d) :: after ->
             (forall j d', In (j, d') before -> exists s, j = VStr s /\ (aget s attrs = None \/ aget s attrs = Some VNone)) ->
             (forall s x, i = VStr s -> aget s attrs = Some x -> x <> VNone -> out = py AttributeError)
             /\ ((forall s, i <> VStr s) -> out = py TypeError))).
Proof. exact polymorphic_extract_falsy. Qed.
Print Assumptions C53_polymorphic_extract_falsy.

Example C53_falsy_example :
  let on := Fld (p_named $"type") (KInteger None None) in
  let f := Fld p0 (KStructure (SPoly on [(VInt 0, [($"type", on)]); (VInt 1, [($"type", on); ($"b", Fld p0 KBoolean)])]) true None) in
  extract env0 0 true [] f (VDict false [(VStr $"type", VInt 0); (VStr $"b", VBool false)]) = Ok (VDict false [])
  /\ extract env0 0 true [] f (VDict false [(VStr $"type", VInt 0); (VInt 1, VBool false)]) = py AttributeError
  /\ extract env0 0 false [] f (VObj 4 [($"type", VInt 0)]) = py TypeError.
Proof. vm_compute. repeat split. Qed.

(** C53.  Maps keep their keys, each with the value extracted by the value field, except those
    whose value is excluded. *)
Theorem C53_map_extract_exact :
  forall E n strict tests p vf kf req subject items r,
    let k := KMap vf kf req in
    takes_part E tests p k -> p_extractor p = None -> as_dict subject = Some items ->
    (extract E n strict tests (Fld p k) subject = Ok r <->
     exists es, r = VDict false es
       /\ elements_made (same_key (fun v => outcome FieldExcludedError (extract E n strict tests vf v))) items es).
Proof. exact map_extract_exact. Qed.
Print Assumptions C53_map_extract_exact.

Example C53_map :
  extract env0 0 true [] (Fld p0 (KMap (Fld p0 (KStructure (SPlain [($"a", Fld p0 KBoolean)]) true None)) None None))
    (VDict false [(VStr $"x", VDict false [(VStr $"a", VBool true); (VStr $"b", VNone)]); (VStr $"y", VNone)])
  = Ok (VDict false [(VStr $"x", VDict false [(VStr $"a", VBool true)]); (VStr $"y", VNone)]).
Proof. vm_compute. reflexivity. Qed.

(** C53.  Sequences become lists of the items extracted, in order, without the excluded ones. *)
Theorem C53_sequence_extract_exact :
  forall E n strict tests p it a b u subject l r,
    let k := KSequence it a b u in
    takes_part E tests p k -> p_extractor p = None -> elements subject l ->
    (extract E n strict tests (Fld p k) subject = Ok r <->
     exists m, r = VList m
       /\ elements_made (fun v => outcome FieldExcludedError (extract E n strict tests it v)) l m).
Proof. exact sequence_extract_exact. Qed.
Print Assumptions C53_sequence_extract_exact.

Example C53_sequence :
  extract env0 0 true [] (Fld p0 (KSequence (Fld p0 (KInteger None None)) None None false))
    (VTuple [VInt 1; VNone; VInt 3]) = Ok (VList [VInt 1; VNone; VInt 3]).
Proof. vm_compute. reflexivity. Qed.

(** C53.  Tuples become tuples of what the fields extract position by position, without the
    excluded ones. *)
Theorem C53_tuple_extract_exact :
  forall E n strict tests p fs subject l r,
    takes_part E tests p (KTuple fs) -> p_extractor p = None -> elements subject l -> length fs = length l ->
    (extract E n strict tests (Fld p (KTuple fs)) subject = Ok r <->
     exists m, r = VTuple m
       /\ elements_made (fun fv => outcome FieldExcludedError (extract E n strict tests (fst fv) (snd fv)))
                        (combine fs l) m).
Proof. exact tuple_extract_exact. Qed.
Print Assumptions C53_tuple_extract_exact.

Example C53_tuple :
  extract env0 0 true [($"required", VBool false)] (Fld p0 (KTuple [Fld p0 KBoolean; Fld p_req KBoolean]))
    (VList [VBool true; VBool false]) = Ok (VTuple [VBool true]).
Proof. vm_compute. reflexivity. Qed.

(** C53.  What extraction refuses: a field that fails the tests is excluded; the failure of an
    extractor, and a subject of the wrong shape, is CannotExtractError. *)
Theorem C53_extract_refuses :
  forall E n strict tests p k v,
    (tests <> [] -> screen E p k tests = false -> extract E n strict tests (Fld p k) v = py FieldExcludedError)
    /\ (takes_part E tests p k -> v <> VNone -> (forall l, k <> KUnion l) ->
        (forall i x, p_extractor p = Some i -> e_ext E i v = Raise x ->
           extract E n strict tests (Fld p k) v = py CannotExtractError)
        /\ (p_extractor p = None ->
            match k with
            | KMap _ _ _ => as_dict v = None
            | KStructure _ _ _ => as_dict v = None /\ strict = true
            | KSequence _ _ _ _ | KTuple _ => forall l, ~ elements v l
            | _ => False
            end -> extract E n strict tests (Fld p k) v = py CannotExtractError)).
Proof. exact extract_refuses. Qed.
Print Assumptions C53_extract_refuses.

Example C53_refuses :
  let p := {| p_name := None; p_nonnull := false; p_required := false; p_ignore_null := false;
     p_default := VNone; p_constant := VNone; p_preprocessor := None; p_extractor := Some 1%nat;
     p_instantiator := None; p_title := VNone; p_description := VNone; p_notes := VNone;
     p_aspects := [] |} in
  extract env0 0 true [] (Fld p KBoolean) (VBool true) = py CannotExtractError
  /\ extract env0 0 true [] (Fld p0 (KSequence (Fld p0 KBoolean) None None false)) (VStr $"ab") = py CannotExtractError
  /\ extract env0 0 true [($"required", VBool true)] (Fld p0 KBoolean) (VBool true) = py FieldExcludedError.
Proof. vm_compute. auto. Qed.

(** C53.  In a schema without extractors (and without key orders and unions of containers), a
    conforming value is extracted as itself, without the null entries of its structures; without such
    entries it is returned unchanged. *)
Theorem C53_extract_conforming :
  forall E n strict f v,
    throughout E well_keyed f -> throughout E straight f -> throughout E no_extractor f ->
    conforms E n f v ->
    exists w, extract E n strict [] f v = Ok w /\ denulled E f v w /\ (no_null_entries v -> w = v).
Proof. exact extract_conforming. Qed.
Print Assumptions C53_extract_conforming.

(* A nested document with a null in a structure (dropped) and one in a list (kept). *)
Example C53_conforming :
  let inner := Fld p0 (KStructure (SPlain [($"a", Fld p0 KBoolean); ($"b", Fld p0 KBoolean)]) true None) in
  let f := Fld p0 (KSequence inner None None false) in
  let v := VList [VDict false [(VStr $"a", VNone); (VStr $"b", VBool true)]; VNone] in
  throughout env0 well_keyed f /\ throughout env0 straight f /\ throughout env0 no_extractor f
  /\ conforms env0 0 f v
  /\ extract env0 0 true [] f v = Ok (VList [VDict false [(VStr $"b", VBool true)]; VNone]).
Proof.
  cbn zeta.
  assert (Hev : forall P : params -> kind -> Prop, P p0 KBoolean ->
    P p0 (KStructure (SPlain [($"a", Fld p0 KBoolean); ($"b", Fld p0 KBoolean)]) true None) ->
    P p0 (KSequence (Fld p0 (KStructure (SPlain [($"a", Fld p0 KBoolean); ($"b", Fld p0 KBoolean)]) true None)) None None false) ->
    throughout env0 P (Fld p0 (KSequence (Fld p0 (KStructure (SPlain [($"a", Fld p0 KBoolean); ($"b", Fld p0 KBoolean)]) true None)) None None false))).
  { intros P H1 H2 H3. split; [|discriminate]. constructor; [exact H3|]. intros g [<-|[]].
    constructor; [exact H2|]. intros g [<-|[<-|[]]]; constructor; try exact H1; intros ? []. }
  split; [apply Hev; try exact I; cbn; split; [|exact I]; repeat constructor; cbn; intuition discriminate|].
  split; [apply Hev; cbn; auto|]. split; [apply Hev; reflexivity|]. split; [|vm_compute; reflexivity].
  right. split; [discriminate|]. eexists. split; [reflexivity|]. split; [discriminate|]. split; [discriminate|].
  split; [|discriminate]. constructor; [|constructor; [left; auto|constructor]].
  right. split; [discriminate|]. eexists. split; [reflexivity|]. split; [apply sublist_take, sublist_take, sublist_nil|]. split.
  - intros k y [H|[H|[]]]; injection H as <- <-.
    + eexists. split; [left; reflexivity|]. left. auto.
    + eexists. split; [right; left; reflexivity|]. right. split; [discriminate|]. split; [eexists; reflexivity|].
      split; [left; reflexivity|intros _; split; [discriminate|exact I]].
  - intros k c _ [H|[H|[]]] Hno; injection H as <- <-; exfalso; apply Hno; [left|right; left]; reflexivity.
Qed.

(** C53.  Why unions of containers are excluded: a union extracts with its first field that does
    not complain, and a structure never complains about foreign keys, so that a value conforming to
    the second alternative is lost. *)
Theorem C53_extract_union_refuted :
  exists E n f v w,
    throughout E well_keyed f /\ throughout E no_extractor f /\ conforms E n f v
    /\ v <> w /\ no_null_entries v /\ extract E n true [] f v = Ok w.
Proof. exact extract_union_refuted. Qed.
Print Assumptions C53_extract_union_refuted.

(** C54.  Null is never instantiated; any other value of a scalar field is handed, with the key
    it has in its container, to the instantiator of the field, or returned as it is when the field has
    none. *)
Theorem C54_scalar_instantiate_exact :
  forall E n p k v key r,
    kind_structural k = false ->
    instantiate E n (Fld p k) VNone key = Ok VNone
    /\ (v <> VNone -> (instantiate E n (Fld p k) v key = Ok r <-> finished E p v key r)).
Proof. exact scalar_instantiate_exact. Qed.
Print Assumptions C54_scalar_instantiate_exact.

(* An environment whose instantiator 3 pairs the value with its key, and fails on null. *)
Definition env54 : env := {|
  e_pre := e_pre env0; e_ext := fun n v => match v with VTuple [x; _] => Ok x | _ => py ValueError end;
  e_inst := fun n v k => match v with VNone => py ValueError | _ => Ok (VTuple [v; k]) end;
  e_pattern := e_pattern env0; e_local := e_local env0; e_pad := e_pad env0; e_udigit := e_udigit env0;
  e_uword := e_uword env0; e_ulower := e_ulower env0; e_import := e_import env0; e_identify := e_identify env0;
  e_undef := e_undef env0; e_str := e_str env0; e_impl := e_impl env0; e_schemas := e_schemas env0;
  e_compile := e_compile env0; e_repr := e_repr env0;
     e_surrogate := e_surrogate env0; e_identity := e_identity env0 |}.
Definition p54 : params :=
  {| p_name := None; p_nonnull := false; p_required := false; p_ignore_null := false;
     p_default := VNone; p_constant := VNone; p_preprocessor := None; p_extractor := Some 3%nat;
     p_instantiator := Some 3%nat; p_title := VNone; p_description := VNone; p_notes := VNone;
     p_aspects := [] |}.
Example C54_scalar :
  instantiate env54 0 (Fld p54 KBoolean) (VBool true) (VStr $"k") = Ok (VTuple [VBool true; VStr $"k"])
  /\ instantiate env54 0 (Fld p54 KBoolean) VNone (VStr $"k") = Ok VNone.
Proof. vm_compute. auto. Qed.

(** C54.  Bottom up: the items of a sequence are instantiated without key, in order, and the list
    of the results is handed to the sequence's own instantiator. *)
Theorem C54_sequence_instantiate_exact :
  forall E n p it a b u l key r,
    instantiate E n (Fld p (KSequence it a b u)) (VList l) key = Ok r <->
    exists m, Forall2 (fun x y => instantiate E n it x VNone = Ok y) l m /\ finished E p (VList m) key r.
Proof. exact sequence_instantiate_exact. Qed.
Print Assumptions C54_sequence_instantiate_exact.

Example C54_sequence :
  instantiate env54 0 (Fld p54 (KSequence (Fld p54 KBoolean) None None false)) (VList [VBool true; VNone]) (VInt 9)
  = Ok (VTuple [VList [VTuple [VBool true; VNone]; VNone]; VInt 9]).
Proof. vm_compute. reflexivity. Qed.

(** C54.  Bottom up: the positions of a tuple, by their fields and without key. *)
Theorem C54_tuple_instantiate_exact :
  forall E n p fs l key r,
    length fs = length l ->
    (instantiate E n (Fld p (KTuple fs)) (VTuple l) key = Ok r <->
     exists m, Forall2 (fun gx y => instantiate E n (fst gx) (snd gx) VNone = Ok y) (combine fs l) m
       /\ finished E p (VTuple m) key r).
Proof. exact tuple_instantiate_exact. Qed.
Print Assumptions C54_tuple_instantiate_exact.

Example C54_tuple :
  instantiate env54 0 (Fld p0 (KTuple [Fld p54 KBoolean; Fld p0 KBoolean])) (VTuple [VBool true; VBool false]) VNone
  = Ok (VTuple [VTuple [VBool true; VNone]; VBool false]).
Proof. vm_compute. reflexivity. Qed.

(** C54.  Bottom up: the values of a map, each with its key. *)
Theorem C54_map_instantiate_exact :
  forall E n p vf kf req o items key r,
    instantiate E n (Fld p (KMap vf kf req)) (VDict o items) key = Ok r <->
    exists m, Forall2 (fun kv kw => fst kw = fst kv /\ instantiate E n vf (snd kv) (fst kv) = Ok (snd kw)) items m
      /\ finished E p (VDict false m) key r.
Proof. exact map_instantiate_exact. Qed.
Print Assumptions C54_map_instantiate_exact.

Example C54_map :
  instantiate env54 0 (Fld p0 (KMap (Fld p54 KBoolean) None None)) (VDict false [(VStr $"x", VBool true)]) VNone
  = Ok (VDict false [(VStr $"x", VTuple [VBool true; VStr $"x"])]).
Proof. vm_compute. reflexivity. Qed.

(** C54.  Bottom up: the entries of a structure, each by the field of its key and with its key;
    all keys must be defined. *)
Theorem C54_structure_instantiate_exact :
  forall E n p defn st ko o items key r,
    NoDup (map fst defn) ->
    (instantiate E n (Fld p (KStructure (SPlain defn) st ko)) (VDict o items) key = Ok r <->
     exists m, Forall2 (fun kv kw => fst kw = fst kv
                          /\ exists s g, fst kv = VStr s /\ In (s, g) defn
                             /\ instantiate E n g (snd kv) (fst kv) = Ok (snd kw)) items m
       /\ finished E p (VDict false m) key r).
Proof. exact structure_instantiate_exact. Qed.
Print Assumptions C54_structure_instantiate_exact.

Example C54_structure :
  let f := Fld p54 (KStructure (SPlain [($"a", Fld p54 KBoolean); ($"b", Fld p0 KBoolean)]) true None) in
  instantiate env54 0 f (VDict false [(VStr $"b", VBool true); (VStr $"a", VBool false)]) VNone
  = Ok (VTuple [VDict false [(VStr $"b", VBool true); (VStr $"a", VTuple [VBool false; VStr $"a"])]; VNone])
  /\ instantiate env54 0 f (VDict false [(VStr $"z", VBool true)]) VNone = py KeyError.
Proof. vm_compute. auto. Qed.

(** C54.  Without instantiators, unions and key orders, every conforming value is instantiated as
    itself, whatever its key. *)
Theorem C54_instantiate_identity_partial :
  forall E n f v key,
    throughout E well_keyed f -> throughout E straight f -> throughout E no_union f ->
    throughout E no_instantiator f -> conforms E n f v ->
    instantiate E n f v key = Ok v.
Proof. exact instantiate_identity_partial. Qed.
Print Assumptions C54_instantiate_identity_partial.

Example C54_identity :
  let f := Fld p0 (KMap (Fld p0 (KInteger None None)) None None) in
  let v := VDict false [(VStr $"x", VInt 4); (VStr $"y", VNone)] in
  throughout env0 well_keyed f /\ throughout env0 straight f /\ throughout env0 no_union f
  /\ throughout env0 no_instantiator f /\ instantiate env0 0 f v (VStr $"k") = Ok v
  /\ exists n, conforms env0 n f v.
Proof.
  assert (Hev : forall P : params -> kind -> Prop, P p0 (KInteger None None) -> P p0 (KMap (Fld p0 (KInteger None None)) None None) ->
     throughout env0 P (Fld p0 (KMap (Fld p0 (KInteger None None)) None None))).
  { intros P H1 H2. split; [|discriminate]. constructor; [exact H2|]. intros g [<-|[]]. constructor; [exact H1|]. intros ? []. }
  cbn zeta. do 4 (split; [apply Hev; cbn; auto; reflexivity|]). split; [vm_compute; reflexivity|].
  exists O. right. split; [discriminate|]. eexists. split; [reflexivity|]. split; [|split; [|discriminate]].
  - cbn [map fst distinct]. split; [intros k [<-|[]]; reflexivity|]. split; [intros k []|exact I].
  - constructor; [|constructor; [|constructor]]; cbn [fst snd]; (split; [eexists; reflexivity|]); (split; [reflexivity|]);
      (split; [discriminate|]).
    + right. split; [discriminate|]. split; [|split; [left; reflexivity|intros _; split; [discriminate|exact I]]]. exists 4%Z. split; [reflexivity|].
      split; intros m H; discriminate.
    + left. auto.
Qed.

(** C54.  Unions cannot be instantiated: the call always fails, at the top level and in sequences
    and tuples with NotImplementedError, in maps and structures (which pass a key) with TypeError. *)
Theorem C54_instantiate_union_refuted :
  forall E n p fields v key,
    instantiate E n (Fld p (KUnion fields)) v key
    = match key with VNone => py NotImplementedError | _ => py TypeError end.
Proof. exact instantiate_union_refuted. Qed.
Print Assumptions C54_instantiate_union_refuted.

Example C54_union :
  let f := Fld p0 (KUnion [Fld p0 KBoolean]) in
  instantiate env0 0 f (VBool true) VNone = py NotImplementedError
  /\ instantiate env0 0 (Fld p0 (KMap f None None)) (VDict false [(VStr $"a", VBool true)]) VNone = py TypeError.
Proof. vm_compute. auto. Qed.

(** C55.  If every extractor undoes its instantiator, then extraction undoes instantiation: what
    was instantiated from a conforming value without null entries is extracted as that value. *)
Theorem C55_extract_instantiate_inverse :
  forall E n strict f v key w,
    throughout E well_keyed f -> throughout E straight f -> throughout E no_union f ->
    throughout E (undoes E) f ->
    conforms E n f v -> no_null_entries v ->
    instantiate E n f v key = Ok w -> extract E n strict [] f w = Ok v.
Proof. exact extract_instantiate_inverse. Qed.
Print Assumptions C55_extract_instantiate_inverse.

(* Instantiator and extractor of every field: pair with the key, take the first of the pair.  Null
   entries must be excluded: they are left out by the extraction. *)
Example C55_example :
  let f := Fld p54 (KStructure (SPlain [($"a", Fld p54 KBoolean);
              ($"b", Fld p54 (KSequence (Fld p54 KBoolean) None None false))]) true None) in
  let v := VDict false [(VStr $"a", VBool true); (VStr $"b", VList [VBool false; VNone])] in
  let w := VTuple [VDict false [(VStr $"a", VTuple [VBool true; VStr $"a"]);
                                (VStr $"b", VTuple [VList [VTuple [VBool false; VNone]; VNone]; VStr $"b"])]; VInt 3] in
  undoes env54 p54 KBoolean
  /\ instantiate env54 0 f v (VInt 3) = Ok w /\ extract env54 0 true [] f w = Ok v
  /\ instantiate env54 0 f (VDict false [(VStr $"a", VNone)]) (VInt 3) = Ok (VTuple [VDict false [(VStr $"a", VNone)]; VInt 3])
  /\ extract env54 0 true [] f (VTuple [VDict false [(VStr $"a", VNone)]; VInt 3]) = Ok (VDict false []).
Proof.
  cbn zeta. split.
  { split; [|exact I]. cbn. eexists. split; [reflexivity|]. intros v key w Hv H. destruct v; try congruence; injection H as <-; split; try discriminate; reflexivity. }
  vm_compute. auto.
Qed.
