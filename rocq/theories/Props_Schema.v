(** Property theorems proved in SchemaProofs.v (generated by tools/mkprops.py). *)
From Verif Require Import SchemaSpec CloneFacts Demo SchemaProofs.

(** C48.  screen answers True exactly when every test that is not None equals the attribute. *)
Theorem C48_screen_exact :
  forall E p k tests,
    screen E p k tests = true <->
    forall name v, In (name, v) tests -> v = VNone \/ veq (e_local E) (attribute E p k name) v = true.
Proof. exact screen_exact. Qed.
Print Assumptions C48_screen_exact.

Example C48_example :
  screen env0 (p_named $"a") (KInteger (Some 3%Z) None) [($"minimum", VInt 3); ($"name", VNone); ($"type", VStr $"integer")] = true
  /\ screen env0 (p_named $"a") (KInteger (Some 3%Z) None) [($"minimum", VInt 4)] = false.
Proof. split; reflexivity. Qed.

(** C48.  The attributes tests look at: the parameters of the field, those of its class, the type, then its aspects. *)
Theorem C48_screen_attributes :
  forall E p k,
    attribute E p k $"name" = opt VStr (p_name p)
    /\ attribute E p k $"required" = VBool (p_required p)
    /\ attribute E p k $"nonnull" = VBool (p_nonnull p)
    /\ attribute E p k $"ignore_null" = VBool (p_ignore_null p)
    /\ attribute E p k $"default" = p_default p
    /\ attribute E p k $"constant" = p_constant p
    /\ attribute E p k $"title" = p_title p
    /\ attribute E p k $"description" = p_description p
    /\ attribute E p k $"notes" = p_notes p
    /\ attribute E p k $"type" = VStr (cls_name (cls_of k))
    /\ (forall mn mx, k = KInteger mn mx ->
          attribute E p k $"minimum" = opt VInt mn /\ attribute E p k $"maximum" = opt VInt mx)
    /\ (forall pat mn mx st, k = KText pat mn mx st ->
          attribute E p k $"min_length" = opt VInt mn /\ attribute E p k $"max_length" = opt VInt mx
          /\ attribute E p k $"strip" = VBool st)
    /\ (forall name, aget name (attrs E p k) = None -> ~ In name [$"type"; $"basetype"; $"structural"] ->
          attribute E p k name = match aget name (p_aspects p) with Some v => v | None => VNone end).
Proof. exact screen_attributes. Qed.
Print Assumptions C48_screen_attributes.

Example C48_example_attributes :
  attribute env0 (p_named $"a") (KText None (Some 2%Z) None true) $"min_length" = VInt 2
  /\ attribute env0 (p_named $"a") (KText None (Some 2%Z) None true) $"colour" = VNone.
Proof. split; reflexivity. Qed.

(** C46.  A field is dropped exactly when it is not selected: there are tests, and one of them (all mode) or all of them (any mode) fail. *)
Theorem C46_filter_drops :
  forall E n p k all tests,
    filter_tree E (S n) (Fld p k) all tests = Ok Dropped <-> selected E tests all p k = false.
Proof. exact filter_drops. Qed.
Print Assumptions C46_filter_drops.

Example C46_example_drops :
  filter_tree env0 1 (Fld p_req (KInteger None None)) true [($"required", VBool true); ($"nonnull", VBool true)] = Ok Dropped
  /\ filter_tree env0 1 (Fld p_req (KInteger None None)) false [($"required", VBool true); ($"nonnull", VBool true)] = Ok Kept
  /\ filter_tree env0 1 (Fld p_req (KInteger None None)) true [($"minimum", VBool false)] = Ok Kept.
Proof. repeat split; reflexivity. Qed.

(** C46.  A field without nested fields is returned itself exactly when it is selected. *)
Theorem C46_filter_keeps_scalars :
  forall E n p k all tests, structural (cls_of k) = false \/ cls_of k = CUnion ->
    filter_tree E (S n) (Fld p k) all tests = Ok (if selected E tests all p k then Kept else Dropped).
Proof. exact filter_keeps_scalars. Qed.
Print Assumptions C46_filter_keeps_scalars.

Example C46_example_scalars :
  filter_tree env0 1 (Fld p_req KBoolean) true [($"required", VBool true); ($"type", VStr $"boolean")] = Ok Kept.
Proof. reflexivity. Qed.

(** C46.  Filtering a tree: where nothing that must stay is dropped and every structure and every variant of a polymorphic one has a selected field, the result is None when the field itself is not selected, the same object when everything is selected, and otherwise the tree with exactly the fields that are selected (up to documentation; what is below a field that is not selected goes with it).  Fields of structures and values of maps are always tested in all mode; the discriminator of a polymorphic structure always stays.  Missing for the full claim: it fails for structures none of whose fields is selected and for fields of structures in any mode (refuted below). *)
Theorem C46_filter_prunes_partial :
  forall E n f all tests, within n f -> sound E f -> prunable (selected E tests) all f ->
    match pruned (selected E tests) all f with
    | None => filter_tree E n f all tests = Ok Dropped
    | Some g => if intact (selected E tests) all f
                then filter_tree E n f all tests = Ok Kept /\ g = f
                else exists h, filter_tree E n f all tests = Ok (Rebuilt h) /\ alike h g
    end.
Proof. exact filter_prunes_partial. Qed.
Print Assumptions C46_filter_prunes_partial.

Example C46_example_tree :
  let child (s : str) p k := (s, Fld p k) in
  let a := child $"a" (set_name (Some $"a") p_req) (KInteger None None) in
  let b := child $"b" (p_named $"b") (KInteger None None) in
  let f := Fld p_req (KSequence (Fld p_req (KStructure (SPlain [a; b]) true None)) None None false) in
  let tests := [($"required", VBool true)] in
  within 3 f /\ sound env0 f /\ prunable (selected env0 tests) true f
  /\ pruned (selected env0 tests) true f
     = Some (Fld p_req (KSequence (Fld p_req (KStructure (SPlain [a]) true None)) None None false))
  /\ intact (selected env0 tests) true f = false.
Proof.
  cbv zeta. split; [|split; [|split; [|split; reflexivity]]].
  - cbn. intros g [<-|[]]. cbn. intros h [<-|[<-|[]]]; intros ? [].
  - assert (H : forall g, sound env0 g <-> sound env0 g) by reflexivity.
    repeat (apply sound_Fld; split; [repeat split; reflexivity|]; split; [cbn; repeat split; try discriminate;
      repeat constructor; cbn; try discriminate|];
      cbn [subfields sdef_fields map snd]; intros g; cbn [In]; intros Hg; repeat (destruct Hg as [<-|Hg]); try contradiction).
  - cbn. intros _. split; [discriminate|]. intros _. split; [|repeat split].
    exists ($"a", Fld (set_name (Some $"a") p_req) (KInteger None None)). split; [left; reflexivity|discriminate].
Qed.
(* The discriminator is not selected (its constant is not null) and moves behind the selected field. *)
Example C46_example_polymorphic :
  let on := Fld (set_name (Some $"t") p_req) (KEnumeration [VStr $"x"] None) in
  let t := ($"t", Fld (with_constant (set_name (Some $"t") p_req) (VStr $"x")) (KEnumeration [VStr $"x"] None)) in
  let a := ($"a", Fld (set_name (Some $"a") p_req) (KInteger None None)) in
  let b := ($"b", Fld (p_named $"b") (KInteger None None)) in
  let f l := Fld p_req (KStructure (SPoly on [(VStr $"x", l)]) true None) in
  let tests := [($"required", VBool true); ($"constant", VBool false)] in
  prunable (selected env0 tests) true (f [t; a; b])
  /\ pruned (selected env0 tests) true (f [t; a; b]) = Some (f [a; t])
  /\ match filter_tree env0 3 (f [t; a; b]) true tests with
     | Ok (Rebuilt g) => alike g (f [a; t])
     | _ => False
     end.
Proof.
  cbv zeta. split; [|split; vm_compute; reflexivity]. intros _. split; [|split; [|exact I]].
  - eexists. split; [right; left; reflexivity|discriminate].
  - repeat split; cbn; discriminate || auto.
Qed.

(** C46.  When the value of a map, the item of a sequence or a field of a tuple is not selected (in the mode that applies to it), filtering a selected field raises CannotFilterError.  For a tuple: unless filtering a field before it raises. *)
Theorem C46_filter_cannot :
  forall E n p k g all tests, selected E tests all p k = true ->
    (exists key rk, k = KMap g key rk) /\ pruned (selected E tests) true g = None
    \/ (exists a b u, k = KSequence g a b u) /\ pruned (selected E tests) all g = None
    \/ (exists l1 l2, k = KTuple (l1 ++ g :: l2)
           /\ forall h, In h l1 -> exists r, filter_tree E (S n) h all tests = Ok r)
       /\ pruned (selected E tests) all g = None ->
    filter_tree E (S (S n)) (Fld p k) all tests = py CannotFilterError.
Proof. exact filter_cannot. Qed.
Print Assumptions C46_filter_cannot.

Example C46_example_cannot :
  filter_tree env0 2 (Fld p_req (KMap (Fld p0 KBoolean) None None)) true [($"required", VBool true)] = py CannotFilterError.
Proof. reflexivity. Qed.

(** C46.  REFUTED for a structure none of whose fields is selected: it is returned unchanged, with fields that fail the tests. *)
Theorem C46_filter_empty_refuted :
  exists p name q k tests,
    sound env0 (Fld p (KStructure (SPlain [(name, Fld q k)]) true None))
    /\ selected env0 tests true q k = false
    /\ filter_tree env0 2 (Fld p (KStructure (SPlain [(name, Fld q k)]) true None)) true tests = Ok Kept.
Proof. exact filter_empty_refuted. Qed.
Print Assumptions C46_filter_empty_refuted.

Example C46_example_empty :
  filter_tree env0 2 (Fld p_req (KStructure (SPlain [($"a", Fld (p_named $"a") KBoolean);
      ($"b", Fld (p_named $"b") KBoolean)]) true None)) true [($"required", VBool true)] = Ok Kept.
Proof. reflexivity. Qed.

(** C46.  REFUTED in any mode for fields of structures: a field that passes one of the tests is dropped from its structure. *)
Theorem C46_filter_any_refuted :
  exists f name q k tests g,
    sound env0 f /\ selected env0 tests false q k = true
    /\ (exists p l s o, f = Fld p (KStructure (SPlain l) s o) /\ aget name l = Some (Fld q k))
    /\ filter_tree env0 2 f false tests = Ok (Rebuilt g)
    /\ (exists p l s o, g = Fld p (KStructure (SPlain l) s o) /\ aget name l = None).
Proof. exact filter_any_refuted. Qed.
Print Assumptions C46_filter_any_refuted.

Example C46_example_any :
  selected env0 [($"required", VBool true); ($"type", VStr $"boolean")] false (set_name (Some $"b") p_req) (KInteger None None) = true
  /\ selected env0 [($"required", VBool true); ($"type", VStr $"boolean")] true (set_name (Some $"b") p_req) (KInteger None None) = false.
Proof. split; reflexivity. Qed.

(** C47.  Without polymorphic structures: when no field that is visited is replaced the result is the same object (and nothing was to be rewritten); otherwise it is the tree in which exactly those fields are replaced, up to documentation.  Missing for the full claim: it fails for polymorphic structures (refuted below). *)
Theorem C47_transform_rewrites_partial :
  forall E tr n f, within n f -> sound E f -> everywhere (fun _ k => not_polymorphic k) f ->
    if touched tr f then exists g, transform E tr n f = Ok (TNew g) /\ alike g (rewritten tr f)
    else transform E tr n f = Ok TSame /\ rewritten tr f = f.
Proof. exact transform_rewrites_partial. Qed.
Print Assumptions C47_transform_rewrites_partial.

Example C47_example :
  let tr f := match f with Fld p (KInteger _ _) => AField (Fld p0 KBoolean) | _ => AOther end in
  let inner k := Fld p0 (KStructure (SPlain [($"a", Fld (p_named $"a") k)]) true None) in
  let f k := Fld p0 (KTuple [inner k; Fld p0 KUUID]) in
  within 3 (f (KInteger None None)) /\ sound env0 (f (KInteger None None))
  /\ everywhere (fun _ k => not_polymorphic k) (f (KInteger None None))
  /\ touched tr (f (KInteger None None)) = true
  /\ rewritten tr (f (KInteger None None)) = f KBoolean
  /\ touched tr (f KObject) = false.
Proof.
  cbv zeta. split; [|split; [|split; [|repeat split]]].
  - cbn. intros g [<-|[<-|[]]]; [|intros ? []]. cbn. intros h [<-|[]]. intros ? [].
  - apply sound_Fld. split; [repeat split; reflexivity|]. split; [discriminate|]. cbn. intros g [<-|[<-|[]]];
      (apply sound_Fld; split; [repeat split; reflexivity|]); (split; [try exact I|try solve [intros ? []]]).
    + split; [discriminate|]. repeat constructor; discriminate.
    + cbn. intros h [<-|[]]. apply sound_Fld. split; [repeat split; reflexivity|]. split; [exact I|intros ? []].
  - constructor; [exact I|]. cbn. intros g [<-|[<-|[]]]; (constructor; [exact I|]); [|intros ? []].
    cbn. intros h [<-|[]]. constructor; [exact I|intros ? []].
Qed.

(** C47.  REFUTED for polymorphic structures: transforming one with a transformer that changes nothing raises AttributeError instead of returning the structure. *)
Theorem C47_transform_polymorphic_refuted :
  exists f, sound env0 f /\ rewritten (fun _ => AOther) f = f
    /\ forall n, transform env0 (fun _ => AOther) (S n) f = py AttributeError.
Proof. exact transform_polymorphic_refuted. Qed.
Print Assumptions C47_transform_polymorphic_refuted.

Example C47_example_polymorphic :
  transform env0 (fun _ => AOther) 3 (Fld p0 (KStructure (SPoly (Fld p_req KBoolean)
      [(VBool true, [($"type", Fld p_req KBoolean)])]) true None)) = py AttributeError.
Proof. reflexivity. Qed.

(** C49.  extend: the result has the parameters of the structure, its keys in order followed by the new ones, the new fields (named after their keys) where the argument has one, and fields alike to the old ones elsewhere. *)
Theorem C49_extend_exact :
  forall E n p l s o d,
    within n (Fld p (KStructure (SPlain l) s o)) -> sound E (Fld p (KStructure (SPlain l) s o)) ->
    only_fields d -> NoDup (map fst d) ->
    exists p' l', extend E n (Fld p (KStructure (SPlain l) s o)) d = Ok (Fld p' (KStructure (SPlain l') s o))
      /\ bare p' = bare p
      /\ map fst l' = map fst l ++ List.filter (absent l) (map fst d)
      /\ forall key, match aget key d with
                     | Some (VField g) => aget key l' = Some (renamed key g)
                     | _ => both_alike (aget key l') (aget key l)
                     end.
Proof. exact extend_exact. Qed.
Print Assumptions C49_extend_exact.

Example C49_example_extend :
  let f := Fld p0 (KStructure (SPlain [($"a", Fld (p_named $"a") KBoolean); ($"b", Fld (p_named $"b") KBoolean)]) true None) in
  extend env0 3 f [($"c", VField (Fld p0 KUUID)); ($"a", VField (Fld p_req KUUID))]
  = Ok (Fld p0 (KStructure (SPlain [($"a", Fld (set_name (Some $"a") p_req) KUUID);
       ($"b", Fld (p_named $"b") KBoolean); ($"c", Fld (p_named $"c") KUUID)]) true None)).
Proof. reflexivity. Qed.

(** C49.  replace: when no key of the argument is present the structure itself is returned; otherwise the result has the parameters and exactly the keys of the structure, the new fields (named after their keys) where both have the key, and fields alike to the old ones elsewhere. *)
Theorem C49_replace_exact :
  forall E n p l s o d,
    within n (Fld p (KStructure (SPlain l) s o)) -> sound E (Fld p (KStructure (SPlain l) s o)) ->
    only_fields d -> NoDup (map fst d) ->
    ((forall key, In key (map fst d) -> ~ In key (map fst l)) ->
       replace E n (Fld p (KStructure (SPlain l) s o)) d = Ok None)
    /\ ((exists key, In key (map fst d) /\ In key (map fst l)) ->
       exists p' l', replace E n (Fld p (KStructure (SPlain l) s o)) d = Ok (Some (Fld p' (KStructure (SPlain l') s o)))
         /\ bare p' = bare p
         /\ map fst l' = map fst l
         /\ forall key, match aget key d with
                        | Some (VField g) => In key (map fst l) -> aget key l' = Some (renamed key g)
                        | _ => both_alike (aget key l') (aget key l)
                        end).
Proof. exact replace_exact. Qed.
Print Assumptions C49_replace_exact.

Example C49_example_replace :
  let f := Fld p0 (KStructure (SPlain [($"a", Fld (p_named $"a") KBoolean); ($"b", Fld (p_named $"b") KBoolean)]) true None) in
  replace env0 3 f [($"c", VField (Fld p0 KUUID)); ($"a", VField (Fld p_req KUUID))]
  = Ok (Some (Fld p0 (KStructure (SPlain [($"a", Fld (set_name (Some $"a") p_req) KUUID);
       ($"b", Fld (p_named $"b") KBoolean)]) true None)))
  /\ replace env0 3 f [($"c", VField (Fld p0 KUUID))] = Ok None.
Proof. split; reflexivity. Qed.

(** C49.  With objects that may be shared: extend and replace change at most the field objects given in the argument, all other objects keep their contents, in particular a structure none of whose fields is given in the argument is unchanged.  Given distinct objects, the new structure reads as the pure functions above say.  Missing for the full claim: the original is changed when the argument contains one of its fields (refuted below). *)
Theorem C49_extend_frame_partial :
  forall E n only h p l s o d h' p' l' s' o',
    edited_clone E n only h p l s o d = Ok (h', (p', l', s', o')) ->
    (forall ka, In ka d -> (snd ka < length h)%nat) ->
    (forall a, (a < length h)%nat -> ~ In a (map snd d) -> deref h' a = deref h a)
    /\ (forall m, (forall ka, In ka m -> (snd ka < length h)%nat /\ ~ In (snd ka) (map snd d)) ->
          read_dict h' m = read_dict h m)
    /\ (NoDup (map snd d) -> NoDup (map fst d) ->
        let f := Fld p (KStructure (SPlain (read_dict h l)) s o) in
        let d' := map (fun ka => (fst ka, VField (deref h (snd ka)))) d in
        let new := Fld p' (KStructure (SPlain (read_dict h' l')) s' o') in
        if only
        then (exists key, In key (map fst d) /\ In key (map fst l)) -> replace E n f d' = Ok (Some new)
        else extend E n f d' = Ok new).
Proof. exact extend_frame_partial. Qed.
Print Assumptions C49_extend_frame_partial.

Example C49_example_frame :
  let h := [Fld (p_named $"a") KBoolean; Fld p0 KUUID] in
  match edited_clone env0 3 false h p0 [($"a", O)] true None [($"b", 1%nat)] with
  | Ok (h', (_, l', _, _)) =>
      read_dict h' [($"a", O)] = read_dict h [($"a", O)]
      /\ read_dict h' l' = [($"a", Fld (p_named $"a") KBoolean); ($"b", Fld (p_named $"b") KUUID)]
  | Raise _ => False
  end.
Proof. vm_compute. split; reflexivity. Qed.

(** C49.  REFUTED: "the original structure is unchanged" fails when the argument contains a field of the structure under another key; extend renames that field inside the original. *)
Theorem C49_extend_aliasing_refuted :
  exists h p l s o d h' r,
    sound env0 (Fld p (KStructure (SPlain (read_dict h l)) s o))
    /\ edited_clone env0 3 false h p l s o d = Ok (h', r)
    /\ read_dict h' l <> read_dict h l.
Proof. exact extend_aliasing_refuted. Qed.
Print Assumptions C49_extend_aliasing_refuted.

Example C49_example_aliasing :
  match edited_clone env0 3 false [Fld (p_named $"a") KBoolean] p0 [($"a", O)] true None [($"b", O)] with
  | Ok (h', _) => read_dict h' [($"a", O)] = [($"a", Fld (p_named $"b") KBoolean)]
  | Raise _ => False
  end.
Proof. vm_compute. reflexivity. Qed.

(** C50.  insert: a field with a name goes under that name unless the name is used and overwriting is off, in which case nothing changes; no other key changes; what is not a field or has no name changes nothing. *)
Theorem C50_insert_exact :
  forall v overwrite l,
    match v with
    | VField (Fld p k) =>
        match p_name p with
        | Some (c :: s) =>
            snd (insert v overwrite l) = Ok tt
            /\ (forall key, key <> c :: s -> aget key (fst (insert v overwrite l)) = aget key l)
            /\ (overwrite = true \/ ~ In (c :: s) (map fst l) -> aget (c :: s) (fst (insert v overwrite l)) = Some (Fld p k))
            /\ (overwrite = false -> In (c :: s) (map fst l) -> fst (insert v overwrite l) = l)
        | _ => insert v overwrite l = (l, py ValueError)
        end
    | _ => insert v overwrite l = (l, py TypeError)
    end.
Proof. exact insert_exact. Qed.
Print Assumptions C50_insert_exact.

Example C50_example_insert :
  let a := ($"a", Fld (p_named $"a") KBoolean) in
  fst (insert (VField (Fld (p_named $"a") KUUID)) false [a]) = [a]
  /\ fst (insert (VField (Fld (p_named $"b") KUUID)) false [a]) = [a; ($"b", Fld (p_named $"b") KUUID)]
  /\ fst (insert (VField (Fld (p_named $"a") KUUID)) true [a]) = [($"a", Fld (p_named $"a") KUUID)].
Proof. repeat split; reflexivity. Qed.

(** C50.  remove: exactly the entries under the given names disappear, the others keep their order. *)
Theorem C50_remove_exact :
  forall names l, remove_names names l = List.filter (fun kf => negb (smem (fst kf) names)) l.
Proof. exact remove_exact. Qed.
Print Assumptions C50_remove_exact.

Example C50_example_remove :
  remove_names [$"b"; $"x"] [($"a", Fld p0 KUUID); ($"b", Fld p0 KUUID); ($"c", Fld p0 KUUID)]
  = [($"a", Fld p0 KUUID); ($"c", Fld p0 KUUID)].
Proof. reflexivity. Qed.

(** C50.  merge without prefer: the existing fields stay as they are, and behind them come, in order, the entries of the argument before its first key that is already used, each under its name; that key and everything after it are dropped, without an exception. *)
Theorem C50_merge_stops :
  forall E n d l,
    Forall (fun kv => exists p k, snd kv = VField (Fld p k) /\ within n (Fld p k) /\ sound E (Fld p k)) d ->
    NoDup (map fst d) ->
    exists new, merge E n d false l = (l ++ new, Ok tt)
      /\ Forall2 (fun kf kv => fst kf = fst kv /\ exists f, snd kv = VField f /\ alike (snd kf) (renamed (fst kv) f))
                 new (before_clash l d).
Proof. exact merge_stops. Qed.
Print Assumptions C50_merge_stops.

Example C50_example_merge :
  let e s := (s, VField (Fld (p_named s) KUUID)) in
  fst (merge env0 2 [e $"x"; e $"a"; e $"y"] false [($"a", Fld (p_named $"a") KBoolean)])
  = [($"a", Fld (p_named $"a") KBoolean); ($"x", Fld (p_named $"x") KUUID)].
Proof. reflexivity. Qed.

(** C50.  merge with prefer: the entries of the argument take their places, the other keys keep their fields. *)
Theorem C50_merge_prefers :
  forall E n d l,
    Forall (fun kv => exists p k, snd kv = VField (Fld p k) /\ within n (Fld p k) /\ sound E (Fld p k)) d ->
    NoDup (map fst d) ->
    exists l', merge E n d true l = (l', Ok tt)
      /\ forall key, match aget key d with
                     | Some (VField f) => exists g, aget key l' = Some g /\ alike g (renamed key f)
                     | _ => aget key l' = aget key l
                     end.
Proof. exact merge_prefers. Qed.
Print Assumptions C50_merge_prefers.

Example C50_example_prefer :
  let e s := (s, VField (Fld (p_named s) KUUID)) in
  fst (merge env0 2 [e $"x"; e $"a"; e $"y"] true [($"a", Fld (p_named $"a") KBoolean)])
  = [($"a", Fld (p_named $"a") KUUID); ($"x", Fld (p_named $"x") KUUID); ($"y", Fld (p_named $"y") KUUID)].
Proof. reflexivity. Qed.

(** C50.  Through any history of inserts, removals and merges, also ones that raise midway, a key keeps its field as long as no edit removes it, inserts over it or merges over it with preference. *)
Theorem C50_edits_keep :
  forall E n es l key f, aget key l = Some f -> (forall e, In e es -> ~ may_change key e) ->
    aget key (run_edits E n es l) = Some f.
Proof. exact edits_keep. Qed.
Print Assumptions C50_edits_keep.

Example C50_example_keep :
  let es := [EInsert (VField (Fld (p_named $"a") KUUID)) false; ERemove [$"b"];
             EMerge [($"a", VField (Fld p0 KUUID))] false] in
  aget $"a" (run_edits env0 2 es [($"a", Fld (p_named $"a") KBoolean)]) = Some (Fld (p_named $"a") KBoolean)
  /\ forall e, In e es -> ~ may_change $"a" e.
Proof.
  split; [reflexivity|]. intros e [<-|[<-|[<-|[]]]]; cbn; [intros H; exact H| |intros H; exact H].
  intros [H|[]]. discriminate.
Qed.

(** C50.  ... and a key that is absent (for instance because it was just removed) stays absent until some insert or merge names it; in particular edits create no other keys. *)
Theorem C50_edits_create_only :
  forall E n es l key, ~ In key (map fst l) -> (forall e, In e es -> ~ may_create key e) ->
    ~ In key (map fst (run_edits E n es l)).
Proof. exact edits_create_only. Qed.
Print Assumptions C50_edits_create_only.

Example C50_example_create :
  map fst (run_edits env0 2 [ERemove [$"a"]; EInsert (VField (Fld (p_named $"b") KUUID)) false;
                             EMerge [($"c", VField (Fld p0 KUUID))] false] [($"a", Fld (p_named $"a") KBoolean)])
  = [$"b"; $"c"].
Proof. reflexivity. Qed.

(** C50.  ... and keys stay distinct through any history. *)
Theorem C50_edits_distinct :
  forall E n es l, NoDup (map fst l) -> NoDup (map fst (run_edits E n es l)).
Proof. exact edits_distinct. Qed.
Print Assumptions C50_edits_distinct.

Example C50_example_distinct :
  map fst (run_edits env0 2 [EInsert (VField (Fld (p_named $"a") KUUID)) true;
                             EMerge [($"a", VField (Fld p0 KUUID)); ($"b", VField (Fld p0 KUUID))] true] [($"a", Fld (p_named $"a") KBoolean)])
  = [$"a"; $"b"].
Proof. reflexivity. Qed.

(** C51.  generate_defaults of a structure that is not polymorphic (placeholders resolved): one entry per key, in order, holding the default of the field, else its constant, else None; entries without either are left out when sparse.  An identity is a ValueError. *)
Theorem C51_generate_defaults_exact :
  forall E l (ps : list (str * params)) sparse identity,
    Forall2 (fun kf sp => fst kf = fst sp /\ (exists k, snd kf = Fld (snd sp) k
                          \/ exists i, snd kf = FUndef i /\ e_undef E i = Some (Fld (snd sp) k))) l ps ->
    generate_defaults E (SPlain l) identity sparse
    = match identity with VNone => Ok (VDict false (default_entries sparse ps)) | _ => py ValueError end.
Proof. exact generate_defaults_exact. Qed.
Print Assumptions C51_generate_defaults_exact.

Example C51_example :
  generate_defaults env0 (SPlain [($"a", Fld (p_def (VInt 3)) (KInteger None None)); ($"b", Fld p0 KBoolean);
                                  ($"c", Fld (p_const (VBool true)) KBoolean)]) VNone true
  = Ok (VDict false [(VStr $"a", VInt 3); (VStr $"c", VBool true)]).
Proof. reflexivity. Qed.

(** C51.  ... of a polymorphic structure: the entries of the variant asked for (a ValueError when there is none), or without an identity a dict from every identity to its entries. *)
Theorem C51_generate_defaults_polymorphic :
  forall E on vs (ps : list (val * list (str * params))) sparse,
    Forall2 (fun vl vp => fst vl = fst vp
               /\ Forall2 (fun kf sp => fst kf = fst sp /\ exists k, snd kf = Fld (snd sp) k) (snd vl) (snd vp)) vs ps ->
    generate_defaults E (SPoly on vs) VNone sparse
      = Ok (VDict false (map (fun vp => (fst vp, VDict false (default_entries sparse (snd vp)))) ps))
    /\ (forall identity before i entries after, identity <> VNone -> hashable identity = true ->
          ps = before ++ (i, entries) :: after -> veq (e_local E) i identity = true ->
          (forall vp, In vp before -> veq (e_local E) (fst vp) identity = false) ->
          generate_defaults E (SPoly on vs) identity sparse = Ok (VDict false (default_entries sparse entries)))
    /\ (forall identity, identity <> VNone -> hashable identity = true ->
          (forall vp, In vp ps -> veq (e_local E) (fst vp) identity = false) ->
          generate_defaults E (SPoly on vs) identity sparse = py ValueError).
Proof. exact generate_defaults_polymorphic. Qed.
Print Assumptions C51_generate_defaults_polymorphic.

Example C51_example_polymorphic :
  let vs := [(VStr $"x", [($"a", Fld (p_def (VInt 3)) KObject)]); (VStr $"y", [($"b", Fld p0 KObject)])] in
  generate_defaults env0 (SPoly (Fld p_req KUUID) vs) (VStr $"y") false = Ok (VDict false [(VStr $"b", VNone)])
  /\ generate_defaults env0 (SPoly (Fld p_req KUUID) vs) VNone true
     = Ok (VDict false [(VStr $"x", VDict false [(VStr $"a", VInt 3)]); (VStr $"y", VDict false [])])
  /\ generate_defaults env0 (SPoly (Fld p_req KUUID) vs) (VStr $"z") true = py ValueError.
Proof. repeat split; reflexivity. Qed.

(** C73.  Visiting a well formed specification applies the callback exactly to its immediate nested specifications: the value and key of a map, the item of a sequence, the members of a tuple or union, the fields of a structure (of each variant when polymorphic), and to nothing for other types. *)
Theorem C73_visit_exact :
  forall callback o l t items,
    sget $"fieldtype" l = Some (VStr t) -> visited callback l t items ->
    visit callback (VDict o l) = Ok (VDict false items).
Proof. exact visit_exact. Qed.
Print Assumptions C73_visit_exact.

Example C73_example :
  let spec t l := VDict false ((VStr $"fieldtype", VStr t) :: l) in
  let m := spec $"map" [(VStr $"value", spec $"text" []); (VStr $"key", spec $"uuid" []); (VStr $"title", VStr $"m")] in
  visit (fun v => VList [v]) m
  = Ok (VDict false [(VStr $"value", VList [spec $"text" []]); (VStr $"key", VList [spec $"uuid" []])])
  /\ visit (fun v => VNone) (spec $"structure" [(VStr $"structure", VDict false [(VStr $"a", m)])])
     = Ok (VDict false [(VStr $"structure", VDict false [(VStr $"a", VNone)])]).
Proof. split; reflexivity. Qed.

(** C73.  ... and what is not a mapping is a TypeError, an unknown or missing type a KeyError. *)
Theorem C73_visit_rejects :
  forall callback v,
    (as_dict v = None -> visit callback v = py TypeError)
    /\ (forall l, as_dict v = Some l ->
          sget $"fieldtype" l = None
          \/ (exists t, sget $"fieldtype" l = Some (VStr t) /\ forall c, cls_name c <> t) ->
          visit callback v = py KeyError).
Proof. exact visit_rejects. Qed.
Print Assumptions C73_visit_rejects.

Example C73_example_rejects :
  visit (fun v => v) (VList []) = py TypeError
  /\ visit (fun v => v) (VDict false [(VStr $"fieldtype", VStr $"matrix")]) = py KeyError.
Proof. split; reflexivity. Qed.

(** C73.  ... and malformed specifications are rejected: a type that is no hashable value is a TypeError, a missing entry for the nested specifications a KeyError, members that cannot be iterated over a TypeError, fields, or the fields of one of the variants after well formed ones, that are no mapping an AttributeError. *)
Theorem C73_visit_malformed :
  forall callback o l,
    let out := visit callback (VDict o l) in
    (forall t, sget $"fieldtype" l = Some t -> hashable t = false -> out = py TypeError)
    /\ (forall t key, sget $"fieldtype" l = Some (VStr t) -> nests t key -> sget key l = None -> out = py KeyError)
    /\ (forall t key v, sget $"fieldtype" l = Some (VStr t) -> nests t key -> t = $"tuple" \/ t = $"union" ->
          sget key l = Some v -> py_iter v = None -> out = py TypeError)
    /\ (forall v, sget $"fieldtype" l = Some (VStr $"structure") -> sget $"structure" l = Some v -> as_dict v = None ->
          out = py AttributeError)
    /\ (forall x o' pre i v post, sget $"fieldtype" l = Some (VStr $"structure") ->
          sget $"polymorphic_on" l = Some x -> truthy x = true ->
          sget $"structure" l = Some (VDict o' (pre ++ (i, v) :: post)) ->
          (forall a y, In (a, y) pre -> as_dict y <> None) -> as_dict v = None ->
          out = py AttributeError).
Proof. exact visit_malformed. Qed.
Print Assumptions C73_visit_malformed.

Example C73_example_malformed :
  visit (fun v => v) (VDict false [(VStr $"fieldtype", VStr $"map")]) = py KeyError
  /\ visit (fun v => v) (VDict false [(VStr $"fieldtype", VStr $"tuple"); (VStr $"values", VInt 3)]) = py TypeError
  /\ visit (fun v => v) (VDict false [(VStr $"fieldtype", VStr $"structure"); (VStr $"structure", VList [])]) = py AttributeError
  /\ visit (fun v => v) (VDict false [(VStr $"fieldtype", VStr $"structure"); (VStr $"polymorphic_on", VStr $"kind");
       (VStr $"structure", VDict false [(VStr $"x", VDict false []); (VStr $"y", VInt 3)])]) = py AttributeError
  /\ visit (fun v => v) (VDict false [(VStr $"fieldtype", VList [])]) = py TypeError.
Proof. repeat split; reflexivity. Qed.
