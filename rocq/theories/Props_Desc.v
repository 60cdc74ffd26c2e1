(** Property theorems proved in DescProofs.v (generated by tools/mkprops.py). *)
From Verif Require Import Spec Demo ConSpec DescSpec DescProofs.

(** C43.  The description of a describable field is made of plain data, and the field
    reconstructed from it is well formed, equals the original apart from documentation and from what
    a description drops, and processes every value, in both directions, exactly as the original
    without the dropped parameters.  Describable excludes what the refutations below use: bounds
    of DateTime fields in local time, dates before the year 1000 where strftime does not pad,
    microseconds in bounds, fields named 'fieldtype', documentation clashing with parameters. *)
Theorem C43_describe_reconstruct_partial :
  forall E f, sound E f -> describable E f ->
  exists N, forall n, (N <= n)%nat ->
  exists spec g,
    describe E n false f = Ok spec /\ plainv spec = true
    /\ reconstruct E n spec = Ok g /\ sound E g /\ alike g (undescribed f)
    /\ forall desc recon m partial ph ser anc v,
         process_gen E desc recon m g partial ph ser anc v
         = process_gen E desc recon m (undescribed f) partial ph ser anc v.
Proof. exact describe_reconstruct_partial. Qed.
Print Assumptions C43_describe_reconstruct_partial.

(** C43.  If the description drops nothing, the reconstructed field processes every value exactly
    as the original. *)
Theorem C43_describe_reconstruct_faithful :
  forall E f, sound E f -> describable E f -> everywhere fully_described f ->
  exists N, forall n, (N <= n)%nat ->
  exists spec g,
    describe E n false f = Ok spec /\ plainv spec = true
    /\ reconstruct E n spec = Ok g /\ alike g f
    /\ forall desc recon m partial ph ser anc v,
         process_gen E desc recon m g partial ph ser anc v = process_gen E desc recon m f partial ph ser anc v.
Proof. exact describe_reconstruct_faithful. Qed.
Print Assumptions C43_describe_reconstruct_faithful.

Definition order43 : field :=
  let tag := Fld (p_named $"tag") (KText None (Some 1) (Some 10) false) in
  let kind := Fld {| p_name := Some $"kind"; p_nonnull := false; p_required := true; p_ignore_null := false;
                     p_default := VNone; p_constant := VNone; p_preprocessor := None; p_extractor := None;
                     p_instantiator := None; p_title := VStr $"the kind"; p_description := VNone; p_notes := VNone;
                     p_aspects := [($"indexed", VBool true)] |} (KText None None None true) in
  let amount := Fld (p_named $"amount") (KDecimal (Some (DFin false 125 (-2))) None) in
  let variant i := (VStr i, [($"kind", Fld {| p_name := Some $"kind"; p_nonnull := false; p_required := true;
                     p_ignore_null := false; p_default := VNone; p_constant := VStr i; p_preprocessor := None;
                     p_extractor := None; p_instantiator := None; p_title := VNone; p_description := VNone;
                     p_notes := VNone; p_aspects := [] |} (KText None None None true)); ($"amount", amount)]) in
  Fld p0 (KStructure (SPlain
    [($"due", Fld (p_named $"due") (KDate (Some (Date 2020 1 1)) None));
     ($"at", Fld (p_named $"at") (KDateTime None (Some (DateTime (Date 2030 1 1) (Tod 0 0 0 0) (Some TzUTC))) true));
     ($"tags", Fld {| p_name := Some $"tags"; p_nonnull := false; p_required := false; p_ignore_null := false;
                      p_default := VList [VStr $"new"]; p_constant := VNone; p_preprocessor := None; p_extractor := None;
                      p_instantiator := None; p_title := VNone; p_description := VNone; p_notes := VNone; p_aspects := [] |}
                 (KSequence tag None (Some 5) true));
     ($"payment", Fld (p_named $"payment") (KStructure (SPoly kind [variant $"cash"; variant $"card"]) true None))]) true None).
Ltac everywhere43 :=
  repeat match goal with
  | |- everywhere _ (Fld _ _) => constructor
  | |- forall g, In g (subfields _) -> _ =>
      let g := fresh in let H := fresh in intros g H; vm_compute in H;
      repeat (destruct H as [H|H]; [subst g|]); [..|contradiction H]
  end.
Example C43_describable_example :
  sound env0 order43 /\ describable env0 order43 /\ everywhere fully_described order43.
Proof.
  unfold order43. split; [split|split].
  - repeat match goal with
    | |- complete (Fld _ _) => constructor
    | |- forall g, In g (subfields _) -> _ =>
        let g := fresh in let H := fresh in intros g H; vm_compute in H;
        repeat (destruct H as [H|H]; [subst g|]); [..|contradiction H]
    end.
  - everywhere43; (split; [repeat split|]); try exact I; cbn [constructed_kind natural in_zone inhabited_list];
      try (split; first [exact I|discriminate|reflexivity|split; reflexivity]).
    + split; [discriminate|]. repeat (apply Forall_cons; [split; discriminate|]). constructor.
    + split; [discriminate|]. eexists _, _, _. repeat (split; [reflexivity|]).
      repeat (apply Forall_cons; [split; [discriminate|]; split; [reflexivity|]; split;
        [repeat (apply Forall_cons; [split; discriminate|]); constructor|eexists; split; reflexivity]|]). constructor.
  - unfold describable. everywhere43; (split; [split; [left; reflexivity|split; [left; reflexivity|split; [left; reflexivity|split; [left; reflexivity|split]]]]|]);
      try exact I; try (left; reflexivity); try (solve [intros ? ? []]).
    all: cbn [describable_kind].
    + intros s f [H|[H|[H|[H|[]]]]]; injection H as <- <-; discriminate.
    + intros d [[= <-]|[=]]. repeat (split; try reflexivity); cbn; first [lia|left; reflexivity|exists 31; split; [constructor; cbn; auto|lia]].
    + intros d [[=]|[= <-]]. repeat (split; try reflexivity); cbn; first [lia|left; reflexivity|exists 31; split; [constructor; cbn; auto|lia]].
    + right. split; [reflexivity|]. eexists. split; [reflexivity|]. intros x [<-|[]] desc recon n. destruct n; reflexivity.
    + split; [|repeat constructor].
      intros vd [<-|[<-|[]]]; (split; [reflexivity|]; split; [discriminate|]; split;
        [intros s f [H|[H|[]]]; injection H as <- <-; discriminate|]); eexists _, _; split; reflexivity.
    + intros key v [H|[]]. injection H as <- <-. split; [left; reflexivity|]. intros H.
      repeat (destruct H as [H|H]; [discriminate|]). contradiction.
  - everywhere43; repeat (split; [reflexivity|]); try (split; [first [right; reflexivity|left; reflexivity]|]); first [reflexivity|exact I].
Qed.

Example C43_spec_example :
  describe env0 3 false (Fld p0 (KSequence (Fld p0 (KInteger (Some 1) None)) (Some 2) None true))
  = Ok (VDict false (strs [($"fieldtype", VStr $"sequence"); ($"structural", VBool true); ($"min_length", VInt 2); ($"unique", VBool true);
                           ($"item", VDict false (strs [($"fieldtype", VStr $"integer"); ($"minimum", VInt 1)]))])).
Proof. reflexivity. Qed.

(** C43.  Without the restriction to UTC the claim is false: the bounds of a DateTime field in local
    time are described by their local wall clock marked as UTC, so the reconstructed field
    refuses values that the original accepts. *)
Theorem C43_describe_local_bound_refuted :
  exists E f spec g v w,
    sound E f /\ describe E 1 false f = Ok spec /\ reconstruct E 1 spec = Ok g
    /\ process_gen E (describe E 1 false) (reconstruct E 1) 1 f false Inbound false [] v = Ok w
    /\ forall w', process_gen E (describe E 1 false) (reconstruct E 1) 1 g false Inbound false [] v <> Ok w'.
Proof. exact describe_local_bound_refuted. Qed.
Print Assumptions C43_describe_local_bound_refuted.

(** C43.  An empty default of a structural field is dropped: a missing list is no longer filled in. *)
Theorem C43_describe_empty_default_refuted :
  exists E f spec g v w w',
    sound E f /\ describe E 3 false f = Ok spec /\ reconstruct E 3 spec = Ok g
    /\ process_gen E (describe E 3 false) (reconstruct E 3) 3 f false Inbound false [] v = Ok w
    /\ process_gen E (describe E 3 false) (reconstruct E 3) 3 g false Inbound false [] v = Ok w'
    /\ w <> w'.
Proof. exact describe_empty_default_refuted. Qed.
Print Assumptions C43_describe_empty_default_refuted.

(** C43.  A structure with a field named 'fieldtype' is described, but not reconstructed: the description
    of its fields is taken for the description of a field. *)
Theorem C43_describe_fieldtype_refuted :
  exists E f spec,
    sound E f /\ (forall n, describe E (S (S n)) false f = Ok spec) /\ forall n g, reconstruct E n spec <> Ok g.
Proof. exact describe_fieldtype_refuted. Qed.
Print Assumptions C43_describe_fieldtype_refuted.

(** C43.  Where strftime does not pad years, a bound before the year 1000 is described by a text that the
    constructor refuses. *)
Theorem C43_describe_early_bound_refuted :
  exists E f spec,
    sound E f /\ (forall n, describe E (S n) false f = Ok spec) /\ forall n g, reconstruct E n spec <> Ok g.
Proof. exact describe_early_bound_refuted. Qed.
Print Assumptions C43_describe_early_bound_refuted.

(** C43.  Every description, verbose or not, of any field, is made of plain data. *)
Theorem C43_descriptions_plain :
  forall E n verbose f d,
    describe E n verbose f = Ok d -> plainv d = true /\ exists l, d = VDict false (strs l).
Proof. exact descriptions_plain. Qed.
Print Assumptions C43_descriptions_plain.

Example C43_plain_example :
  describe env0 2 true (Fld (p_def (VDate (Date 2020 1 1))) (KDate (Some (Date 2020 1 2)) None))
  = Ok (VDict false (strs [($"fieldtype", VStr $"date"); ($"nonnull", VBool false); ($"ignore_null", VBool false);
                           ($"required", VBool false); ($"structural", VBool false); ($"minimum", VStr $"2020-01-02")])).
Proof. vm_compute. reflexivity. Qed.

(** C43.  A description tells the type of the field and its boolean parameters: a verbose one
    all of them, any other those that differ from the value a constructor takes by default. *)
Theorem C43_description_flags :
  forall E n verbose p k l name b dflt,
    describe E n verbose (Fld p k) = Ok (VDict false l) ->
    ~ In name (map fst (p_aspects p)) -> flagged p k name b dflt ->
    sget name l = (if verbose || negb (Bool.eqb b dflt) then Some (VBool b) else None)
    /\ (~ In $"fieldtype" (map fst (p_aspects p)) -> sget $"fieldtype" l = Some (VStr (kind_type k))).
Proof. exact description_flags. Qed.
Print Assumptions C43_description_flags.

Example C43_flags_example :
  let f := Fld p_req (KStructure (SPlain []) false None) in
  exists l m, describe env0 2 true f = Ok (VDict false l) /\ describe env0 2 false f = Ok (VDict false m)
  /\ sget $"required" l = Some (VBool true) /\ sget $"nonnull" l = Some (VBool false) /\ sget $"strict" l = Some (VBool false)
  /\ sget $"required" m = Some (VBool true) /\ sget $"nonnull" m = None /\ sget $"strict" m = Some (VBool false)
  /\ flagged p_req (KStructure (SPlain []) false None) $"strict" false true.
Proof.
  eexists _, _. split; [vm_compute; reflexivity|]. split; [vm_compute; reflexivity|].
  repeat (split; [vm_compute; reflexivity|]). constructor.
Qed.

(** C43.  The description of a structural field holds the description of every nested field,
    verbose if and only if it is itself. *)
Theorem C43_description_nested :
  forall E n verbose p k l name d,
    describe E (S n) verbose (Fld p k) = Ok (VDict false l) ->
    nested_entry (fun g x => describe E n verbose g = Ok x) k name d ->
    sget name l = Some d.
Proof. exact description_nested. Qed.
Print Assumptions C43_description_nested.

Example C43_nested_example :
  let item := Fld p0 KBoolean in
  exists l d, describe env0 3 true (Fld p0 (KSequence item None None false)) = Ok (VDict false l)
  /\ nested_entry (fun g x => describe env0 2 true g = Ok x) (KSequence item None None false) $"item" d
  /\ d = VDict false (strs [($"fieldtype", VStr $"boolean"); ($"nonnull", VBool false); ($"ignore_null", VBool false);
                            ($"required", VBool false); ($"structural", VBool false)])
  /\ sget $"item" l = Some d.
Proof.
  eexists _, _. split; [vm_compute; reflexivity|]. split; [apply nested_item; reflexivity|]. split; vm_compute; reflexivity.
Qed.

(** C43.  A placeholder whose field has not been defined cannot be described, and no field that has it
    as first nested field (without a default): an AttributeError. *)
Theorem C43_undefined_not_described :
  forall E n verbose i, e_undef E i = None ->
    let refused f := describe E (S (S n)) verbose f = py AttributeError in
    refused (FUndef i)
    /\ forall p, truthy (p_default p) = false ->
       (forall mn mx u, refused (Fld p (KSequence (FUndef i) mn mx u)))
       /\ (forall key req, refused (Fld p (KMap (FUndef i) key req)))
       /\ (forall fs, refused (Fld p (KTuple (FUndef i :: fs))))
       /\ (forall fs, refused (Fld p (KUnion (FUndef i :: fs))))
       /\ (forall name fs strict order, refused (Fld p (KStructure (SPlain ((name, FUndef i) :: fs)) strict order)))
       /\ (forall vs strict order, refused (Fld p (KStructure (SPoly (FUndef i) vs) strict order))).
Proof. exact undefined_not_described. Qed.
Print Assumptions C43_undefined_not_described.

Example C43_undefined_example :
  e_undef env0 7%nat = None /\ truthy (p_default p0) = false
  /\ describe env0 2 true (Fld p0 (KStructure (SPoly (FUndef 7%nat) [(VStr $"a", [])]) true None)) = py AttributeError.
Proof. repeat split; reflexivity. Qed.

(** C34.  A field that its description says everything of, as the value of a Definition field:
    serialized as its description, it comes back as a field like it, apart from documentation, that
    processes every value in the same way. *)
Theorem C34_definition_round_trip :
  forall E p q k valid, let f := Fld q k in sound E f -> describable E f -> everywhere fully_described f ->
  p_preprocessor p = None -> p_constant p = VNone ->
  match valid with Some (t :: ts) => In (kind_type k) (t :: ts) | _ => True end ->
  exists N, forall n, (N <= n)%nat ->
  let desc := describe E n false in
  let recon := reconstruct E n in
  exists spec g, plainv spec = true /\ alike g f
    /\ (forall m partial anc, process_gen E desc recon m (Fld p (KDefinition valid)) partial Outbound true anc (VField f) = Ok spec)
    /\ (forall m partial anc, process_gen E desc recon m (Fld p (KDefinition valid)) partial Inbound true anc spec = Ok (VField g))
    /\ forall desc recon m partial ph ser anc v,
         process_gen E desc recon m g partial ph ser anc v = process_gen E desc recon m f partial ph ser anc v.
Proof. exact definition_round_trip. Qed.
Print Assumptions C34_definition_round_trip.

(* A sequence of dates, described and reconstructed by a Definition field. *)
Example C34_definition_example :
  let f := Fld p0 (KSequence (Fld p0 (KDate (Some (Date 2020 1 1)) None)) None (Some 5%Z) true) in
  let desc := describe env0 6 false in
  let recon := reconstruct env0 6 in
  let field := Fld p0 (KDefinition (Some [$"sequence"; $"text"])) in
  match process_gen env0 desc recon 5 field false Outbound true [] (VField f) with
  | Ok spec => spec <> VField f /\ exists g, process_gen env0 desc recon 5 field false Inbound true [] spec = Ok (VField g) /\ alike g f
  | _ => False
  end.
Proof. vm_compute. split; [discriminate|]. eexists. split; reflexivity. Qed.
