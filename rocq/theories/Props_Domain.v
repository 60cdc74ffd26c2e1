(** Property theorems proved in DomainProofs.v (generated by tools/mkprops.py). *)
From Verif Require Import Spec Demo BuildSpec DocSpec DomainSpec DomainProofs.
Open Scope nat_scope.

(** C94.  A directive "field" is accepted exactly if its options are known, none is given twice and
    the flags have no text; the text of every other option is then kept as it is. *)
Theorem C94_options_accepted :
  forall o : list (str * str),
    ((exists r, read_options o = Some r) <-> understood o)
    /\ (forall r, read_options o = Some r ->
          map fst r = map fst o
          /\ forall name text, In (name, text) o ->
               (In name with_text -> aget name r = Some (Some text))
               /\ (In name without_text -> aget name r = Some None)).
Proof. exact options_accepted. Qed.
Print Assumptions C94_options_accepted.

Example C94_accepted_example :
  read_options [($"type", $"text"); ($"required", [])] = Some [($"type", Some $"text"); ($"required", None)]
  /\ read_options [($"type", $"text"); ($"type", $"date")] = None
  /\ read_options [($"required", $"yes")] = None
  /\ read_options [($"notes", $"see there")] = None.
Proof. repeat split; vm_compute; reflexivity. Qed.

(** C94.  (partial) All that the generator writes for a description are directives "field", and the
    Sphinx directive accepts exactly those without notes; the directive for a description has
    the option "notes" exactly if the description has notes. *)
Theorem C94_documentation_accepted_partial :
  forall E repr role sectional v name key d,
    document E repr role sectional v name key = Ok d ->
    (forall x, within_node x d -> exists args params content,
       x = Block $"field" args params content
       /\ ((exists options, read_options (written_options E params) = Some options)
           <-> ~ In $"notes" (map fst params)))
    /\ exists l params content,
         as_dict v = Some l /\ d = Block $"field" [name] params content
         /\ (In $"notes" (map fst params) <-> truthy (noted $"notes" l) = true).
Proof. exact documentation_accepted_partial. Qed.
Print Assumptions C94_documentation_accepted_partial.

Example C94_documentation_example :
  let item := VDict false [(VStr $"fieldtype", VStr $"text"); (VStr $"notes", VStr $"short")] in
  let v := VDict false [(VStr $"fieldtype", VStr $"sequence"); (VStr $"unique", VBool true);
                        (VStr $"max_length", VInt 3); (VStr $"item", item)] in
  let inner := Block $"field" [[]] [($"type", VStr $"text"); ($"notes", VStr $"short")] [] in
  let outer := [($"type", VStr $"sequence"); ($"unique", VStr []); ($"constraints", VStr $"max=3")] in
  document env0 (fun _ => []) None false v $"tags" VNone = Ok (Block $"field" [$"tags"] outer [inner])
  /\ read_options (written_options env0 outer)
     = Some [($"type", Some $"sequence"); ($"unique", None); ($"constraints", Some $"max=3")]
  /\ read_options (written_options env0 [($"type", VStr $"text"); ($"notes", VStr $"short")]) = None.
Proof. repeat split; vm_compute; reflexivity. Qed.

(** C94.  (refuted) A field with notes can be documented, and Sphinx refuses the directive. *)
Theorem C94_documentation_accepted_refuted :
  exists E repr v params,
    document E repr None false v $"name" VNone = Ok (Block $"field" [$"name"] params [])
    /\ read_options (written_options E params) = None.
Proof. exact documentation_accepted_refuted. Qed.
Print Assumptions C94_documentation_accepted_refuted.

(** C95.  The signature of a field shows, in this order, its name (behind it a full stop if it is a
    number, nothing for the discriminator of a polymorphic structure, else a colon), the type, the
    subtype in angle brackets, the type of the keys, the constant or else the default, the constraints,
    the flags and the title in quotes, each behind a blank and exactly if it is given and not empty. *)
Theorem C95_signature_words :
  forall E options name,
    exists head, headed E options match name with Some n => n | None => [] end head
    /\ words_in (DNode $"paragraph" [$"field-signature"] (signature E options name))
       = head ++ flat_map (fun piece => $" " ++ piece) (pieces options).
Proof. exact signature_words. Qed.
Print Assumptions C95_signature_words.

Example C95_signature_example :
  let options := [($"type", Some $"map"); ($"subtype", Some $"text: integer;required nonnull"); ($"unique", None);
                  ($"required", None); ($"default", Some $"3"); ($"title", Some $"Counts")] in
  words_in (DNode [] [] (signature env0 options (Some $"counts")))
  = $"counts: map <text: integer required nonnull> default=3 required unique " ++ [34%N] ++ $"Counts" ++ [34%N]
  /\ words_in (DNode [] [] (signature env0 [($"type", Some $"text")] (Some $"0"))) = $"0. text".
Proof. split; vm_compute; reflexivity. Qed.

(** C95.  Below the signature stand, in one block, the description, the pattern, the values and the
    required keys as far as they are given, and then the nested content unchanged; without any of
    these there is no block. *)
Theorem C95_directive_block :
  forall E options name content,
    exists lines classes,
      map words_in lines
      = said options $"description"
        ++ flat_map (fun n => map (fun t => n ++ $": " ++ t) (said options n)) [$"pattern"; $"values"; $"required_keys"]
      /\ In $"field" classes
      /\ field_definition E options name content
         = DNode $"container" classes
             (DNode $"paragraph" [$"field-signature"] (signature E options name)
              :: match lines ++ content with [] => [] | l => [DNode $"block_quote" [] l] end).
Proof. exact directive_block. Qed.
Print Assumptions C95_directive_block.

Example C95_block_example :
  field_definition env0 [($"type", Some $"text"); ($"pattern", Some $"a*"); ($"description", Some $"A word.")] None [DText $"x"]
  = DNode $"container" [$"field"; []]
      [DNode $"paragraph" [$"field-signature"] [DText $" "; DNode $"emphasis" [$"field-type"] [DText $"text"]];
       DNode $"block_quote" []
         [DNode $"inline" [$"field-description"] [DText $"A word."];
          DNode $"paragraph" [$"field-aspect"]
            [DNode $"inline" [$"aspect-name"] [DText $"pattern: "]; DNode $"literal" [] [DText $"a*"]];
          DText $"x"]]
  /\ field_definition env0 [($"type", Some $"text")] None []
  = DNode $"container" [$"field"; []]
      [DNode $"paragraph" [$"field-signature"] [DText $" "; DNode $"emphasis" [$"field-type"] [DText $"text"]]].
Proof. split; vm_compute; reflexivity. Qed.

(** C95.  (partial) Every option with a text that is not empty can be read in what the directive
    shows, but for examples, for defaults of fields with a constant, and for subtypes with a
    semicolon (where a blank is shown for it); the flags "required", "nonnull", "ignore_null",
    "polymorphic" and "unique" can be read, and all of the nested content. *)
Theorem C95_directive_shows_partial :
  forall E (options : list (str * option str)) name content,
    (forall (option text : str), aget option options = Some (Some text) -> text <> [] ->
       In option with_text -> option <> $"example" ->
       (option = $"default" -> forall c, aget $"constant" options = Some (Some c) -> c = []) ->
       (option = $"subtype" -> ~ In 59%N text) ->
       readable text (field_definition E options name content))
    /\ (forall flag, In flag [$"required"; $"nonnull"; $"ignore_null"; $"polymorphic"; $"unique"] ->
          In flag (map fst options) -> readable flag (field_definition E options name content))
    /\ (forall d, In d content -> forall text, readable text d -> readable text (field_definition E options name content))
    /\ (forall n, name = Some n -> readable n (field_definition E options name content)).
Proof. exact directive_shows_partial. Qed.
Print Assumptions C95_directive_shows_partial.

Example C95_shows_example :
  words_in (field_definition env0
    [($"type", Some $"integer"); ($"constraints", Some $"min=0"); ($"required", None); ($"description", Some $"How many.")]
    (Some $"count") [DText $"nested"])
  = $"count: integer min=0 requiredHow many.nested".
Proof. vm_compute. reflexivity. Qed.

(** C95.  (refuted) Examples are accepted by the directive and never shown. *)
Theorem C95_directive_shows_refuted :
  exists (E : env) options, read_options [($"type", $"text"); ($"example", $"bingo")] = Some options
    /\ aget $"example" options = Some (Some $"bingo")
    /\ ~ readable $"bingo" (field_definition E options None []).
Proof. exact directive_shows_refuted. Qed.
Print Assumptions C95_directive_shows_refuted.

(** C95.  The option "example" changes nothing of what is shown. *)
Theorem C95_example_unused :
  forall E a text b name content,
    field_definition E (a ++ ($"example", text) :: b) name content = field_definition E (a ++ b) name content.
Proof. exact example_unused. Qed.
Print Assumptions C95_example_unused.

Example C95_example_example :
  field_definition env0 ([($"type", Some $"text")] ++ ($"example", Some $"bingo") :: [($"title", Some $"Word")]) (Some $"word") []
  = field_definition env0 [($"type", Some $"text"); ($"title", Some $"Word")] (Some $"word") [].
Proof. vm_compute. reflexivity. Qed.

(** C95.  The directive "structure" shows its argument, and below it the nested content unchanged
    if there is any. *)
Theorem C95_structure_shows :
  forall argument content,
    exists header, words_in header = argument
    /\ structure_definition argument content
       = header :: match content with [] => [] | _ => [DNode $"block_quote" [$"structure-block"] content] end.
Proof. exact structure_shows. Qed.
Print Assumptions C95_structure_shows.

Example C95_structure_example :
  structure_definition $"User" [DText $"x"]
  = [DNode $"paragraph" [$"structure-header"] [DNode $"strong" [] [DText $"User"]];
     DNode $"block_quote" [$"structure-block"] [DText $"x"]].
Proof. reflexivity. Qed.
