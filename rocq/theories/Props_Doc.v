(** Property theorems proved in DocProofs.v (generated by tools/mkprops.py). *)
From Verif Require Import Spec Demo BuildSpec DocSpec DocProofs.
Open Scope nat_scope.

(** C85.  Every rendered directive starts with an empty line and with its own line, ".. name::"
    and the arguments behind the indentation asked for; every further line, at any depth of nesting,
    is empty or indented by at least four more blanks, so that all of it belongs to the directive.
    The values of parameters may hold line breaks. *)
Theorem C85_render_nests :
  forall E wrap n name args params content,
    wraps wrap -> neat (Block name args params content) ->
    exists rest,
      lines (render_node E wrap n (Block name args params content))
      = [] :: (repeat 32%N (4 * n) ++ $".. " ++ name ++ $":: " ++ join [32%N] args) :: rest
      /\ Forall (within (4 * n + 4)) rest.
Proof. exact render_nests. Qed.
Print Assumptions C85_render_nests.

Example C85_render_nests_example :
  let wrap := fun prefix text => [prefix ++ text] in
  let d := Block $"field" [$"a"] [($"type", VStr $"text"); ($"notes", VStr ($"x" ++ [10%N] ++ $"y"))]
             [Block $"field" [[]] [] []] in
  wraps (fun prefix text => [prefix ++ $"t"]) /\ neat d
  /\ lines (render_node env0 wrap 0%nat d)
     = [[]; $".. field:: a"; $"    :type: text"; $"    :notes: x"; $"        y"; [];
        []; $"    .. field:: "; []; []; []].
Proof.
  split; [|split].
  - intros prefix text line [<-|[]]. split; [|exists $"t"; reflexivity].
    unfold one_line. intros H I. apply in_app_or in I as [I|I]; [now apply H|].
    cbn in I. intuition discriminate.
  - repeat constructor; unfold one_line; cbn; intuition discriminate.
  - vm_compute. reflexivity.
Qed.

(** C85.  Nothing is lost: the lines of each parameter (name, first line of the value, further
    lines of the value indented by four more blanks) and the lines of the rendering of each directive
    or text in the content appear as they are, one after the other. *)
Theorem C85_render_keeps :
  forall E wrap n name args params content,
    neat (Block name args params content) ->
    let whole := lines (render_node E wrap n (Block name args params content)) in
    (forall key v, In (key, v) params ->
       exists first rest,
         lines (arg_text E v) = first :: rest
         /\ among ((repeat 32%N (4 * n + 4) ++ $":" ++ key ++ $": " ++ first)
                   :: map (fun line => repeat 32%N (4 * n + 8) ++ line) rest) whole)
    /\ (forall d, In d content -> among (lines (render_node E wrap (n + 1) d)) whole).
Proof. exact render_keeps. Qed.
Print Assumptions C85_render_keeps.

Example C85_render_keeps_example :
  let wrap := fun prefix text => [prefix ++ text] in
  let d := Block $"field" [$"a"] [($"notes", VStr ($"x" ++ [10%N] ++ $"y"))] [Words $" some words"] in
  neat d
  /\ lines (render_node env0 wrap 1%nat d)
     = [[]; $"    .. field:: a"; $"        :notes: x"; $"            y"; []; $"        some words"].
Proof. split; [repeat constructor; unfold one_line; cbn; intuition discriminate | vm_compute; reflexivity]. Qed.

(** C86.  The documentation of a description is a directive "field" with the given name.  Its
    parameters tell the type (behind the type of the keys, if one is given), the description and the
    notes if there are any, the flags that hold ("required" not in the role "schema"), and the
    constant, the default and the title exactly if the description has them; nothing else is said
    under these names. *)
Theorem C86_document_says :
  forall E repr role sectional v l name key d,
    as_dict v = Some l -> document E repr role sectional v name key = Ok d ->
    (exists params content, d = Block $"field" [name] params content)
    /\ (exists t, sget $"fieldtype" l = Some t /\ forall w,
          shows_param $"type" d (Some w)
          <-> w = if truthy key then VStr (arg_text E key ++ $": " ++ arg_text E t) else t)
    /\ (forall w, shows_param $"sectional" d (Some w) <-> sectional = true /\ w = VStr [])
    /\ (forall name w, In name [$"description"; $"notes"] ->
          (shows_param name d (Some w) <-> truthy (noted name l) = true /\ w = noted name l))
    /\ (forall name w, In name [$"nonnull"; $"ignore_null"; $"required"] ->
          (shows_param name d (Some w)
           <-> truthy (noted name l) = true /\ ~ (name = $"required" /\ role = Some $"schema") /\ w = VStr []))
    /\ (forall name w, In name [$"constant"; $"default"] ->
          (shows_param name d (Some w) <-> noted name l <> VNone /\ w = VStr (repr (noted name l))))
    /\ (forall w, shows_param $"title" d (Some w) <-> noted $"title" l <> VNone /\ w = noted $"title" l).
Proof. exact document_says. Qed.
Print Assumptions C86_document_says.

Example C86_document_says_example :
  let l := [(VStr $"fieldtype", VStr $"integer"); (VStr $"description", VStr $"How many.");
            (VStr $"required", VBool true); (VStr $"default", VInt 3); (VStr $"minimum", VInt 0)] in
  let repr := fun v => match v with VInt z => Z_text z | _ => [] end in
  document env0 repr None false (VDict false l) $"count" VNone
  = Ok (Block $"field" [$"count"]
          [($"type", VStr $"integer"); ($"description", VStr $"How many."); ($"required", VStr []);
           ($"default", VStr $"3"); ($"constraints", VStr $"min=0")] [])
  /\ document env0 repr (Some $"schema") true (VDict false l) $"count" (VStr $"text")
  = Ok (Block $"field" [$"count"]
          [($"sectional", VStr []); ($"type", VStr $"text: integer"); ($"description", VStr $"How many.");
           ($"default", VStr $"3"); ($"constraints", VStr $"min=0")] []).
Proof. split; vm_compute; reflexivity. Qed.

(** C87.  The documentation of an integer or of a float states exactly the bounds of its
    description, the minimum as "min=" and the maximum as "max=", and nothing else that is particular
    to a class.  Missing: decimals, dates, times and datetimes, for which this is false. *)
Theorem C87_number_bounds_documented_partial :
  forall E repr role sectional v l name key d t sep,
    as_dict v = Some l -> sget $"fieldtype" l = Some (VStr t) ->
    In (t, sep) [($"integer", $", "); ($"float", $" ")] ->
    document E repr role sectional v name key = Ok d ->
    particulars d = restricts sep (labelled repr $"min=" $"max=" (noted $"minimum" l) (noted $"maximum" l))
    /\ inside d = [].
Proof. exact number_bounds_documented_partial. Qed.
Print Assumptions C87_number_bounds_documented_partial.

Example C87_numbers_example :
  let repr := fun v => match v with VInt z => Z_text z | _ => [] end in
  let l := [(VStr $"fieldtype", VStr $"integer"); (VStr $"minimum", VInt (-1)); (VStr $"maximum", VInt 9)] in
  exists d, document env0 repr None false (VDict false l) $"a" VNone = Ok d
    /\ particulars d = [($"constraints", VStr $"min=-1, max=9")] /\ inside d = [].
Proof. eexists. split; [vm_compute; reflexivity|]. split; vm_compute; reflexivity. Qed.

(** C87.  The documentation of a text states the lengths that are numbers, that the text is not
    stripped, and the pattern, exactly as its description has them. *)
Theorem C87_text_documented :
  forall E repr role sectional v l name key d,
    as_dict v = Some l -> sget $"fieldtype" l = Some (VStr $"text") ->
    document E repr role sectional v name key = Ok d ->
    let length label w := match w with
                          | VInt _ | VFloat _ | VBool _ => [label ++ repr w]
                          | _ => []
                          end in
    particulars d
    = restricts $", " (length $"min_length=" (noted $"min_length" l)
                       ++ length $"max_length=" (noted $"max_length" l)
                       ++ match sget $"strip" l with
                          | Some w => if truthy w then [] else [$"strip=false"]
                          | None => []
                          end)
      ++ (if truthy (noted $"pattern" l) then [($"pattern", noted $"pattern" l)] else [])
    /\ inside d = [].
Proof. exact text_documented. Qed.
Print Assumptions C87_text_documented.

Example C87_text_example :
  let repr := fun v => match v with VInt z => Z_text z | _ => [] end in
  let l := [(VStr $"fieldtype", VStr $"text"); (VStr $"max_length", VInt 9); (VStr $"strip", VBool false);
            (VStr $"pattern", VStr $"^a")] in
  exists d, document env0 repr None false (VDict false l) $"a" VNone = Ok d
    /\ particulars d = [($"constraints", VStr $"max_length=9, strip=false"); ($"pattern", VStr $"^a")].
Proof. eexists. split; vm_compute; reflexivity. Qed.

(** C87.  The documentation of a sequence states that it is unique and its lengths, exactly as its
    description has them. *)
Theorem C87_sequence_lengths_documented :
  forall E repr role sectional v l name key d,
    as_dict v = Some l -> sget $"fieldtype" l = Some (VStr $"sequence") ->
    (forall w, w = noted $"min_length" l \/ w = noted $"max_length" l -> w = VNone \/ exists z, w = VInt z) ->
    document E repr role sectional v name key = Ok d ->
    let length label w := match w with VInt z => [label ++ Z_text z] | _ => [] end in
    particulars d
    = (if truthy (noted $"unique" l) then [($"unique", VStr [])] else [])
      ++ restricts $", " (length $"min=" (noted $"min_length" l) ++ length $"max=" (noted $"max_length" l)).
Proof. exact sequence_lengths_documented. Qed.
Print Assumptions C87_sequence_lengths_documented.

Example C87_sequence_example :
  let l := [(VStr $"fieldtype", VStr $"sequence"); (VStr $"max_length", VInt 9); (VStr $"unique", VBool true);
            (VStr $"item", VDict false [(VStr $"fieldtype", VStr $"boolean")])] in
  exists d, document env0 (fun _ => []) None false (VDict false l) $"a" VNone = Ok d
    /\ particulars d = [($"unique", VStr []); ($"constraints", VStr $"max=9")].
Proof. eexists. split; vm_compute; reflexivity. Qed.

(** C87.  The maximum of a decimal is documented as a second minimum. *)
Theorem C87_decimal_bounds_refuted :
  exists E repr f l d,
    describe E 2 false f = Ok (VDict false l)
    /\ noted $"maximum" l = VStr $"3"
    /\ document E repr None false (VDict false l) $"a" VNone = Ok d
    /\ particulars d <> restricts $", " (labelled repr $"min=" $"max=" (noted $"minimum" l) (noted $"maximum" l)).
Proof. exact decimal_bounds_refuted. Qed.
Print Assumptions C87_decimal_bounds_refuted.

(** C87.  Instead, what the documentation of a decimal states is both bounds as "min=". *)
Theorem C87_decimal_bounds_as_they_are :
  forall E repr role sectional v l name key d,
    as_dict v = Some l -> sget $"fieldtype" l = Some (VStr $"decimal") ->
    document E repr role sectional v name key = Ok d ->
    particulars d = restricts $", " (labelled repr $"min=" $"min=" (noted $"minimum" l) (noted $"maximum" l))
    /\ inside d = [].
Proof. exact decimal_bounds_as_they_are. Qed.
Print Assumptions C87_decimal_bounds_as_they_are.

Example C87_decimal_example :
  let repr := fun v => match v with VStr s => s | _ => [] end in
  let l := [(VStr $"fieldtype", VStr $"decimal"); (VStr $"minimum", VStr $"1"); (VStr $"maximum", VStr $"3")] in
  exists d, document env0 repr None false (VDict false l) $"a" VNone = Ok d
    /\ particulars d = [($"constraints", VStr $"min=1, min=3")].
Proof. eexists. split; vm_compute; reflexivity. Qed.

(** C87.  The documentation of a date, a time or a datetime never states its bounds, whatever they
    are: its description tells them as texts, which the generator does not take for dates or times.
    All it states is that a datetime is UTC. *)
Theorem C87_moment_bounds_undocumented :
  forall E repr n verbose p k l role sectional name key d,
    (exists lo hi, k = KDate lo hi) \/ (exists lo hi, k = KTime lo hi)
    \/ (exists lo hi utc, k = KDateTime lo hi utc) ->
    unasked p -> describe E n verbose (Fld p k) = Ok (VDict false l) ->
    document E repr role sectional (VDict false l) name key = Ok d ->
    particulars d = restricts $", " (match k with KDateTime _ _ true => [$"utc=True"] | _ => [] end)
    /\ inside d = [].
Proof. exact moment_bounds_undocumented. Qed.
Print Assumptions C87_moment_bounds_undocumented.

Example C87_moments_example :
  let f := Fld p0 (KDateTime (Some (DateTime (Date 2020 1 1) (Tod 0 0 0 0) (Some TzUTC))) None true) in
  exists l d, describe env0 2 false f = Ok (VDict false l) /\ noted $"minimum" l = VStr $"2020-01-01T00:00:00Z"
    /\ document env0 (fun _ => []) None false (VDict false l) $"a" VNone = Ok d
    /\ particulars d = [($"constraints", VStr $"utc=True")].
Proof.
  eexists _, _. split; [vm_compute; reflexivity|]. split; [vm_compute; reflexivity|].
  split; vm_compute; reflexivity.
Qed.

(** C87.  So the bounds of a date are not documented. *)
Theorem C87_date_bounds_refuted :
  exists E repr f l d,
    describe E 2 false f = Ok (VDict false l)
    /\ noted $"minimum" l = VStr $"2020-01-01"
    /\ document E repr None false (VDict false l) $"a" VNone = Ok d
    /\ particulars d = [].
Proof. exact date_bounds_refuted. Qed.
Print Assumptions C87_date_bounds_refuted.

(** C88.  The documentation of an enumeration without a constant lists its values, texts all of
    them, in alphabetical order. *)
Theorem C88_enumeration_documented :
  forall E repr role sectional v l name key d,
    as_dict v = Some l -> sget $"fieldtype" l = Some (VStr $"enumeration") -> noted $"constant" l = VNone ->
    document E repr role sectional v name key = Ok d ->
    exists vs names sorted, sget $"enumeration" l = Some vs /\ py_iter vs = Some (map VStr names)
      /\ sorted_names names sorted
      /\ particulars d = [($"values", VStr (join $" " sorted))] /\ inside d = [].
Proof. exact enumeration_documented. Qed.
Print Assumptions C88_enumeration_documented.

Example C88_enumeration_example :
  let l := [(VStr $"fieldtype", VStr $"enumeration"); (VStr $"enumeration", VList [VStr $"b"; VStr $"a"])] in
  exists d, document env0 (fun _ => []) None false (VDict false l) $"x" VNone = Ok d
    /\ particulars d = [($"values", VStr $"a b")].
Proof. eexists. split; vm_compute; reflexivity. Qed.

(** C88.  The content of the documentation of a sequence is the documentation of its item, that
    of a tuple the documentation of its values in order; neither is named. *)
Theorem C88_items_documented :
  forall E repr role sectional v l name key d,
    as_dict v = Some l -> document E repr role sectional v name key = Ok d ->
    (sget $"fieldtype" l = Some (VStr $"sequence") ->
       exists item b, sget $"item" l = Some item /\ document E repr role false item [] VNone = Ok b
         /\ inside d = [b])
    /\ (sget $"fieldtype" l = Some (VStr $"tuple") ->
        forall vs, sget $"values" l = Some (VList vs) ->
        Forall2 (fun w b => document E repr role false w [] VNone = Ok b) vs (inside d) /\ particulars d = []).
Proof. exact items_documented. Qed.
Print Assumptions C88_items_documented.

Example C88_items_example :
  let flag := VDict false [(VStr $"fieldtype", VStr $"boolean")] in
  let l := [(VStr $"fieldtype", VStr $"sequence"); (VStr $"item", flag)] in
  let m := [(VStr $"fieldtype", VStr $"tuple"); (VStr $"values", VList [flag; VDict false l])] in
  let doc v := document env0 (fun _ => []) None false v [] VNone in
  exists b c d, doc flag = Ok b /\ doc (VDict false l) = Ok c /\ inside c = [b]
    /\ doc (VDict false m) = Ok d /\ inside d = [b; c].
Proof. eexists _, _, _. repeat split; vm_compute; reflexivity. Qed.

(** C88.  The documentation of a map lists its required keys in order and shows the types of its
    keys (text by default) and values, in one line if the value is neither structural nor has a
    description, and by the documentation of the value otherwise. *)
Theorem C88_map_documented :
  forall E repr role sectional v l name key d,
    as_dict v = Some l -> sget $"fieldtype" l = Some (VStr $"map") ->
    document E repr role sectional v name key = Ok d ->
    exists kt value vl shown,
      (if truthy (noted $"key" l) then exists kl, as_dict (noted $"key" l) = Some kl /\ sget $"fieldtype" kl = Some kt
       else kt = VStr $"text")
      /\ sget $"value" l = Some value /\ as_dict value = Some vl
      /\ (truthy (noted $"required_keys" l) = false /\ shown = []
          \/ truthy (noted $"required_keys" l) = true /\ exists ks, shown = [($"required_keys", VStr (repr (VList ks)))]
             /\ forall xs names, noted $"required_keys" l = VList xs -> xs = map VStr names ->
                exists sorted, Permutation names sorted /\ StronglySorted str_le sorted /\ ks = map VStr sorted)
      /\ (truthy (noted $"structural" vl) = false /\ truthy (noted $"description" vl) = false
          /\ inside d = []
          /\ (exists vt, sget $"fieldtype" vl = Some vt
              /\ particulars d = shown ++ [($"subtype", VStr (arg_text E kt ++ $": " ++ arg_text E vt))])
          \/ (truthy (noted $"structural" vl) = true \/ truthy (noted $"description" vl) = true)
          /\ (exists b, document E repr role false value [] kt = Ok b /\ inside d = [b])
          /\ particulars d = shown).
Proof. exact map_documented. Qed.
Print Assumptions C88_map_documented.

Example C88_map_example :
  let flag := VDict false [(VStr $"fieldtype", VStr $"boolean")] in
  let l := [(VStr $"fieldtype", VStr $"map"); (VStr $"value", flag); (VStr $"required_keys", VList [VStr $"b"; VStr $"a"])] in
  let repr v := match v with VList [VStr a; VStr b] => $"[" ++ a ++ $", " ++ b ++ $"]" | _ => [] end in
  exists d, document env0 repr None false (VDict false l) [] VNone = Ok d
    /\ particulars d = [($"required_keys", VStr $"[a, b]"); ($"subtype", VStr $"text: boolean")].
Proof. eexists. split; vm_compute; reflexivity. Qed.

(** C88.  What is missing or malformed in the description of a map is not documented: keys described
    by something else than a dict are a TypeError, a description of the keys without their type and a map
    without a value are a KeyError. *)
Theorem C88_map_undocumented :
  forall E repr role sectional v l name key,
    as_dict v = Some l -> sget $"fieldtype" l = Some (VStr $"map") -> truthy (noted $"required_keys" l) = false ->
    let out := document E repr role sectional v name key in
    (truthy (noted $"key" l) = true ->
       (as_dict (noted $"key" l) = None -> out = py TypeError)
       /\ forall kl, as_dict (noted $"key" l) = Some kl -> sget $"fieldtype" kl = None -> out = py KeyError)
    /\ (truthy (noted $"key" l) = false -> sget $"value" l = None -> out = py KeyError).
Proof. exact map_undocumented. Qed.
Print Assumptions C88_map_undocumented.

Example C88_malformed_example :
  let doc l := document env0 (fun _ => []) None false (VDict false ((VStr $"fieldtype", VStr $"map") :: l)) $"x" VNone in
  doc [(VStr $"key", VStr $"text")] = py TypeError /\ doc [(VStr $"key", VDict false [(VStr $"a", VNone)])] = py KeyError /\ doc [] = py KeyError.
Proof. vm_compute. repeat split. Qed.

(** C88.  Whatever field can be described can be documented, provided that no structure with
    fields and no union occurs in it, that all its enumerations and required keys are texts, and that
    no aspect has a name that the generator asks for.  Missing: structures and unions, which can never
    be documented. *)
Theorem C88_fields_documented_partial :
  forall E repr n verbose f d role sectional name key,
    throughout E documentable f -> describe E n verbose f = Ok d ->
    exists b, document E repr role sectional d name key = Ok b.
Proof. exact fields_documented_partial. Qed.
Print Assumptions C88_fields_documented_partial.

Example C88_fields_example :
  let f := Fld p0 (KSequence (Fld p0 (KMap (Fld p0 (KEnumeration [VStr $"b"; VStr $"a"] None)) None None)) None None false) in
  throughout env0 documentable f
  /\ exists d b, describe env0 5 false f = Ok d /\ document env0 (fun _ => []) None false d $"x" VNone = Ok b
     /\ b = Block $"field" [$"x"] [($"type", VStr $"sequence")]
              [Block $"field" [[]] [($"type", VStr $"map"); ($"subtype", VStr $"text: enumeration")] []].
Proof.
  split.
  - split; [|discriminate]. constructor; [split; [intros s []|exact I]|]. intros g [<-|[]].
    constructor; [split; [intros s []|discriminate]|]. intros g [<-|[]].
    constructor; [split; [intros s []|exists [$"b"; $"a"]; reflexivity]|]. intros g [].
  - eexists _, _. split; [vm_compute; reflexivity|]. split; vm_compute; reflexivity.
Qed.

(** C88.  No structure with fields can be documented: the generator calls a method that does not
    exist. *)
Theorem C88_structures_undocumented :
  forall E repr n verbose p sd strict order d role sectional name key,
    unasked p ->
    match sd with SPlain l => l <> [] | SPoly _ vs => vs <> [] end ->
    describe E n verbose (Fld p (KStructure sd strict order)) = Ok d ->
    (forall b, document E repr role sectional d name key <> Ok b)
    /\ (forall l, sd = SPlain l -> document E repr role sectional d name key = py AttributeError).
Proof. exact structures_undocumented. Qed.
Print Assumptions C88_structures_undocumented.

Example C88_structure_example :
  let f := Fld p0 (KStructure (SPlain [($"a", Fld p0 KBoolean)]) true None) in
  exists d, describe env0 4 false f = Ok d
    /\ document env0 (fun _ => []) None false d $"x" VNone = py AttributeError.
Proof. eexists. split; [vm_compute; reflexivity|]. vm_compute. reflexivity. Qed.

(** C88.  No union can be documented: the generator evaluates a misspelled name. *)
Theorem C88_unions_undocumented :
  forall E repr n verbose p fs d role sectional name key,
    unasked p -> fs <> [] -> describe E n verbose (Fld p (KUnion fs)) = Ok d ->
    document E repr role sectional d name key = py NameError.
Proof. exact unions_undocumented. Qed.
Print Assumptions C88_unions_undocumented.

Example C88_union_example :
  let f := Fld p0 (KUnion [Fld p0 KBoolean; Fld p0 (KInteger None None)]) in
  exists d, describe env0 4 false f = Ok d
    /\ document env0 (fun _ => []) None false d $"x" VNone = py NameError.
Proof. eexists. split; [vm_compute; reflexivity|]. vm_compute. reflexivity. Qed.

(** C88.  So not every field that can be described can be documented. *)
Theorem C88_structures_documented_refuted :
  exists E repr f d, describe E 4 false f = Ok d /\ forall b, document E repr None false d $"x" VNone <> Ok b.
Proof. exact structures_documented_refuted. Qed.
Print Assumptions C88_structures_documented_refuted.
