(** Property theorems proved in TextMoreProofs.v (generated by tools/mkprops.py). *)
From Verif Require Import Spec Demo TextMoreSpec TextMoreProofs.
Open Scope N_scope.

(** C59.  What is taken for an innermost structure, exactly: a bracket, text in which every bracket is
    escaped and every backslash is part of an escape, and the closing bracket of the same kind. *)
Theorem C59_structure_matched :
  forall s m, structure_match s = Some m
    <-> exists opening closing body rest, bracket_pair opening closing /\ shielded body
          /\ m = opening :: body ++ [closing] /\ s = m ++ rest.
Proof. exact structure_matched. Qed.
Print Assumptions C59_structure_matched.

Example C59_matched_example : structure_match $"[a\},b]c]" = Some $"[a\},b]" /\ structure_match $"[a},b]" = None
  /\ structure_match $"{a:\x}" = None.
Proof. vm_compute. auto. Qed.

(** C61.  Parts of a query that give no value, having no equals sign or nothing after it, are left out,
    wherever they are. *)
Theorem C61_urlencoded_valueless :
  forall E semicolons before piece after,
    valueless piece -> ~ In 38 piece -> ~ In 59 piece ->
    url_unserialize E semicolons (VStr (before ++ $"&" ++ piece ++ $"&" ++ after))
    = url_unserialize E semicolons (VStr (before ++ $"&" ++ after))
    /\ url_unserialize E semicolons (VStr piece) = Ok (VDict false []).
Proof. exact urlencoded_valueless. Qed.
Print Assumptions C61_urlencoded_valueless.

Example C61_valueless_example : url_unserialize env0 false (VStr $"a=1&b&c=&d=x") = Ok (VDict false [(VStr $"a", VStr $"1"); (VStr $"d", VStr $"x")]).
Proof. vm_compute. reflexivity. Qed.

(** C63.  Columns may be given as one text with commas instead of a list, and a path leads from
    structure to structure: a step that the schema or the value does not know is a ValueError. *)
Theorem C63_csv_columns_and_path :
  forall E,
    (forall names path v schema, names <> [] -> (forall name, In name names -> ~ In 44 name) ->
       csv_serialize E (VStr (join $"," names)) path v schema = csv_serialize E (VList (map VStr names)) path v schema)
    /\ (forall columns key path p l strict order o d,
          let schema := Fld p (KStructure (SPlain l) strict order) in
          (forall f v, aget key l = Some f -> sget key d = Some v ->
             csv_serialize E columns (key :: path) (VDict o d) schema = csv_serialize E columns path v f)
          /\ (aget key l = None \/ sget key d = None ->
              csv_serialize E columns (key :: path) (VDict o d) schema = py ValueError)).
Proof. exact csv_columns_and_path. Qed.
Print Assumptions C63_csv_columns_and_path.

Example C63_path_example :
  let items := Fld p0 (KSequence (Fld p0 (KStructure (SPlain [($"a", Fld p0 (KInteger None None)); ($"b", Fld p0 (KInteger None None))]) true None)) None None false) in
  let schema := Fld p0 (KStructure (SPlain [($"rows", items)]) true None) in
  let v := VDict false [(VStr $"rows", VList [VDict false [(VStr $"a", VInt 1); (VStr $"b", VInt 2)]])] in
  csv_serialize env0 (VStr $"b,a") [$"rows"] v schema = Ok (csv_row [$"b"; $"a"] ++ csv_row [$"2"; $"1"])
  /\ csv_serialize env0 VNone [$"columns"] v schema = py ValueError.
Proof. vm_compute. auto. Qed.

(** C64.  Elements of booleans and numbers that have no text raise AttributeError and TypeError, and
    texts that are no numbers ValueError. *)
Theorem C64_xml_texts_refused :
  forall E tag attrs children,
    aget $"null" attrs = None \/ aget $"null" attrs = Some [] ->
    xml_value E (Elem tag attrs None children) (Some KBoolean) = py AttributeError
    /\ (forall mn mx, xml_value E (Elem tag attrs None children) (Some (KInteger mn mx)) = py TypeError
          /\ forall s, parse_int (e_udigit E) s = None ->
               xml_value E (Elem tag attrs (Some s) children) (Some (KInteger mn mx)) = py ValueError)
    /\ (forall mn mx, xml_value E (Elem tag attrs None children) (Some (KFloat mn mx)) = py TypeError
          /\ forall s, parse_float (e_udigit E) s = None ->
               xml_value E (Elem tag attrs (Some s) children) (Some (KFloat mn mx)) = py ValueError).
Proof. exact xml_texts_refused. Qed.
Print Assumptions C64_xml_texts_refused.

Example C64_texts_example :
  xml_unserialize env0 $"<n></n>" (Fld p0 (KInteger None None)) = py TypeError
  /\ xml_unserialize env0 $"<n>x</n>" (Fld p0 (KFloat None None)) = py ValueError.
Proof. vm_compute. auto. Qed.
