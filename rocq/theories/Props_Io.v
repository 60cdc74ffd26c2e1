(** Property theorems proved in IoProofs.v (generated by tools/mkprops.py). *)
From Verif Require Import Spec Demo IoSpec IoProofs.

(** C65.  Whatever is in the registry, a format just created is found by its name, its mimetype, each
    of its extensions with a leading point, and its class. *)
Theorem C65_format_registered :
  forall f reg k,
    registrable f -> keyed f k ->
    snd (register f reg) = Ok tt /\ look_up k (fst (register f reg)) = Some f.
Proof. exact format_registered. Qed.
Print Assumptions C65_format_registered.

Definition f65 : format := {| fm_class := 9; fm_name := $"toml"; fm_mimetype := []; fm_extensions := [$".toml"; $"tml"];
  fm_serialize _ _ := Ok $"x"; fm_unserialize _ _ := Ok VNone |}.
Example C65_registered_example : registrable f65 /\ keyed f65 (ByText $".toml") /\ ~ keyed f65 (ByText $"tml").
Proof.
  split; [|split].
  - split; [discriminate|]. cbn. intuition discriminate.
  - right. right. left. exists $"toml". split; [left; reflexivity|reflexivity].
  - intros [H|[[H _]|[[e [_ H]]|H]]]; try discriminate H. apply H. reflexivity.
Qed.

(** C65.  Nothing else in the registry changes; and a format without a name is not registered. *)
Theorem C65_format_registered_only :
  forall f reg k,
    (~ keyed f k -> look_up k (fst (register f reg)) = look_up k reg)
    /\ (fm_name f = [] -> fst (register f reg) = reg).
Proof. exact format_registered_only. Qed.
Print Assumptions C65_format_registered_only.

Example C65_registered_only_example :
  ~ keyed f65 (ByText $"json") /\ option_map fm_name (look_up (ByText $"json") (fst (register f65 (register_all [f65; Json env0] [])))) = Some $"json".
Proof.
  split; [|vm_compute; reflexivity].
  intros [H|[[H _]|[[e [_ H]]|H]]]; try discriminate H. apply H. reflexivity.
Qed.

(** C65.  After any sequence of formats was created, a key finds the last of the formats it belongs
    to, and no other key finds anything. *)
Theorem C65_formats_registered :
  forall fs k f,
    (forall g, In g fs -> registrable g) ->
    (look_up k (register_all fs []) = Some f <-> last_keyed k fs f).
Proof. exact formats_registered. Qed.
Print Assumptions C65_formats_registered.

Example C65_formats_example :
  let named c n e := {| fm_class := c; fm_name := n; fm_mimetype := []; fm_extensions := e;
                        fm_serialize := fun _ _ => Ok []; fm_unserialize := fun _ _ => Ok VNone |} in
  last_keyed (ByText $".a") [named 1%nat $"x" [$".a"]; named 2%nat $"y" [$".b"; $".a"]; named 3%nat $"z" [$".b"]] (named 2%nat $"y" [$".b"; $".a"]).
Proof.
  intros named. exists [named 1%nat $"x" [$".a"]], [named 3%nat $"z" [$".b"]]. split; [reflexivity|]. split.
  - right. right. left. exists $"a". split; [right; left; reflexivity|reflexivity].
  - intros g [<-|[]] [H|[[H _]|[[e [[H1|[]] H]]|H]]]; try discriminate H; [apply H; reflexivity|].
    rewrite <- H1 in H. discriminate.
Qed.

(** C65.  After importing the library each of its six formats is found by its name, its mimetype, its
    extensions and its class; and a key finds something only if it belongs to one of them. *)
Theorem C65_builtin_formats :
  forall E wrap load k f,
    look_up k (formats E wrap load) = Some f <-> In f (builtin E wrap load) /\ keyed f k.
Proof. exact builtin_formats. Qed.
Print Assumptions C65_builtin_formats.

Definition wrap65 (s t : str) : list str := [t].
Definition load65 (s : str) : res val := Ok VNone.
Example C65_builtin_example :
  In (Yaml env0 wrap65 load65) (builtin env0 wrap65 load65) /\ keyed (Yaml env0 wrap65 load65) (ByText $".yml")
  /\ option_map fm_name (look_up (ByText $"application/json") (formats env0 wrap65 load65)) = Some $"json"
  /\ look_up (ByText $"YAML") (formats env0 wrap65 load65) = None.
Proof.
  split; [unfold builtin; cbn [In]; tauto|]. split; [|split; vm_compute; reflexivity].
  right. right. left. exists $"yml". split; [right; left; reflexivity|reflexivity].
Qed.

(** C65.  The names, mimetypes and extensions under which the library has formats, all of them. *)
Theorem C65_builtin_names :
  forall E wrap load s f,
    look_up (ByText s) (formats E wrap load) = Some f
    <-> In (s, f) [($"csv", Csv E); ($"application/csv", Csv E); ($".csv", Csv E);
                   ($"json", Json E); ($"application/json", Json E); ($".json", Json E);
                   ($"structuredtext", StructuredText E); ($"text/plain", StructuredText E);
                   ($"urlencoded", UrlEncoded); ($"application/x-www-form-urlencoded", UrlEncoded);
                   ($"xml", Xml E); ($"application/xml", Xml E); ($".xml", Xml E);
                   ($"yaml", Yaml E wrap load); ($"application/x-yaml", Yaml E wrap load);
                   ($".yaml", Yaml E wrap load); ($".yml", Yaml E wrap load)].
Proof. exact builtin_names. Qed.
Print Assumptions C65_builtin_names.

Example C65_names_example :
  look_up (ByText $".yml") (formats env0 wrap65 load65) = Some (Yaml env0 wrap65 load65)
  /\ look_up (ByText $"yml") (formats env0 wrap65 load65) = None.
Proof. split; reflexivity. Qed.

(** C65.  Without a schema CSV and XML refuse to write (ValueError, TypeError) and to read (TypeError);
    JSON, StructuredText and YAML do with and without it the same, and UrlEncoded cannot be used through
    the registry at all. *)
Theorem C65_schema_needed :
  forall E wrap load v s f k,
    let reg := formats E wrap load in
    (keyed (Csv E) k -> format_serialize reg v k None = py ValueError /\ format_unserialize reg s k None = py TypeError)
    /\ (keyed (Xml E) k -> format_serialize reg v k None = py TypeError /\ format_unserialize reg s k None = py TypeError)
    /\ (keyed (Json E) k \/ keyed (StructuredText E) k \/ keyed (Yaml E wrap load) k ->
        format_serialize reg v k (Some f) = format_serialize reg v k None
        /\ format_unserialize reg s k (Some f) = format_unserialize reg s k None)
    /\ (keyed UrlEncoded k -> forall schema,
        format_serialize reg v k schema = py TypeError /\ format_unserialize reg s k schema = py TypeError).
Proof. exact schema_needed. Qed.
Print Assumptions C65_schema_needed.

Example C65_schema_example :
  keyed (Xml env0) (ByText $"xml")
  /\ format_serialize (formats env0 wrap65 load65) (VInt 1) (ByText $"xml") None = py TypeError
  /\ format_serialize (formats env0 wrap65 load65) (VInt 1) (ByText $"json") None = Ok $"1".
Proof. split; [left; reflexivity|split; vm_compute; reflexivity]. Qed.

(** C65.  With no format given, [Format] and fields take that of the lower-cased extension of the
    path: reading and writing the path is as if that extension were given as the format. *)
Theorem C65_format_of_extension :
  forall E reg w path extension schema quiet v,
    path_with path extension ->
    let format := Some (ByText (lower (e_ulower E) ($"." ++ extension))) in
    format_read E reg None w path None schema quiet = format_read E reg None w path format schema quiet
    /\ format_write E reg None w path v None schema = format_write E reg None w path v format schema.
Proof. exact format_of_extension. Qed.
Print Assumptions C65_format_of_extension.

Example C65_extension_example :
  path_with $"/tmp/.x.tar/data.v1.JSON" $"JSON" /\ lower (e_ulower env0) $".JSON" = $".json"
  /\ look_up (ByText $".json") (formats env0 wrap65 load65) = Some (Json env0).
Proof.
  split; [|split; reflexivity].
  exists $"/tmp/.x.tar/", $"data.v1". split; [reflexivity|]. split; [right; exists $"/tmp/.x.tar"; reflexivity|].
  split; [cbn; intuition discriminate|]. split; [exists 100%N; split; [left; reflexivity|discriminate]|].
  split; cbn; intuition discriminate.
Qed.

(** C65.  A path without an extension has no format: ValueError, and no file is touched. *)
Theorem C65_format_without_extension :
  forall E fs w path schema quiet v,
    path_without path ->
    let reg := register_all fs [] in
    (path <> [] -> w_node w path <> None -> format_read E reg None w path None schema quiet = py ValueError)
    /\ format_write E reg None w path v None schema = (py ValueError, w).
Proof. exact format_without_extension. Qed.
Print Assumptions C65_format_without_extension.

Example C65_without_example : path_without $"a.b/.json".
Proof.
  exists $"a.b/", $".", $"json". split; [reflexivity|]. split; [right; exists $"a.b"; reflexivity|].
  split; [intros c [<-|[]]; reflexivity|]. split; cbn; intuition discriminate.
Qed.

(** C65.  A format that is not registered is refused with ValueError by read and write, before any
    file is touched, and with KeyError by serialize and unserialize. *)
Theorem C65_format_unknown :
  forall E reg cls w path k schema quiet v s,
    k <> ByText [] -> look_up k reg = None ->
    (path <> [] -> w_node w path <> None -> format_read E reg cls w path (Some k) schema quiet = py ValueError)
    /\ format_write E reg cls w path v (Some k) schema = (py ValueError, w)
    /\ format_serialize reg v k schema = py KeyError
    /\ format_unserialize reg s k schema = py KeyError.
Proof. exact format_unknown. Qed.
Print Assumptions C65_format_unknown.

Definition w65 : world := {| w_node := fun p => if str_eqb p $"a.json" then Some (File $"[1]") else None;
                             w_readable := fun _ => true; w_writable := fun _ => true |}.
Example C65_unknown_example :
  look_up (ByText $"JSON") (formats env0 wrap65 load65) = None
  /\ format_read env0 (formats env0 wrap65 load65) None w65 $"a.json" (Some (ByText $"JSON")) None false = py ValueError
  /\ format_read env0 (formats env0 wrap65 load65) None w65 $"a.json" None None false = Ok (VList [VInt 1]).
Proof. split; [reflexivity|]. split; vm_compute; reflexivity. Qed.

(** C65.  A named format class reads and writes in its own format when none is given, whatever the
    extension and the registry; a given one takes precedence. *)
Theorem C65_format_of_class :
  forall E reg f w path schema quiet v k,
    fm_name f <> [] ->
    (forall text, path <> [] -> w_readable w path = true -> w_node w path = Some (File text) ->
       format_read E reg (Some f) w path None schema quiet
       = format_read E [(ByClass (fm_class f), f)] None w path (Some (ByClass (fm_class f))) schema quiet)
    /\ format_write E reg (Some f) w path v None schema
       = format_write E [(ByClass (fm_class f), f)] None w path v (Some (ByClass (fm_class f))) schema
    /\ (k <> ByText [] ->
        format_read E reg (Some f) w path (Some k) schema quiet = format_read E reg None w path (Some k) schema quiet
        /\ format_write E reg (Some f) w path v (Some k) schema = format_write E reg None w path v (Some k) schema).
Proof. exact format_of_class. Qed.
Print Assumptions C65_format_of_class.

Example C65_class_example :
  format_read env0 (formats env0 wrap65 load65) (Some f65) w65 $"a.json" None None false = Ok VNone.
Proof. vm_compute. reflexivity. Qed.

(** C65.  Not so when an extension is registered with a capital: a file with exactly that extension is
    refused, since the extension of the path is lower-cased before the lookup but not that of the format. *)
Theorem C65_extension_case_refuted :
  exists E f path,
    registrable f /\ keyed f (ByText $".TXT") /\ path_with path $"TXT"
    /\ forall w v schema, format_write E (register_all [f] []) None w path v None schema = (py ValueError, w).
Proof. exact extension_case_refuted. Qed.
Print Assumptions C65_extension_case_refuted.

(** C66.  After a write that succeeded, reading the same path with the same format gives what the
    format makes of the text it wrote, line ends having become ["\n"]; no other file has changed. *)
Theorem C66_write_then_read :
  forall E reg cls w w' path v format schema quiet,
    format_write E reg cls w path v format schema = (Ok tt, w') ->
    path <> [] -> w_readable w path = true ->
    exists f text text',
      fm_serialize f v schema = Ok text /\ newlines text text'
      /\ format_read E reg cls w' path format schema quiet = fm_unserialize f text' schema
      /\ only_changed path w w'.
Proof. exact write_then_read. Qed.
Print Assumptions C66_write_then_read.

Example C66_write_read_example :
  let reg := formats env0 wrap65 load65 in
  let v := VDict false [(VStr $"a", VList [VInt 1; VNone])] in
  let r := format_write env0 reg None w65 $"b.json" v None None in
  fst r = Ok tt /\ format_read env0 reg None (snd r) $"b.json" None None false = Ok v
  /\ format_read env0 reg None (snd r) $"a.json" None None false = Ok (VList [VInt 1]).
Proof. vm_compute. repeat split. Qed.

(** C66.  If the text has no carriage return, that is the round trip of the format. *)
Theorem C66_write_then_read_plain :
  forall E reg w w' path v k f text schema quiet,
    look_up k reg = Some f -> k <> ByText [] -> fm_serialize f v schema = Ok text -> ~ In 13%N text ->
    format_write E reg None w path v (Some k) schema = (Ok tt, w') ->
    path <> [] -> w_readable w path = true ->
    format_read E reg None w' path (Some k) schema quiet = fm_unserialize f text schema.
Proof. exact write_then_read_plain. Qed.
Print Assumptions C66_write_then_read_plain.

Example C66_plain_example :
  let reg := formats env0 wrap65 load65 in
  look_up (ByText $"text/plain") reg = Some (StructuredText env0)
  /\ (do t <- fm_serialize (StructuredText env0) (VList [VInt 1; VStr $"a"]) None; Ok (existsb (N.eqb 13) t)) = Ok false
  /\ fst (format_write env0 reg None w65 $"b" (VList [VInt 1; VStr $"a"]) (Some (ByText $"text/plain")) None) = Ok tt.
Proof. split; [reflexivity|]. split; vm_compute; reflexivity. Qed.

(** C66.  The files are written in UTF-8, which has no surrogates: where the file may be opened and
    the value has a text, exactly the texts without code points from D800 to DFFF are written; the others
    are a UnicodeError and leave the file empty. *)
Theorem C66_write_encodes :
  forall E reg w path v k f text schema,
    look_up k reg = Some f -> k <> ByText [] -> fm_serialize f v schema = Ok text ->
    w_writable w path = true -> w_node w path <> Some Folder ->
    let out := format_write E reg None w path v (Some k) schema in
    ((forall c, In c text -> ~ (0xD800 <= c <= 0xDFFF)%N) -> fst out = Ok tt /\ w_node (snd out) path = Some (File text))
    /\ (forall c, In c text -> (0xD800 <= c <= 0xDFFF)%N -> fst out = py UnicodeError /\ w_node (snd out) path = Some (File [])).
Proof. exact write_encodes. Qed.
Print Assumptions C66_write_encodes.

Example C66_surrogates_example :
  let reg := formats env0 wrap65 load65 in
  let out c := format_write env0 reg None w65 $"b" (VStr [c]) (Some (ByText $"text/plain")) None in
  fst (out 55295%N) = Ok tt /\ fst (out 55296%N) = py UnicodeError /\ fst (out 57343%N) = py UnicodeError /\ fst (out 57344%N) = Ok tt
  /\ w_node (snd (out 55296%N)) $"b" = Some (File []).
Proof. vm_compute. repeat split. Qed.

(** C66.  A file of JSON holds what was written: writing any value JSON can carry succeeds wherever
    the file may be opened, and reading gives the value back as its JSON round trip does. *)
Theorem C66_json_file :
  forall E wrap load w path v x k schema schema' quiet,
    json E v x -> keyed (Json E) k ->
    path <> [] -> w_readable w path = true -> w_writable w path = true -> w_node w path <> Some Folder ->
    exists w',
      format_write E (formats E wrap load) None w path v (Some k) schema = (Ok tt, w')
      /\ format_read E (formats E wrap load) None w' path (Some k) schema' quiet = Ok x
      /\ only_changed path w w'.
Proof. exact json_file. Qed.
Print Assumptions C66_json_file.

Example C66_json_example :
  let v := VDict false [(VStr $"a", VTuple [VInt 1; VBool true])] in
  let x := VDict false [(VStr $"a", VList [VInt 1; VBool true])] in
  (do t <- json_serialize env0 v; json_unserialize env0 t) = Ok x
  /\ keyed (Json env0) (ByText $"application/json")
  /\ w_writable w65 $"c" = true /\ w_node w65 $"c" = None.
Proof. repeat split. right. left. split; [discriminate|reflexivity]. Qed.

(** C66.  Reading a file that is not there (or the empty path) raises ValueError, or returns [False]
    if quiet; and a field then processes that [False]. *)
Theorem C66_read_missing :
  forall E desc recon n reg cls w path format schema quiet f,
    path = [] \/ w_node w path = None ->
    format_read E reg cls w path format schema quiet = (if quiet then Ok (VBool false) else py ValueError)
    /\ field_read E desc recon n reg w f path format quiet
       = (if quiet then process_gen E desc recon n f false Inbound true [] (VBool false) else py ValueError).
Proof. exact read_missing. Qed.
Print Assumptions C66_read_missing.

Example C66_missing_example :
  w_node w65 $"z.json" = None
  /\ field_read env0 nodesc norecon 3 (formats env0 wrap65 load65) w65 (Fld p0 KBoolean) $"z.json" None true = Ok (VBool false).
Proof. split; vm_compute; reflexivity. Qed.

(** C66.  A file that cannot be opened or is not text raises, whatever the format. *)
Theorem C66_read_unreadable :
  forall E reg cls w path format schema quiet,
    w_readable w path = false \/ w_node w path = Some Folder \/ w_node w path = Some Broken ->
    forall v, format_read E reg cls w path format schema quiet = Ok v -> quiet = true /\ v = VBool false /\ (path = [] \/ w_node w path = None).
Proof. exact read_unreadable. Qed.
Print Assumptions C66_read_unreadable.

Example C66_unreadable_example :
  let w := {| w_node := fun _ => Some Folder; w_readable := fun _ => true; w_writable := fun _ => true |} in
  format_read env0 (formats env0 wrap65 load65) None w $"x.json" None None true = py OSError.
Proof. vm_compute. reflexivity. Qed.

(** C66.  Not so for CSV: its lines end with ["\r\n"], the file is read with ["\n"] instead, and
    [Csv.unserialize] splits at ["\r\n"] only.  Every table with a column and a row that was written to a
    file cannot be read back: [csv.Error]. *)
Theorem C66_csv_files_unreadable :
  forall E v text text' schema,
    csv_serialize E VNone [] v schema = Ok text -> newlines text text' ->
    (exists header first rest, text = csv_row header ++ csv_row first ++ rest /\ header <> [] /\ first <> []) ->
    csv_unserialize E text' schema = py (OtherError 0).
Proof. exact csv_files_unreadable. Qed.
Print Assumptions C66_csv_files_unreadable.

Definition s66 : field := Fld p0 (KSequence (Fld p0 (KStructure (SPlain [($"age", Fld p0 (KInteger None None)); ($"name", Fld p0 (KText None None None true))]) false None)) None None false).
Definition v66 : val := VList [VDict false [(VStr $"age", VInt 3); (VStr $"name", VStr $"x")]].
Example C66_csv_example :
  csv_serialize env0 VNone [] v66 s66 = Ok (csv_row [$"age"; $"name"] ++ csv_row [$"3"; $"x"] ++ []).
Proof. vm_compute. reflexivity. Qed.

(** C66.  The property fails for CSV: here is a table the format gives back when the text is passed
    directly, which is written without an error and cannot be read. *)
Theorem C66_csv_file_refuted :
  exists E wrap load w path v schema,
    let reg := formats E wrap load in
    (do t <- csv_serialize E VNone [] v schema; csv_unserialize E t schema) = Ok v
    /\ fst (format_write E reg None w path v None (Some schema)) = Ok tt
    /\ format_read E reg None (snd (format_write E reg None w path v None (Some schema))) path None (Some schema) false
       = py (OtherError 0).
Proof. exact csv_file_refuted. Qed.
Print Assumptions C66_csv_file_refuted.

(** C67.  The value is processed before the file is opened: whatever error the field raises, no file
    has changed. *)
Theorem C67_write_validates_first :
  forall E desc recon n reg w f path v format x,
    process_gen E desc recon n f false Outbound true [] v = Raise x ->
    field_write E desc recon n reg w f path v format = (Raise x, w).
Proof. exact write_validates_first. Qed.
Print Assumptions C67_write_validates_first.

Definition f67 : field := Fld p0 (KInteger (Some 5%Z) None).
Example C67_validates_example :
  let r := field_write env0 nodesc norecon 3 (formats env0 wrap65 load65) w65 f67 $"a.json" (VInt 4) None in
  (match fst r with Raise (XErr _) => true | _ => false end) = true /\ w_node (snd r) $"a.json" = Some (File $"[1]").
Proof. vm_compute. split; reflexivity. Qed.

(** C67.  Nor has any file changed when the format is unknown or the path cannot be opened. *)
Theorem C67_write_refused :
  forall E desc recon n reg w f path v format,
    (forall k g, look_up k reg = Some g -> w_writable w path = false \/ w_node w path = Some Folder) ->
    exists x, field_write E desc recon n reg w f path v format = (Raise x, w).
Proof. exact write_refused. Qed.
Print Assumptions C67_write_refused.

Example C67_refused_example :
  let w := {| w_node := fun _ => Some Folder; w_readable := fun _ => true; w_writable := fun _ => true |} in
  field_write env0 nodesc norecon 3 (formats env0 wrap65 load65) w (Fld p0 KBoolean) $"x.json" (VBool true) None = (py OSError, w).
Proof. vm_compute. reflexivity. Qed.

(** C67.  A format that fails after the file was opened leaves it empty, whatever it held; other files
    are as before. *)
Theorem C67_write_truncates :
  forall E desc recon n reg w f path v v' k g x,
    process_gen E desc recon n f false Outbound true [] v = Ok v' ->
    look_up k reg = Some g -> k <> ByText [] -> fm_serialize g v' (Some f) = Raise x ->
    w_writable w path = true -> w_node w path <> Some Folder ->
    exists w', field_write E desc recon n reg w f path v (Some k) = (Raise x, w')
               /\ w_node w' path = Some (File []) /\ only_changed path w w'.
Proof. exact write_truncates. Qed.
Print Assumptions C67_write_truncates.

Example C67_truncates_example : (* the csv format writes sequences only *)
  let f := Fld p0 KBoolean in
  process_gen env0 nodesc norecon 3 f false Outbound true [] (VBool true) = Ok (VBool true)
  /\ fm_serialize (Csv env0) (VBool true) (Some f) = py ValueError
  /\ w_node w65 $"a.json" = Some (File $"[1]")
  /\ (let r := field_write env0 nodesc norecon 3 (formats env0 wrap65 load65) w65 f $"a.json" (VBool true) (Some (ByText $"csv")) in
      fst r = py ValueError /\ w_node (snd r) $"a.json" = Some (File [])).
Proof. repeat split; vm_compute; reflexivity. Qed.

(** C67.  So a write ends in one of three ways: it succeeded and the file holds exactly the text of the
    format; it failed and all files are as before; or it failed and the file is empty.  Other files never
    change. *)
Theorem C67_write_outcomes :
  forall E desc recon n reg w f path v format r w',
    field_write E desc recon n reg w f path v format = (r, w') ->
    only_changed path w w'
    /\ ((r = Ok tt /\ exists v' g text, process_gen E desc recon n f false Outbound true [] v = Ok v'
                                        /\ fm_serialize g v' (Some f) = Ok text /\ w_node w' path = Some (File text))
        \/ (exists x, r = Raise x) /\ same_files w w'
        \/ (exists x v', r = Raise x /\ process_gen E desc recon n f false Outbound true [] v = Ok v') /\ w_node w' path = Some (File [])).
Proof. exact write_outcomes. Qed.
Print Assumptions C67_write_outcomes.

Example C67_outcomes_example :
  let r := field_write env0 nodesc norecon 3 (formats env0 wrap65 load65) w65 f67 $"a.json" (VInt 7) None in
  fst r = Ok tt /\ w_node (snd r) $"a.json" = Some (File $"7").
Proof. vm_compute. repeat split. Qed.

(** C61.  Through a field the format is of no use: serializing raises the error of the field or
    TypeError, unserializing always raises TypeError. *)
Theorem C61_urlencoded_fields :
  forall E wrap load desc recon n f v s k,
    keyed UrlEncoded k ->
    let reg := formats E wrap load in
    (forall v', process_gen E desc recon n f false Outbound true [] v = Ok v' ->
                field_serialize E desc recon n reg f v (Some k) = py TypeError)
    /\ (forall x, process_gen E desc recon n f false Outbound true [] v = Raise x ->
                  field_serialize E desc recon n reg f v (Some k) = Raise x)
    /\ field_unserialize E desc recon n reg f s k = py TypeError.
Proof. exact urlencoded_fields. Qed.
Print Assumptions C61_urlencoded_fields.

Example C61_fields_example :
  keyed UrlEncoded (ByText $"urlencoded")
  /\ field_serialize env0 nodesc norecon 3 (formats env0 wrap65 load65) (Fld p0 KBoolean) (VBool true) (Some (ByText $"urlencoded")) = py TypeError.
Proof. split; [left; reflexivity|vm_compute; reflexivity]. Qed.

(** C65.  A field hands the outcome of its processing to the format named by the argument,
    together with itself as the schema, and processes what that format reads. *)
Theorem C65_field_formats :
  forall E wrap load desc recon n f fm k v s,
    In fm (builtin E wrap load) -> keyed fm k -> k <> ByText [] ->
    let reg := formats E wrap load in
    (forall w t, process_gen E desc recon n f false Outbound true [] v = Ok w ->
       (field_serialize E desc recon n reg f v (Some k) = Ok (VStr t) <-> fm_serialize fm w (Some f) = Ok t)
       /\ field_serialize E desc recon n reg f v None = Ok w
       /\ forall x, field_serialize E desc recon n reg f v (Some k) = Raise x <-> fm_serialize fm w (Some f) = Raise x)
    /\ (forall w, fm_unserialize fm s (Some f) = Ok w ->
          field_unserialize E desc recon n reg f s k = process_gen E desc recon n f false Inbound true [] w)
    /\ (forall x, fm_unserialize fm s (Some f) = Raise x -> field_unserialize E desc recon n reg f s k = Raise x).
Proof. exact field_formats. Qed.
Print Assumptions C65_field_formats.

Example C65_csv_field_example :
  let f := Fld p0 (KSequence (Fld p0 (KStructure (SPlain [($"a", Fld (p_named $"a") KBoolean)]) true None)) None None false) in
  let v := VList [VDict false [(VStr $"a", VBool true)]] in
  keyed (Csv env0) (ByText $"csv")
  /\ field_serialize env0 nodesc norecon 3 (formats env0 wrap65 load65) f v (Some (ByText $"csv"))
     = (do t <- fm_serialize (Csv env0) v (Some f); Ok (VStr t))
  /\ exists t, fm_serialize (Csv env0) v (Some f) = Ok t /\ fm_serialize (Csv env0) v None = py ValueError.
Proof. split; [left; reflexivity|]. split; [vm_compute; reflexivity|]. eexists. split; vm_compute; reflexivity. Qed.
