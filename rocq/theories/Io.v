(** * The registry of formats, and reading and writing files. *)
From Verif Require Export UrlText CsvText XmlText JsonText YamlText.

(** ** Formats and their registry *)

(** What formats are looked up by: a text (a name, a mimetype or an extension) or a format class.
    /repo/scheme/format.py:13-22 *)
Inductive key := ByText (s : str) | ByClass (c : nat).

(** Equality of keys.  /repo/scheme/format.py:44 *)
Definition key_eqb (a b : key) : bool :=
  match a, b with
  | ByText s, ByText t => str_eqb s t
  | ByClass c, ByClass d => (c =? d)%nat
  | _, _ => false
  end.

(** [if format] of a format argument: [None] and the empty text count as none.
    /repo/scheme/format.py:43, 70; /repo/scheme/field.py:500, 519 *)
Definition given (format : option key) : option key :=
  match format with Some (ByText []) => None | _ => format end.

(** A subclass of [Format]: its identity, its class attributes (an empty text for [None]) and what its
    [serialize] and [unserialize] do with a value or text and the schema.  Further keyword parameters
    are not modelled.  /repo/scheme/format.py:25-33 *)
Record format := {
  fm_class : nat;
  fm_name : str;
  fm_mimetype : str;
  fm_extensions : list str;
  fm_serialize : val -> option field -> res str;
  fm_unserialize : str -> option field -> res val
}.

(** [Format.formats].  /repo/scheme/format.py:29 *)
Definition registry := list (key * format).

(** [cls.formats[k]], and [k in cls.formats].  /repo/scheme/format.py:44-45, 52-53, 62, 66, 71-72, 79-80 *)
Fixpoint look_up (k : key) (reg : registry) : option format :=
  match reg with
  | [] => None
  | (k', f) :: reg' => if key_eqb k k' then Some f else look_up k reg'
  end.

(** [format.formats[k] = format].  /repo/scheme/format.py:16, 18, 20, 22 *)
Fixpoint put (k : key) (f : format) (reg : registry) : registry :=
  match reg with
  | [] => [(k, f)]
  | (k', f') :: reg' => if key_eqb k k' then (k', f) :: reg' else (k', f') :: put k f reg'
  end.

(** The loop over the extensions; [extension[0]] of an empty one is an IndexError ([false]).
    /repo/scheme/format.py:13-16 *)
Fixpoint put_extensions (f : format) (extensions : list str) (reg : registry) : registry * bool :=
  match extensions with
  | [] => (reg, true)
  | [] :: _ => (reg, false)
  | ((c :: _) as extension) :: rest =>
      put_extensions f rest (if (c =? 46)%N then put (ByText extension) f reg else reg)
  end.

(** [FormatMeta.__new__]: what creating a class does to the registry.  /repo/scheme/format.py:7-23 *)
Definition register (f : format) (reg : registry) : registry * res unit :=
  match fm_name f with
  | [] => (reg, Ok tt)
  | name =>
      match put_extensions f (fm_extensions f) reg with
      | (reg, false) => (reg, py IndexError)
      | (reg, true) =>
          let reg := put (ByText name) f reg in
          let reg := match fm_mimetype f with [] => reg | mimetype => put (ByText mimetype) f reg end in
          (put (ByClass (fm_class f)) f reg, Ok tt)
      end
  end.

(** Classes created one after the other.  /repo/scheme/formats/__init__.py:1-6 *)
Definition register_all (fs : list format) (reg : registry) : registry :=
  fold_left (fun reg f => fst (register f reg)) fs reg.

Section Io.
Context (E : env).
(** [textwrap] (see YamlText.v) and [yaml.load], which are not modelled.
    /repo/scheme/formats/yaml.py:41-43 *)
Context (wrap : str -> str -> list str) (load : str -> res val).

(** ** The formats of the library, in the order of their creation.  /repo/scheme/formats/__init__.py:1-6 *)

(** /repo/scheme/formats/csv.py:16-19, 31-44, 83-86 *)
Definition Csv : format := {|
  fm_class := 0; fm_name := $"csv"; fm_mimetype := $"application/csv"; fm_extensions := [$".csv"];
  fm_serialize v schema := match schema with Some f => csv_serialize E VNone [] v f | None => py ValueError end;
  fm_unserialize s schema := match schema with Some f => csv_unserialize E s f | None => py TypeError end |}.

(** /repo/scheme/formats/json.py:9-20 *)
Definition Json : format := {|
  fm_class := 1; fm_name := $"json"; fm_mimetype := $"application/json"; fm_extensions := [$".json"];
  fm_serialize v _ := json_serialize E v;
  fm_unserialize s _ := json_unserialize E s |}.

(** /repo/scheme/formats/structuredtext.py:10-29 *)
Definition StructuredText : format := {|
  fm_class := 2; fm_name := $"structuredtext"; fm_mimetype := $"text/plain"; fm_extensions := [];
  fm_serialize v _ := st_serialize E v;
  fm_unserialize s _ := st_unserialize E false s |}.

(** [serialize] and [unserialize] of [UrlEncoded] take no schema, but are called with one by everything
    in this file: a TypeError.  /repo/scheme/formats/urlencoded.py:16-21, 31-32 *)
Definition UrlEncoded : format := {|
  fm_class := 3; fm_name := $"urlencoded"; fm_mimetype := $"application/x-www-form-urlencoded"; fm_extensions := [];
  fm_serialize _ _ := py TypeError;
  fm_unserialize _ _ := py TypeError |}.

(** /repo/scheme/formats/xml.py:10-39 *)
Definition Xml : format := {|
  fm_class := 4; fm_name := $"xml"; fm_mimetype := $"application/xml"; fm_extensions := [$".xml"];
  fm_serialize v schema := match schema with Some f => xml_serialize E true v f | None => py TypeError end;
  fm_unserialize s schema := match schema with Some f => xml_unserialize E s f | None => py TypeError end |}.

(** /repo/scheme/formats/yaml.py:23-43 *)
Definition Yaml : format := {|
  fm_class := 5; fm_name := $"yaml"; fm_mimetype := $"application/x-yaml"; fm_extensions := [$".yaml"; $".yml"];
  fm_serialize v _ := yaml_serialize E wrap v;
  fm_unserialize s _ := load s |}.

(** The imports.  /repo/scheme/formats/__init__.py:1-6 *)
Definition builtin : list format := [Csv; Json; StructuredText; UrlEncoded; Xml; Yaml].

(** The registry after importing the library.  /repo/scheme/formats/__init__.py:1-6 *)
Definition formats : registry := register_all builtin [].

(** ** Files *)

(** What is found at a path: a text (of Python characters other than surrogates, in the encoding of the
    locale), bytes that are no text, or a directory.  Different paths are different files here.
    /repo/scheme/format.py:37, 57, 84 *)
Inductive node := File (s : str) | Broken | Folder.

(** The files, and the paths that may be opened for reading and for writing: permissions, existing parent
    directories and the like.  /repo/scheme/format.py:57, 84 *)
Record world := {
  w_node : str -> option node;
  w_readable : str -> bool;
  w_writable : str -> bool
}.

(** The files after writing one.  /repo/scheme/format.py:84-85 *)
Definition set_file (w : world) (path text : str) : world :=
  {| w_node := fun p => if str_eqb p path then Some (File text) else w_node w p;
     w_readable := w_readable w; w_writable := w_writable w |}.

(** [OSError], of which [IOError] is another name.  Raised at /repo/scheme/format.py:57-58, 84-85 *)
Definition OSError : pyexc := IOError.

(** The lines of a text file end with ["\n"], ["\r"] or ["\r\n"] and are read with ["\n"].
    /repo/scheme/format.py:57-58 *)
Fixpoint universal (s : str) : str :=
  match s with
  | [] => []
  | c :: s' =>
      if (c =? 13)%N then
        10%N :: match s' with d :: s'' => if (d =? 10)%N then universal s'' else universal s' | [] => [] end
      else c :: universal s'
  end.

(** [with open(path) as openfile: openfile.read()].  /repo/scheme/format.py:57-58 *)
Definition read_file (w : world) (path : str) : res str :=
  if w_readable w path then
    match w_node w path with
    | Some (File s) => Ok (universal s)
    | Some Broken => py UnicodeError
    | _ => py OSError
    end
  else py OSError.

(** [open(path, 'w+')]: the file becomes empty.  /repo/scheme/format.py:84 *)
Definition open_new (w : world) (path : str) : res world :=
  match w_node w path with
  | Some Folder => py OSError
  | _ => if w_writable w path then Ok (set_file w path []) else py OSError
  end.

(** A text with surrogates cannot be encoded.  /repo/scheme/format.py:85 *)
Definition encodable (s : str) : bool := forallb (fun c => negb ((55296 <=? c) && (c <? 57344))%N) s.

(** [os.path.splitext(path)[-1]]: the last point of the last part of the path and what follows, unless
    only points come before it.  /repo/scheme/format.py:51, 78 *)
Definition splitext (path : str) : str :=
  let base := lstrip (N.eqb 46) (last (split_on 47 path) []) in
  match rev (split_on 46 base) with
  | extension :: _ :: _ => 46%N :: extension
  | _ => []
  end.

(** The format of [Format.read] and [Format.write]; [cls] is the class they are called on, [None] for
    [Format] itself, which has no name.  /repo/scheme/format.py:43-55, 70-82 *)
Definition resolve (reg : registry) (cls : option format) (format : option key) (path : str) : res Io.format :=
  match given format with
  | Some k => match look_up k reg with Some f => Ok f | None => py ValueError end
  | None =>
      let by_extension := match look_up (ByText (lower (e_ulower E) (splitext path))) reg with
                          | Some f => Ok f
                          | None => py ValueError
                          end in
      match cls with
      | Some f => match fm_name f with [] => by_extension | _ => Ok f end
      | None => by_extension
      end
  end.

(** [Format.read].  /repo/scheme/format.py:35-58 *)
Definition format_read (reg : registry) (cls : option format) (w : world) (path : str) (format : option key)
    (schema : option field) (quiet : bool) : res val :=
  match path, w_node w path with
  | _ :: _, Some _ =>
      do f <- resolve reg cls format path;
      do text <- read_file w path;
      fm_unserialize f text schema
  | _, _ => if quiet then Ok (VBool false) else py ValueError
  end.

(** [Format.write]: what is returned and the files afterwards.  /repo/scheme/format.py:68-85 *)
Definition format_write (reg : registry) (cls : option format) (w : world) (path : str) (value : val)
    (format : option key) (schema : option field) : res unit * world :=
  match resolve reg cls format path with
  | Raise x => (Raise x, w)
  | Ok f =>
      match open_new w path with
      | Raise x => (Raise x, w)
      | Ok w0 =>
          match fm_serialize f value schema with
          | Raise x => (Raise x, w0)
          | Ok text => if encodable text then (Ok tt, set_file w path text) else (py UnicodeError, w0)
          end
      end
  end.

(** [Format.serialize] and [Format.unserialize].  /repo/scheme/format.py:60-66 *)
Definition format_serialize (reg : registry) (value : val) (format : key) (schema : option field) : res str :=
  match look_up format reg with Some f => fm_serialize f value schema | None => py KeyError end.
(** /repo/scheme/format.py:60-66 *)
Definition format_unserialize (reg : registry) (text : str) (format : key) (schema : option field) : res val :=
  match look_up format reg with Some f => fm_unserialize f text schema | None => py KeyError end.

(** ** Fields *)
Context (desc : field -> res val) (recon : val -> res field) (n : nat).

(** [Field.serialize].  /repo/scheme/field.py:495-502 *)
Definition field_serialize (reg : registry) (f : field) (value : val) (format : option key) : res val :=
  do v <- process_gen E desc recon n f false Outbound true [] value;
  match given format with
  | Some k => do t <- format_serialize reg v k (Some f); Ok (VStr t)
  | None => Ok v
  end.

(** [Field.unserialize] of a text from a format, or of any value without one.
    /repo/scheme/field.py:515-521 *)
Definition field_unserialize (reg : registry) (f : field) (text : str) (format : key) : res val :=
  do v <- format_unserialize reg text format (Some f);
  process_gen E desc recon n f false Inbound true [] v.

(** [Field.read].  /repo/scheme/field.py:477-482 *)
Definition field_read (reg : registry) (w : world) (f : field) (path : str) (format : option key) (quiet : bool) : res val :=
  do v <- format_read reg None w path format (Some f) quiet;
  process_gen E desc recon n f false Inbound true [] v.

(** [Field.write].  /repo/scheme/field.py:535-540 *)
Definition field_write (reg : registry) (w : world) (f : field) (path : str) (value : val) (format : option key) : res unit * world :=
  match process_gen E desc recon n f false Outbound true [] value with
  | Raise x => (Raise x, w)
  | Ok v => format_write reg None w path v format (Some f)
  end.

End Io.
