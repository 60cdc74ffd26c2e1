(** * The XML format, with the parts of [xml.etree] it uses. *)
From Verif Require Export CsvText.

(** An element of [xml.etree]: tag, attributes, text before the first child, children.  The text after
    a child ([tail]) is never looked at and left out.  Used at /repo/scheme/formats/xml.py:23, 53 *)
Inductive elem := Elem (tag : str) (attrs : list (str * str)) (text : option str) (children : list elem).

Section Xml.
Context (E : env).

(** ** From values to elements *)

(** [name or otherwise].  /repo/scheme/formats/xml.py:23, 62, 69 *)
Definition tag_or (otherwise : str) (name : option str) : str :=
  match name with None | Some [] => otherwise | Some s => s end.

(** [field.name or otherwise] of the field in a slot; an undefined placeholder has no [name].
    /repo/scheme/formats/xml.py:62, 69 *)
Definition slot_tag (otherwise : str) (f : field) : res str :=
  match f with
  | Fld p _ => Ok (tag_or otherwise (p_name p))
  | FUndef n => match e_undef E n with Some (Fld p _) => Ok (tag_or otherwise (p_name p)) | _ => py AttributeError end
  end.

(** [field.structure[key]]: the kind of the field there.  The entries of a polymorphic structure are
    dicts, which have no [type]: [None].  /repo/scheme/formats/xml.py:54, 92 *)
Definition structure_slot (d : sdef) (key : str) : res (option kind) :=
  match d with
  | SPlain l => match get l key with Some f => Ok (kind_at E f) | None => py KeyError end
  | SPoly _ vs => if existsb (fun vl => veq (e_local E) (fst vl) (VStr key)) vs then Ok None else py KeyError
  end.

(** The children, one after the other.  /repo/scheme/formats/xml.py:42-74 *)
Fixpoint in_turn {A} (l : list (res A)) : res (list A) :=
  match l with
  | [] => Ok []
  | x :: l' => do a <- x; do r <- in_turn l'; Ok (a :: r)
  end.

(** [Xml._serialize_content] into a new element with the given tag; [slot] is the kind of the field, or
    [None] for an object without [type].  A key that is not a text fails at the latest in
    [etree.tostring]; here it fails at once.  Sequences and tuples of other Python types than lists
    and tuples are not modelled.  /repo/scheme/formats/xml.py:41-74 *)
Fixpoint xml_element (v : val) (tag : str) (slot : option kind) {struct v} : res elem :=
  match v with
  | VNone => Ok (Elem tag [($"null", $"true")] None [])
  | _ =>
      match slot with
      | None => py AttributeError
      | Some KBoolean => Ok (Elem tag [] (Some (if truthy v then $"true" else $"false")) [])
      | Some (KStructure d _ _) =>
          if negb (truthy v) then Ok (Elem tag [] None []) else
          match v with
          | VDict _ l | VSurr _ _ _ l =>
              do items <- sorted_items
                (map (fun kv => (fst kv, match fst kv with
                                         | VStr key => do slot' <- structure_slot d key; xml_element (snd kv) key slot'
                                         | _ => py KeyError
                                         end)) l);
              do children <- in_turn (map snd items);
              Ok (Elem tag [] None children)
          | _ => py AttributeError
          end
      | Some (KMap f _ _) =>
          if negb (truthy v) then Ok (Elem tag [] None []) else
          match v with
          | VDict _ l | VSurr _ _ _ l =>
              do items <- sorted_items
                (map (fun kv => (fst kv, match fst kv with
                                         | VStr key => xml_element (snd kv) key (kind_at E f)
                                         | _ => py TypeError
                                         end)) l);
              do children <- in_turn (map snd items);
              Ok (Elem tag [] None children)
          | _ => py AttributeError
          end
      | Some (KSequence f _ _ _) =>
          if negb (truthy v) then Ok (Elem tag [] None []) else
          match v with
          | VList l | VTuple l =>
              do title <- slot_tag $"item" f;
              do children <- in_turn (map (fun x => xml_element x title (kind_at E f)) l);
              Ok (Elem tag [] None children)
          | _ => outside
          end
      | Some (KTuple fs) =>
          if negb (truthy v) then Ok (Elem tag [] None []) else
          match v with
          | VList l | VTuple l =>
              do children <- (fix go (fs : list field) (l : list val) {struct l} : res (list elem) :=
                                match l, fs with
                                | x :: l', f :: fs' =>
                                    do title <- slot_tag $"value" f;
                                    do e <- xml_element x title (kind_at E f);
                                    do r <- go fs' l';
                                    Ok (e :: r)
                                | _, _ => Ok []
                                end) fs l;
              Ok (Elem tag [] None children)
          | _ => outside
          end
      | Some (KUnion _) => py NotImplementedError
      | Some _ => Ok (Elem tag [] (Some (text_of E v)) [])
      end
  end.

(** ** From elements to values *)

(** [float(element.text)] and [int(element.text)].  /repo/scheme/formats/xml.py:84, 86 *)
Definition number_text {A} (parse : str -> option A) (text : option str) : res A :=
  match text with
  | None => py TypeError
  | Some s => match parse s with Some x => Ok x | None => py ValueError end
  end.

(** [dict(...)] of pairs.  /repo/scheme/formats/xml.py:88, 92 *)
Definition dict_of (pairs : list (str * val)) : val :=
  VDict false (map (fun kv => (VStr (fst kv), snd kv)) (fold_left (fun d kv => aset (fst kv) (snd kv) d) pairs [])).

(** [element.tag].  /repo/scheme/formats/xml.py:77-100 *)
Definition tag_of (e : elem) : str := let 'Elem tag _ _ _ := e in tag.

(** [Xml._unserialize_element].  /repo/scheme/formats/xml.py:76-100 *)
Fixpoint xml_value (e : elem) (slot : option kind) {struct e} : res val :=
  let 'Elem tag attrs text children := e in
  match aget $"null" attrs with
  | Some (_ :: _) => Ok VNone
  | _ =>
      match slot with
      | None => py AttributeError
      | Some KBoolean =>
          match text with
          | None => py AttributeError
          | Some s => Ok (VBool (str_eqb (lower (e_ulower E) s) $"true"))
          end
      | Some (KFloat _ _) => do x <- number_text (parse_float (e_udigit E)) text; Ok (VFloat x)
      | Some (KInteger _ _) => do z <- number_text (parse_int (e_udigit E)) text; Ok (VInt z)
      | Some (KMap f _ _) =>
          do pairs <- in_turn (map (fun c => do v <- xml_value c (kind_at E f); Ok (tag_of c, v)) children);
          Ok (dict_of pairs)
      | Some (KSequence f _ _ _) =>
          do l <- in_turn (map (fun c => xml_value c (kind_at E f)) children);
          Ok (VList l)
      | Some (KStructure d _ _) =>
          do pairs <- in_turn (map (fun c => do slot' <- structure_slot d (tag_of c);
                                             do v <- xml_value c slot'; Ok (tag_of c, v)) children);
          Ok (dict_of pairs)
      | Some (KTuple fs) =>
          do l <- (fix go (fs : list field) (l : list elem) {struct l} : res (list val) :=
                     match l with
                     | [] => Ok []
                     | c :: l' =>
                         match fs with
                         | f :: fs' => do v <- xml_value c (kind_at E f); do r <- go fs' l'; Ok (v :: r)
                         | [] => py IndexError
                         end
                     end) fs children;
          Ok (VTuple l)
      | Some (KUnion _) => py NotImplementedError
      | Some _ => Ok (match text with None => VNone | Some s => VStr s end)
      end
  end.

(** ** Writing elements *)

(** [_escape_cdata] of [xml.etree.ElementTree].  Used at /repo/scheme/formats/xml.py:26 *)
Fixpoint escape_cdata (s : str) : str :=
  match s with
  | [] => []
  | c :: s' =>
      (if (c =? 38)%N then $"&amp;" else if (c =? 60)%N then $"&lt;" else if (c =? 62)%N then $"&gt;" else [c])
      ++ escape_cdata s'
  end.

(** [_serialize_xml].  The one attribute that is ever written needs no escaping.  Tags in braces, which
    are taken for qualified names, are not modelled.  Used at /repo/scheme/formats/xml.py:26 *)
Fixpoint xml_markup (e : elem) : str :=
  let 'Elem tag attrs text children := e in
  $"<" ++ tag ++ flat_map (fun kv => $" " ++ fst kv ++ [61; 34]%N ++ snd kv ++ [34%N]) attrs
  ++ match text, children with
     | (None | Some []), [] => $" />"
     | _, _ => $">" ++ (match text with Some s => escape_cdata s | None => [] end)
               ++ flat_map xml_markup children ++ $"</" ++ tag ++ $">"
     end.

(** Encoding as ASCII with [xmlcharrefreplace].  Used at /repo/scheme/formats/xml.py:26 *)
Definition to_ascii (s : str) : str :=
  flat_map (fun c => if (c <? 128)%N then [c] else $"&#" ++ N_text c ++ $";") s.

(** /repo/scheme/formats/xml.py:16 *)
Definition preamble : str := $"<?xml version=" ++ [34%N] ++ $"1.0" ++ [34%N] ++ $"?>".

(** [Xml.serialize] with a field.  /repo/scheme/formats/xml.py:18-30 *)
Definition xml_serialize (with_preamble : bool) (value : val) (schema : field) : res str :=
  do root <- slot_tag $"root" schema;
  do e <- xml_element value root (kind_at E schema);
  Ok ((if with_preamble then preamble else []) ++ to_ascii (xml_markup e)).

(** ** Reading elements *)

(** [ParseError] of [xml.etree].  Used at /repo/scheme/formats/xml.py:37 *)
Definition parse_error {A} : res A := py (OtherError 1).

(** What the XML parser (expat) reports; a character by itself or by a reference to it.  Used at /repo/scheme/formats/xml.py:37 *)
Inductive event := Start (tag : str) (attrs : list (str * str)) | End (tag : str) | Data (c : N) | Ref (c : N).

(** White space of XML.  Used at /repo/scheme/formats/xml.py:37 *)
Definition xml_white (c : N) : bool := (c =? 32)%N || (c =? 9)%N || (c =? 13)%N || (c =? 10)%N.
(** First characters of names.  Used at /repo/scheme/formats/xml.py:37 *)
Definition name_start (c : N) : bool :=
  ((65 <=? c)%N && (c <=? 90)%N) || ((97 <=? c)%N && (c <=? 122)%N) || (c =? 95)%N.
(** Characters of names.  Used at /repo/scheme/formats/xml.py:37 *)
Definition name_char (c : N) : bool :=
  name_start c || ((48 <=? c)%N && (c <=? 57)%N) || (c =? 45)%N || (c =? 46)%N.
(** Characters of texts.  Used at /repo/scheme/formats/xml.py:37 *)
Definition xml_char (c : N) : bool :=
  (c =? 9)%N || (c =? 10)%N || (c =? 13)%N || ((32 <=? c)%N && (c <? 55296)%N)
  || ((57344 <=? c)%N && (c <? 65534)%N) || ((65536 <=? c)%N && (c <? 1114112)%N).

(** The longest prefix of such characters, and the rest.  Used at /repo/scheme/formats/xml.py:37 *)
Fixpoint span (p : N -> bool) (s : str) : str * str :=
  match s with
  | c :: s' => if p c then (c :: fst (span p s'), snd (span p s')) else ([], s)
  | [] => ([], [])
  end.

(** Names with characters outside of ASCII and names with colons (name spaces) are not modelled.
    Used at /repo/scheme/formats/xml.py:37 *)
Definition foreign (c : N) : bool := (c =? 58)%N || (128 <=? c)%N.

(** A name at the front.  Used at /repo/scheme/formats/xml.py:37 *)
Definition read_name (s : str) : res (str * str) :=
  match s with
  | c :: _ =>
      if name_start c then
        match snd (span name_char s) with
        | d :: _ => if foreign d then outside else Ok (span name_char s)
        | [] => Ok (span name_char s)
        end
      else if foreign c then outside else parse_error
  | [] => parse_error
  end.

(** Digits of a character reference.  Used at /repo/scheme/formats/xml.py:37 *)
Definition hex_digit (c : N) : option N :=
  if (48 <=? c)%N && (c <=? 57)%N then Some (c - 48)%N
  else if (97 <=? c)%N && (c <=? 102)%N then Some (c - 87)%N
  else if (65 <=? c)%N && (c <=? 70)%N then Some (c - 55)%N
  else None.
(** The number of a character reference.  Used at /repo/scheme/formats/xml.py:37 *)
Fixpoint read_number (base : N) (acc : N) (s : str) : option N :=
  match s with
  | [] => Some acc
  | c :: s' => match hex_digit c with
               | Some d => if (d <? base)%N then read_number base (base * acc + d)%N s' else None
               | None => None
               end
  end.

(** The character a reference stands for, given what is between [&] and [;].
    Used at /repo/scheme/formats/xml.py:37 *)
Definition reference (s : str) : option N :=
  if str_eqb s $"amp" then Some 38%N
  else if str_eqb s $"lt" then Some 60%N
  else if str_eqb s $"gt" then Some 62%N
  else if str_eqb s $"quot" then Some 34%N
  else if str_eqb s $"apos" then Some 39%N
  else
    match (match s with
           | 35%N :: 120%N :: d :: s' => read_number 16 0 (d :: s')
           | 35%N :: d :: s' => read_number 10 0 (d :: s')
           | _ => None
           end) with
    | Some c => if xml_char c then Some c else None
    | None => None
    end.

(** The value of an attribute up to the closing quote; [ref] is what has been read of a reference, last
    character first.  White space becomes a blank, a line end one blank, and a character that is referred to
    stays as it is.  Used at /repo/scheme/formats/xml.py:37 *)
Fixpoint read_quoted (quote : N) (ref : option str) (s : str) : res (str * str) :=
  match s with
  | [] => parse_error
  | c :: s' =>
      match ref with
      | Some name =>
          if (c =? 59)%N then
            match reference (rev name) with
            | Some d => do r <- read_quoted quote None s'; Ok (d :: fst r, snd r)
            | None => parse_error
            end
          else read_quoted quote (Some (c :: name)) s'
      | None =>
          if (c =? quote)%N then Ok ([], s')
          else if (c =? 60)%N then parse_error
          else if (c =? 38)%N then read_quoted quote (Some []) s'
          else if negb (xml_char c) then parse_error
          else if (c =? 13)%N then
            match s' with
            | d :: s'' => do r <- (if (d =? 10)%N then read_quoted quote None s'' else read_quoted quote None s');
                          Ok (32%N :: fst r, snd r)
            | [] => parse_error
            end
          else do r <- read_quoted quote None s'; Ok ((if xml_white c then 32%N else c) :: fst r, snd r)
      end
  end.

(** The rest of a start tag after its name: attributes, and whether the element is empty.  The attribute
    [xmlns], which names a name space, is not modelled.
    Used at /repo/scheme/formats/xml.py:37 *)
Fixpoint read_attrs (fuel : nat) (attrs : list (str * str)) (s : str) : res (list (str * str) * bool * str) :=
  match fuel with
  | O => py RecursionError
  | S fuel' =>
      match snd (span xml_white s) with
      | [] => parse_error
      | c :: r =>
          if (c =? 62)%N then Ok (attrs, false, r)
          else if (c =? 47)%N then
            match r with d :: r' => if (d =? 62)%N then Ok (attrs, true, r') else parse_error | [] => parse_error end
          else match fst (span xml_white s) with
          | [] => parse_error
          | _ =>
              do n <- read_name (c :: r);
              match snd (span xml_white (snd n)) with
              | e :: r1 =>
                  if (e =? 61)%N then
                    match snd (span xml_white r1) with
                    | q :: r2 =>
                        if (q =? 34)%N || (q =? 39)%N then
                          do v <- read_quoted q None r2;
                          if str_eqb (fst n) $"xmlns" then outside else
                          match aget (fst n) attrs with
                          | Some _ => parse_error
                          | None => read_attrs fuel' (attrs ++ [(fst n, fst v)]) (snd v)
                          end
                        else parse_error
                    | [] => parse_error
                    end
                  else parse_error
              | [] => parse_error
              end
          end
      end
  end.

(** [s.startswith(p)].  Used at /repo/scheme/formats/xml.py:37 *)
Definition starts_with (p s : str) : bool := str_eqb (firstn (length p) s) p.

(** The next piece of a document: what it reports and the rest.  Comments, CDATA sections, processing
    instructions and document types are not modelled.  A line end is reported as LF; ']]>' must not
    appear.  Used at /repo/scheme/formats/xml.py:37 *)
Definition next_events (s : str) : res (list event * str) :=
  match s with
  | [] => parse_error
  | c :: s' =>
      if (c =? 60)%N then
        match s' with
        | [] => parse_error
        | d :: s'' =>
            if (d =? 33)%N || (d =? 63)%N then outside
            else if (d =? 47)%N then
              do n <- read_name s'';
              match snd (span xml_white (snd n)) with
              | e :: r => if (e =? 62)%N then Ok ([End (fst n)], r) else parse_error
              | [] => parse_error
              end
            else
              do n <- read_name s';
              do a <- read_attrs (S (length s)) [] (snd n);
              Ok (Start (fst n) (fst (fst a)) :: (if snd (fst a) then [End (fst n)] else []), snd a)
        end
      else if (c =? 38)%N then
        match span (fun d => negb (d =? 59)%N) s' with
        | (name, _ :: r) => match reference name with Some d => Ok ([Ref d], r) | None => parse_error end
        | (_, []) => parse_error
        end
      else if negb (xml_char c) then parse_error
      else if (c =? 13)%N then
        match s' with d :: s'' => Ok ([Data 10%N], if (d =? 10)%N then s'' else s') | [] => Ok ([Data 10%N], []) end
      else if (c =? 93)%N && starts_with $"]>" s' then parse_error
      else Ok ([Data c], s')
  end.

(** All of the text.  Used at /repo/scheme/formats/xml.py:37 *)
Fixpoint events (fuel : nat) (s : str) : res (list event) :=
  match s with
  | [] => Ok []
  | _ =>
      match fuel with
      | O => py RecursionError
      | S fuel' => do e <- next_events s; do r <- events fuel' (snd e); Ok (fst e ++ r)
      end
  end.

(** An element that is not closed yet: tag, attributes, text and children so far (last first).
    Used at /repo/scheme/formats/xml.py:37 *)
Record frame := { f_tag : str; f_attrs : list (str * str); f_text : str; f_children : list elem }.

(** The element of a frame.  Used at /repo/scheme/formats/xml.py:37 *)
Definition closed (f : frame) : elem :=
  Elem (f_tag f) (f_attrs f) (match f_text f with [] => None | t => Some (rev t) end) (rev (f_children f)).

(** [TreeBuilder.data]: characters before the first child are the text of the element.
    Used at /repo/scheme/formats/xml.py:37 *)
Definition characters (c : N) (f : frame) : frame :=
  match f_children f with
  | [] => {| f_tag := f_tag f; f_attrs := f_attrs f; f_text := c :: f_text f; f_children := [] |}
  | _ => f
  end.

(** [etree.TreeBuilder], with the checks of the parser for one root element.
    Used at /repo/scheme/formats/xml.py:37 *)
Fixpoint build (evs : list event) (stack : list frame) (root : option elem) : res elem :=
  match evs with
  | [] => match stack, root with [], Some e => Ok e | _, _ => parse_error end
  | Start tag attrs :: evs' =>
      match stack, root with
      | [], Some _ => parse_error
      | _, _ => build evs' ({| f_tag := tag; f_attrs := attrs; f_text := []; f_children := [] |} :: stack) root
      end
  | Data c :: evs' =>
      match stack with
      | [] => if xml_white c then build evs' [] root else parse_error
      | f :: stack' => build evs' (characters c f :: stack') root
      end
  | Ref c :: evs' =>
      match stack with
      | [] => parse_error
      | f :: stack' => build evs' (characters c f :: stack') root
      end
  | End tag :: evs' =>
      match stack with
      | [] => parse_error
      | f :: stack' =>
          if negb (str_eqb tag (f_tag f)) then parse_error else
          match stack' with
          | [] => build evs' [] (Some (closed f))
          | g :: stack'' =>
              build evs' ({| f_tag := f_tag g; f_attrs := f_attrs g; f_text := f_text g;
                             f_children := closed f :: f_children g |} :: stack'') root
          end
      end
  end.

(** Half of a surrogate pair, which UTF-8 does not encode.  Used at /repo/scheme/formats/xml.py:37 *)
Definition surrogate_half (c : N) : bool := (55296 <=? c)%N && (c <? 57344)%N.

(** [etree.fromstring]: the text is encoded as UTF-8, a byte order mark in front is skipped; the only XML
    declaration modelled is the one the format writes.  Used at /repo/scheme/formats/xml.py:37 *)
Definition xml_parse (s : str) : res elem :=
  if existsb surrogate_half s then py UnicodeError else
  let s1 := match s with c :: r => if (c =? 65279)%N then r else s | [] => s end in
  let s2 := if starts_with preamble s1 then skipn (length preamble) s1 else s1 in
  do evs <- events (length s2) s2;
  build evs [] None.

(** [Xml.unserialize] with a field.  /repo/scheme/formats/xml.py:32-39 *)
Definition xml_unserialize (value : str) (schema : field) : res val :=
  do e <- xml_parse value;
  xml_value e (kind_at E schema).

End Xml.
