(** * Model of /repo/scheme/doc/domain.py: the Sphinx directives that show the documentation.

    Nodes of docutils are trees of texts.  [fieldlist], [section] and [format_value] (lines 26-34, 51-54,
    70-82) are never called and left out, and so is what Sphinx does with the nodes. *)
From Verif Require Export Doc.

Section Domain.
Variable E : env.

(** A node of docutils: a text, or an element with its classes and children.
    /repo/scheme/doc/domain.py:16-62 *)
Inductive dnode := DText (s : str) | DNode (tag : str) (classes : list str) (children : list dnode).

(** [node += child].  /repo/scheme/doc/domain.py:66-67, 151 and others *)
Definition add_child (child node : dnode) : dnode :=
  match node with DNode t c l => DNode t c (l ++ [child]) | _ => node end.

(** An element that holds a text; docutils leaves out the empty text.  /repo/scheme/doc/domain.py:21-24, 36-44, 56-59 *)
Definition text_element (tag text : str) (classes : list str) : dnode :=
  DNode tag classes match text with [] => [] | _ => [DText text] end.
(** /repo/scheme/doc/domain.py:21-24 *)
Definition emphasis : str -> list str -> dnode := text_element $"emphasis".
(** /repo/scheme/doc/domain.py:36-39 *)
Definition inline : str -> list str -> dnode := text_element $"inline".
(** /repo/scheme/doc/domain.py:41-44 *)
Definition literal : str -> list str -> dnode := text_element $"literal".
(** /repo/scheme/doc/domain.py:56-59 *)
Definition strong : str -> list str -> dnode := text_element $"strong".

(** [aspect_block].  /repo/scheme/doc/domain.py:64-68 *)
Definition aspect_block (name value : str) (element : str -> list str -> dnode) : dnode :=
  DNode $"paragraph" [$"field-aspect"] [inline (name ++ $": ") [$"aspect-name"]; element value []].

(** [option_spec]: true for flags.  /repo/scheme/doc/domain.py:89-109 *)
Definition option_spec : list (str * bool) :=
  [($"constant", false); ($"constraints", false); ($"default", false); ($"description", false);
   ($"example", false); ($"ignore_null", true); ($"key", false); ($"nonnull", true); ($"pattern", false);
   ($"polymorphic", true); ($"polymorphic_discriminator", true); ($"required", true);
   ($"required_keys", false); ($"sectional", true); ($"subtype", false); ($"title", false); ($"type", false);
   ($"unique", true); ($"values", false)].

(** What docutils does with the options of a directive (pairs of name and text) before [run]: an unknown
    name, a name given twice and a flag with a text are errors ([None]); [directives.flag] gives None and
    [directives.unchanged] the text.  Used at /repo/scheme/doc/domain.py:89-109 *)
Fixpoint read_options (l : list (str * str)) : option (list (str * option str)) :=
  match l with
  | [] => Some []
  | (name, text) :: l' =>
      match read_options l', aget name option_spec with
      | Some r, Some flag =>
          if smem name (map fst r) then None
          else if flag then match text with [] => Some ((name, None) :: r) | _ => None end
          else Some ((name, Some text) :: r)
      | _, _ => None
      end
  end.

Section Run.
(** [self.options].  /repo/scheme/doc/domain.py:121 and others *)
Variable options : list (str * option str).

(** [name in self.options].  /repo/scheme/doc/domain.py:121, 134, 138, 199 *)
Definition has_option (name : str) : bool := match aget name options with Some _ => true | None => false end.
(** [self.options.get(name)] if it is true.  /repo/scheme/doc/domain.py:154-155 and others *)
Definition option_text (name : str) : option str :=
  match aget name options with Some (Some (c :: s)) => Some (c :: s) | _ => None end.
(** [name] if the option is there, else the empty text.  /repo/scheme/doc/domain.py:120-122, 133-139 *)
Definition class_of (name : str) : str := if has_option name then name else [].

(** The separator behind the name.  /repo/scheme/doc/domain.py:141-150 *)
Definition name_end (field : str) : str :=
  if has_option $"polymorphic_discriminator" then []
  else if existsb (N.eqb 32) field then $":"
  else match parse_int (e_udigit E) field with Some _ => $"." | None => $":" end.

(** The text up to the first semicolon and the rest, if there is one.
    /repo/scheme/doc/domain.py:164-165 *)
Fixpoint halves (s : str) : str * option str :=
  match s with
  | [] => ([], None)
  | c :: r => if (c =? 59)%N then ([], Some r) else let (a, b) := halves r in (c :: a, b)
  end.

(** A blank and an element, as the parts of the signature are added.
    /repo/scheme/doc/domain.py:156-157 and others *)
Definition spaced (node : dnode) : list dnode := [DText $" "; node].

(** The part for the subtype.  /repo/scheme/doc/domain.py:159-174 *)
Definition subtype_node (subtype : str) : dnode :=
  let (first, aspects) := halves subtype in
  DNode $"inline" [$"field-subtype"]
    ([DText $"<"; emphasis first [$"field-type"]]
     ++ match aspects with Some (c :: r) => [DText $" "; inline (c :: r) [$"field-flags"]] | _ => [] end
     ++ [DText $">"]).

(** [self.flags].  /repo/scheme/doc/domain.py:111 *)
Definition flag_names : list str := [$"required"; $"nonnull"; $"ignore_null"; $"polymorphic"; $"unique"].

(** The children of the signature; the argument is the name of the field.
    /repo/scheme/doc/domain.py:124-209 *)
Definition signature (argument : option str) : list dnode :=
  match argument with
  | Some (c :: r) =>
      [strong ((c :: r) ++ name_end (c :: r))
         [$"field-name"; class_of $"required"; class_of $"sectional"; class_of $"polymorphic_discriminator"]]
  | _ => []
  end
  ++ match option_text $"type" with Some t => spaced (emphasis t [$"field-type"]) | None => [] end
  ++ match option_text $"subtype" with Some t => spaced (subtype_node t) | None => [] end
  ++ match option_text $"key" with Some t => spaced (literal ($"key=" ++ t) [$"field-constraints"]) | None => [] end
  ++ match option_text $"constant" with Some t => spaced (literal ($"constant=" ++ t) [$"field-default"]) | None => [] end
  ++ match option_text $"default", option_text $"constant" with
     | Some t, None => spaced (literal ($"default=" ++ t) [$"field-default"])
     | _, _ => []
     end
  ++ match option_text $"constraints" with Some t => spaced (literal t [$"field-constraints"]) | None => [] end
  ++ match filter has_option flag_names with
     | [] => []
     | flags => spaced (inline (join $" " flags) [$"field-flags"])
     end
  ++ match option_text $"title" with
     | Some t => spaced (inline ([34%N] ++ t ++ [34%N]) [$"field-title"])
     | None => []
     end.

(** [self.aspects], in order.  /repo/scheme/doc/domain.py:113-117 *)
Definition aspect_names : list str := [$"pattern"; $"values"; $"required_keys"].

(** The children of the block below the signature; [content] is what [nested_parse] adds.
    /repo/scheme/doc/domain.py:212-223 *)
Definition details (content : list dnode) : list dnode :=
  match option_text $"description" with Some t => [inline t [$"field-description"]] | None => [] end
  ++ flat_map (fun name => match option_text name with Some t => [aspect_block name t literal] | None => [] end) aspect_names
  ++ content.

(** [FieldDefinition.run].  /repo/scheme/doc/domain.py:119-227 *)
Definition field_definition (argument : option str) (content : list dnode) : dnode :=
  DNode $"container" [$"field"; class_of $"sectional"]
    (DNode $"paragraph" [$"field-signature"] (signature argument)
     :: match details content with [] => [] | l => [DNode $"block_quote" [] l] end).
End Run.

(** [StructureDefinition.run].  /repo/scheme/doc/domain.py:229-243 *)
Definition structure_definition (argument : str) (content : list dnode) : list dnode :=
  DNode $"paragraph" [$"structure-header"] [strong argument []]
  :: match content with [] => [] | _ => [DNode $"block_quote" [$"structure-block"] content] end.

(** The options of a directive as the generator writes them: the names and the texts of the values.
    The reading of the rendered text by docutils is not modelled.
    /repo/scheme/doc/generator.py:46-52 *)
Definition written_options (params : list (str * val)) : list (str * str) :=
  map (fun nv => (fst nv, arg_text E (snd nv))) params.
End Domain.
