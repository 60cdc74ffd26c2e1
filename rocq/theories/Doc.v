(** * Model of /repo/scheme/doc/generator.py: directives and the documentation of descriptions.

    Descriptions are values as [describe] returns them.  The directives of
    /repo/scheme/doc/domain.py are in Domain.v. *)
From Verif Require Export Msg Fmt.

Section Doc.
Variable E : env.
(** [repr(value)].  /repo/scheme/doc/generator.py:93-117, 123, 171-173, 224, 228 *)
Variable repr : val -> str.
(** [textwrap.wrap(text, 80, expand_tabs=False, initial_indent=prefix, subsequent_indent=prefix)].
    /repo/scheme/doc/generator.py:43-44 *)
Variable wrap : str -> str -> list str.

(** A directive (name, arguments, parameters, content), or a text among the content; other content is
    ignored by [render] and left out.  /repo/scheme/doc/generator.py:10-31 *)
Inductive node :=
| Block (name : str) (args : list str) (params : list (str * val)) (content : list node)
| Words (text : str).

(** One parameter.  /repo/scheme/doc/generator.py:47-52 *)
Definition render_param (prefix : str) (nv : str * val) : str :=
  prefix ++ $":" ++ fst nv ++ $": " ++
  match split_on 10 (arg_text E (snd nv)) with
  | [] => []
  | first :: rest => join [10%N] (first :: map (fun v => prefix ++ blanks 4 ++ v) rest)
  end.

(** [directive.render(indent)]; for a text, what the loop over the content makes of it at the
    indentation of the content.  /repo/scheme/doc/generator.py:33-60 *)
Fixpoint render_node (indent : nat) (d : node) : str :=
  match d with
  | Block name args params content =>
      let prefix := blanks (4 * S indent) in
      [10%N] ++ blanks (4 * indent) ++ $".. " ++ name ++ $":: " ++ join [32%N] args ++ [10%N]
      ++ join [10%N] (map (render_param prefix) params) ++ [10%N; 10%N]
      ++ join [10%N; 10%N] (map (render_node (S indent)) content)
  | Words text => join [10%N] (wrap (blanks (4 * indent)) (lstrip is_space text))
  end.

(** [block.set(name, value)].  /repo/scheme/doc/generator.py:29-31 *)
Definition set_param (name : str) (v : val) (d : node) : node :=
  match d with Block n a p c => Block n a (p ++ [(name, v)]) c | _ => d end.
(** [block.append(item)].  /repo/scheme/doc/generator.py:21-23 *)
Definition append (x : node) (d : node) : node :=
  match d with Block n a p c => Block n a p (c ++ [x]) | _ => d end.

(** [field.get(key)] of a dict.  /repo/scheme/doc/generator.py:72 and others *)
Definition dict_get (key : str) (l : list (val * val)) : val :=
  match sget key l with Some v => v | None => VNone end.
(** [field[key]] for any value.  /repo/scheme/doc/generator.py:127, 135, 157, 207 *)
Definition subscript (key : str) (v : val) : res val :=
  match as_dict v with
  | Some l => match sget key l with Some w => Ok w | None => py KeyError end
  | None => py TypeError
  end.

(** ['%r' % value]: a tuple would be taken for the list of all arguments, which is outside the model.
    /repo/scheme/doc/generator.py:93-117 *)
Definition shown_r (v : val) : res str :=
  match v with VTuple _ => outside | _ => Ok (repr v) end.

(** [block.set('constraints', sep.join(constraints))] if there are any.
    /repo/scheme/doc/generator.py:76-77 and the like *)
Definition set_constraints (sep : str) (l : list str) (d : node) : node :=
  match l with [] => d | _ => set_param $"constraints" (VStr (join sep l)) d end.

(** One constraint: the label and the value, if it passes the test.
    /repo/scheme/doc/generator.py:72-75 and the like *)
Definition constraint (test : val -> bool) (shown : val -> res str) (label : str) (v : val)
  : res (list str) :=
  if test v then do s <- shown v; Ok [label ++ s] else Ok [].
(** [isinstance(v, date)], which datetimes are as well; [datetime]; [time].
    /repo/scheme/doc/generator.py:72-84, 183-185 *)
Definition a_date (v : val) : bool := match v with VDate _ | VDateTime _ => true | _ => false end.
(** /repo/scheme/doc/generator.py:81-84 *)
Definition a_datetime (v : val) : bool := match v with VDateTime _ => true | _ => false end.
(** /repo/scheme/doc/generator.py:183-186 *)
Definition a_time (v : val) : bool := match v with VTime _ => true | _ => false end.
(** [isinstance(v, numbers)]: floats, integers, booleans.  /repo/scheme/doc/generator.py:170-173 *)
Definition a_number (v : val) : bool :=
  match v with VFloat _ | VInt _ | VBool _ => true | _ => false end.
(** [v is not None].  /repo/scheme/doc/generator.py:92-117, 141-144 *)
Definition present (v : val) : bool := negb (is_none v).
(** ['%s' % v] of what is no tuple.  /repo/scheme/doc/generator.py:73-84, 184-186 *)
Definition shown_s (v : val) : res str := Ok (arg_text E v).
(** ['%d' % v].  /repo/scheme/doc/generator.py:142-144 *)
Definition shown_d (v : val) : res str :=
  match v with VTuple _ => outside | _ => convert E repr (fun _ => []) 100 v end.

(** The lower and the upper constraint, with their labels.
    /repo/scheme/doc/generator.py:71-75 and the like *)
Definition two_constraints (test : val -> bool) (shown : val -> res str) (low high : str)
    (lo hi : val) : res (list str) :=
  do a <- constraint test shown low lo;
  do b <- constraint test shown high hi;
  Ok (a ++ b).

(** [sorted(field['enumeration'])] joined by blanks: everything must be a text.  Simplification: what
    cannot be compared is a TypeError (a signalling NaN would be InvalidOperation).
    /repo/scheme/doc/generator.py:99-101 *)
Definition describe_enumeration (l : list (val * val)) (d : node) : res node :=
  if is_none (dict_get $"constant" l) then
    match sget $"enumeration" l with
    | None => py KeyError
    | Some v =>
        match py_iter v with
        | None => py TypeError
        | Some vs =>
            do names <- each (fun x => match x with VStr s => Ok s | _ => py TypeError end) vs;
            Ok (set_param $"values" (VStr (join [32%N] (sort_str names))) d)
        end
    end
  else Ok d.

(** [_describe_structure].  [_collate_fields] does not exist.  /repo/scheme/doc/generator.py:151-166 *)
Definition describe_structure_block (l : list (val * val)) (d : node) : res node :=
  let structure := dict_get $"structure" l in
  if truthy structure then
    let polymorphic_on := dict_get $"polymorphic_on" l in
    if truthy polymorphic_on then
      do _ <- subscript $"name" polymorphic_on;
      match as_dict structure with
      | Some items => do _ <- sort_items [] items; py AttributeError
      | None => py AttributeError
      end
    else py AttributeError
  else Ok d.

(** [_describe_text].  /repo/scheme/doc/generator.py:168-179 *)
Definition describe_text (l : list (val * val)) (d : node) : res node :=
  do c <- two_constraints a_number (fun v => Ok (repr v)) $"min_length=" $"max_length="
            (dict_get $"min_length" l) (dict_get $"max_length" l);
  let strip := match sget $"strip" l with Some v => truthy v | None => true end in
  let d' := set_constraints $", " (c ++ if strip then [] else [$"strip=false"]) d in
  Ok (if truthy (dict_get $"pattern" l) then set_param $"pattern" (dict_get $"pattern" l) d' else d').

(** [_describe_datetime].  /repo/scheme/doc/generator.py:79-88 *)
Definition describe_datetime (l : list (val * val)) (d : node) : res node :=
  do c <- two_constraints a_datetime shown_s $"min=" $"max=" (dict_get $"minimum" l) (dict_get $"maximum" l);
  Ok (set_constraints $", " (c ++ if truthy (dict_get $"utc" l) then [$"utc=True"] else []) d).

(** [_describe_date], [_describe_time], [_describe_decimal], [_describe_float], [_describe_integer]:
    the separator, the tests, the forms and the labels.
    /repo/scheme/doc/generator.py:70-77, 90-97, 103-119, 181-188 *)
Definition describe_bounds (sep : str) (test : val -> bool) (shown : val -> res str) (low high : str)
    (l : list (val * val)) (d : node) : res node :=
  do c <- two_constraints test shown low high (dict_get $"minimum" l) (dict_get $"maximum" l);
  Ok (set_constraints sep c d).

(** The arguments of [_document_field] besides the description: the name and the type of the keys.
    /repo/scheme/doc/generator.py:202 *)
Definition documenter := str -> val -> res node.

(** [_describe_map]; [sub] documents the value.  A field or another object with a method [get] as
    value is outside the model.  /repo/scheme/doc/generator.py:121-135 *)
Definition describe_map (sub : documenter) (l : list (val * val)) (d : node) : res node :=
  let required_keys := dict_get $"required_keys" l in
  do d1 <- (if truthy required_keys then
              match py_iter required_keys with
              | None => py TypeError
              | Some ks => do s <- sort_items [] (map (fun k => (k, tt)) ks);
                           Ok (set_param $"required_keys" (VStr (repr (VList (map fst s)))) d)
              end
            else Ok d);
  do key <- (if truthy (dict_get $"key" l) then subscript $"fieldtype" (dict_get $"key" l) else Ok (VStr $"text"));
  match sget $"value" l with
  | None => py KeyError
  | Some value =>
      match value with
      | VDict _ vl | VSurr _ _ _ vl =>
          if truthy (dict_get $"structural" vl) || truthy (dict_get $"description" vl) then
            do b <- sub [] key; Ok (append b d1)
          else
            do t <- subscript $"fieldtype" value;
            Ok (set_param $"subtype" (VStr (arg_text E key ++ $": " ++ arg_text E t)) d1)
      | VField _ | VObj _ _ => outside
      | _ => py AttributeError
      end
  end.

(** [_describe_sequence]; [sub] documents the item.  /repo/scheme/doc/generator.py:137-149 *)
Definition describe_sequence (sub : documenter) (l : list (val * val)) (d : node) : res node :=
  let d1 := if truthy (dict_get $"unique" l) then set_param $"unique" (VStr []) d else d in
  do c <- two_constraints present shown_d $"min=" $"max=" (dict_get $"min_length" l) (dict_get $"max_length" l);
  do b <- sub [] VNone;
  Ok (append b (set_constraints $", " c d1)).

(** [_describe_tuple]; [subs] document the values.  /repo/scheme/doc/generator.py:190-194 *)
Fixpoint describe_values (subs : list documenter) (d : node) : res node :=
  match subs with
  | [] => Ok d
  | sub :: subs' => do b <- sub [] VNone; describe_values subs' (append b d)
  end.

(** The flags.  /repo/scheme/doc/generator.py:64-68, 218-220 *)
Definition flag_roles : list (str * list str) :=
  [($"nonnull", []); ($"ignore_null", []); ($"required", [$"schema"])].

(** The parameters every kind of field has.  /repo/scheme/doc/generator.py:203-232 *)
Definition common_params (role : option str) (sectional : bool) (type : val) (l : list (val * val))
  : list (str * val) :=
  (if sectional then [($"sectional", VStr [])] else [])
  ++ [($"type", type)]
  ++ flat_map (fun attr => if truthy (dict_get attr l) then [(attr, dict_get attr l)] else [])
       [$"description"; $"notes"]
  ++ flat_map (fun ar => if truthy (dict_get (fst ar) l)
                            && negb (match role with Some r => smem r (snd ar) | None => false end)
                         then [(fst ar, VStr [])] else []) flag_roles
  ++ (if is_none (dict_get $"constant" l) then [] else [($"constant", VStr (repr (dict_get $"constant" l)))])
  ++ (if is_none (dict_get $"default" l) then [] else [($"default", VStr (repr (dict_get $"default" l)))])
  ++ (if is_none (dict_get $"title" l) then [] else [($"title", dict_get $"title" l)]).

(** [getattr(self, '_describe_%s' % fieldtype, None)] and its call.  [sub key] documents the entry
    [key] of the description, [subs key] the items of that entry.  /repo/scheme/doc/generator.py:234-236 *)
Definition describe_type (sub : str -> documenter) (subs : str -> list documenter) (fieldtype : str)
    (l : list (val * val)) (d : node) : res node :=
  let is t := str_eqb fieldtype t in
  if is $"date" then describe_bounds $", " a_date shown_s $"min=" $"max=" l d
  else if is $"datetime" then describe_datetime l d
  else if is $"decimal" then describe_bounds $", " present shown_r $"min=" $"min=" l d
  else if is $"enumeration" then describe_enumeration l d
  else if is $"float" then describe_bounds $" " present shown_r $"min=" $"max=" l d
  else if is $"integer" then describe_bounds $", " present shown_r $"min=" $"max=" l d
  else if is $"map" then describe_map (sub $"value") l d
  else if is $"sequence" then describe_sequence (sub $"item") l d
  else if is $"structure" then describe_structure_block l d
  else if is $"text" then describe_text l d
  else if is $"time" then describe_bounds $", " a_time shown_s $"min=" $"max=" l d
  else if is $"tuple" then
    if truthy (dict_get $"values" l) then
      match dict_get $"values" l with
      | VList _ | VTuple _ => describe_values (subs $"values") d
      | _ => py TypeError
      end
    else Ok d
  else if is $"union" then
    if truthy (dict_get $"fields" l) then py NameError else Ok d
  else Ok d.

(** [_document_field(name, field, role, sectional, key)].  A type that is a tuple is outside the
    model.  /repo/scheme/doc/generator.py:202-238 *)
Fixpoint document (role : option str) (sectional : bool) (field : val) {struct field} : documenter :=
  let entries (l : list (val * val))
      (go : list (val * val) -> list (str * (documenter * list documenter))) (name : str) (key : val)
    : res node :=
    match sget $"fieldtype" l with
    | None => py KeyError
    | Some (VTuple _) => outside
    | Some t =>
        let type := if truthy key then VStr (arg_text E key ++ $": " ++ arg_text E t) else t in
        let subs := go l in
        describe_type
          (fun k => match aget k subs with Some s => fst s | None => fun _ _ => py TypeError end)
          (fun k => match aget k subs with Some s => snd s | None => [] end)
          (arg_text E t) l (Block $"field" [name] (common_params role sectional type l) [])
    end in
  let go := fix go (l : list (val * val)) : list (str * (documenter * list documenter)) :=
    match l with
    | [] => []
    | (VStr k, v) :: l' =>
        (k, (document role false v,
             match v with VList xs | VTuple xs => map (document role false) xs | _ => [] end)) :: go l'
    | _ :: l' => go l'
    end in
  fun name key =>
    match field with
    | VDict _ l | VSurr _ _ _ l => entries l go name key
    | _ => py TypeError
    end.

End Doc.
