(** * What the claims about the Sphinx directives say (C94, C95). *)
From Verif Require Export Domain DocSpec.

(** The text a reader sees in a node.  /repo/scheme/doc/domain.py:16-62 *)
Fixpoint words_in (d : dnode) : str :=
  match d with DText s => s | DNode _ _ l => flat_map words_in l end.

(** The options a directive "field" may have: those with a text and those without.
    /repo/scheme/doc/domain.py:89-109 *)
Definition with_text : list str :=
  [$"constant"; $"constraints"; $"default"; $"description"; $"example"; $"key"; $"pattern"; $"required_keys";
   $"subtype"; $"title"; $"type"; $"values"].
(** /repo/scheme/doc/domain.py:89-109 *)
Definition without_text : list str :=
  [$"ignore_null"; $"nonnull"; $"polymorphic"; $"polymorphic_discriminator"; $"required"; $"sectional"; $"unique"].

(** The options of a directive "field" are known, none is given twice, and flags have no text.
    /repo/scheme/doc/domain.py:89-109 *)
Definition understood (options : list (str * str)) : Prop :=
  NoDup (map fst options)
  /\ forall name text, In (name, text) options -> In name with_text \/ In name without_text /\ text = [].

(** [x] is a directive within [d], at any depth.  /repo/scheme/doc/generator.py:10-23 *)
Inductive within_node : node -> node -> Prop :=
| within_here : forall d, within_node d d
| within_below : forall x y n a p c, In y c -> within_node x y -> within_node x (Block n a p c).

(** The text of an option (a list with one entry), none if it is absent or empty.
    /repo/scheme/doc/domain.py:154-155 *)
Definition said (options : list (str * option str)) (name : str) : list str :=
  match aget name options with Some (Some (c :: s)) => [c :: s] | _ => [] end.
(** The flag is among the options.  /repo/scheme/doc/domain.py:134, 138, 199 *)
Definition raised (options : list (str * option str)) (name : str) : Prop := In name (map fst options).

(** A text stands somewhere in the words of a node.  /repo/scheme/doc/domain.py:61-62 *)
Definition readable (t : str) (d : dnode) : Prop := exists before after, words_in d = before ++ t ++ after.
(** The first semicolon of a subtype separates the type from its flags.
    /repo/scheme/doc/domain.py:159-174 *)
Definition bracketed (t : str) : str :=
  match split_on 59 t with
  | [] => []
  | first :: rest =>
      $"<" ++ first ++ match join $";" rest with [] => [] | flags => $" " ++ flags end ++ $">"
  end.
(** The name of a field: numbers are followed by a full stop, other names by a colon, discriminators of
    polymorphic structures by nothing.  /repo/scheme/doc/domain.py:141-151 *)
Definition headed (E : env) (options : list (str * option str)) (name : str) (head : str) : Prop :=
  (name = [] /\ head = [])
  \/ (name <> [] /\ raised options $"polymorphic_discriminator" /\ head = name)
  \/ (name <> [] /\ ~ raised options $"polymorphic_discriminator"
      /\ ~ In 32%N name /\ (exists z, parse_int (e_udigit E) name = Some z) /\ head = name ++ $".")
  \/ (name <> [] /\ ~ raised options $"polymorphic_discriminator"
      /\ (In 32%N name \/ parse_int (e_udigit E) name = None) /\ head = name ++ $":").
(** The flags shown as words, in order.  /repo/scheme/doc/domain.py:111, 196-203 *)
Definition flag_words (options : list (str * option str)) : list str :=
  filter (fun f => smem f (map fst options)) [$"required"; $"nonnull"; $"ignore_null"; $"polymorphic"; $"unique"].
(** What follows the name, each behind a blank.  /repo/scheme/doc/domain.py:154-208 *)
Definition pieces (options : list (str * option str)) : list str :=
  said options $"type"
  ++ map bracketed (said options $"subtype")
  ++ map (fun t => $"key=" ++ t) (said options $"key")
  ++ map (fun t => $"constant=" ++ t) (said options $"constant")
  ++ match said options $"constant" with [] => map (fun t => $"default=" ++ t) (said options $"default") | _ => [] end
  ++ said options $"constraints"
  ++ match flag_words options with [] => [] | l => [join $" " l] end
  ++ map (fun t => [34%N] ++ t ++ [34%N]) (said options $"title").
