(** * The YAML format: serialization.

    [Yaml.unserialize] is [yaml.load] of a library outside /repo and is not modelled. *)
From Verif Require Export XmlText.

Section Yaml.
Context (E : env).
(** [TextWrapper(width=100, initial_indent=indent, subsequent_indent=indent, break_long_words=False,
    replace_whitespace=False, drop_whitespace=False).wrap(line)] of the standard library, not modelled:
    any function of the indent and the line.  /repo/scheme/formats/yaml.py:154-160 *)
Context (wrap : str -> str -> list str).

(** What [_serialize_value] and its helpers return: a text or a list of lines.
    /repo/scheme/formats/yaml.py:164-186 *)
Inductive content := Inline (s : str) | Block (lines : list str).

(** [cls.indent * level].  /repo/scheme/formats/yaml.py:25, 84, 111, 137 *)
Fixpoint indents (level : nat) : str :=
  match level with O => [] | S n => 32%N :: 32%N :: indents n end.

(** [token in value] for two texts.  /repo/scheme/formats/yaml.py:70-72 *)
Fixpoint holds (token s : str) : bool :=
  starts_with token s || match s with [] => false | _ :: s' => holds token s' end.

(** [cls.indicators].  /repo/scheme/formats/yaml.py:26 *)
Definition indicators : str := $"-?:,[]{}#&*!|>'""%@`".

(** [Yaml._requires_escaping] of a text that is not empty.  /repo/scheme/formats/yaml.py:67-76 *)
Definition requires_escaping (s : str) : bool :=
  match s with
  | [] => false
  | c :: _ => existsb (N.eqb c) indicators || holds $": " s || holds $" #" s
  end.

(** ["'%s'" % value.replace("'", "''")].  /repo/scheme/formats/yaml.py:147, 152 *)
Definition yaml_quote (s : str) : str :=
  $"'" ++ flat_map (fun c => if (c =? 39)%N then [39%N; 39%N] else [c]) s ++ $"'".

(** [str.splitlines] for texts without ["\n"].  /repo/scheme/formats/yaml.py:159 *)
Definition line_break (c : N) : bool :=
  ((10 <=? c) && (c <=? 13) || (28 <=? c) && (c <=? 30) || (c =? 133) || (c =? 8232) || (c =? 8233))%N.
(** The same.  /repo/scheme/formats/yaml.py:159 *)
Fixpoint split_lines (s : str) : list str :=
  match s with
  | [] => []
  | c :: s' => if line_break c then [] :: split_lines s'
               else match split_lines s' with [] => [[c]] | l :: ls => (c :: l) :: ls end
  end.

(** [Yaml._serialize_string]; [value.lower()] of at most five characters is one of four ASCII texts
    exactly when lower casing the ASCII letters gives it.  /repo/scheme/formats/yaml.py:129-162 *)
Definition yaml_string (s : str) (level : nat) : content :=
  match s with
  | [] => Inline $"''"
  | _ =>
      if (length s <=? 5)%nat && smem (map lower_ascii s) [$"null"; $"~"; $"true"; $"false"] then
        Inline ($"'" ++ s ++ $"'")
      else if existsb (N.eqb 10) s then
        Block ($"|" :: map (fun line => match line with [] => [] | _ => indents level ++ line end) (split_on 10%N s))
      else if (length s + 2 * level <=? 100)%nat then
        Inline (if requires_escaping s then yaml_quote s else s)
      else
        Block (flat_map (wrap (indents level)) (split_lines (if requires_escaping s then yaml_quote s else s)))
  end.

(** The values without parts other than texts.  /repo/scheme/formats/yaml.py:164-185 *)
Definition yaml_scalar (v : val) : res str :=
  match v with
  | VNone => Ok $"null"
  | VBool true => Ok $"true"
  | VBool false => Ok $"false"
  | VDateTime dt => Ok (date_text (e_pad E) (dt_date dt) ++ $" " ++ tod_text (dt_time dt))
  | VDate d => Ok (date_text (e_pad E) d)
  | VFloat _ | VInt _ => Ok (text_of E v)
  | _ => py ValueError
  end.

(** An item of [Yaml._is_simple_sequence].  /repo/scheme/formats/yaml.py:59-65 *)
Definition simple_item (v : val) : bool :=
  match v with VNone | VBool _ | VFloat _ | VInt _ => true | _ => false end.

(** The lines of an item after its prefix, or of a text after its key: ['%s %s' % (prefix, content)],
    with [content[0].lstrip()] and the other lines of a list.  [content[0]] of no lines is an IndexError.
    /repo/scheme/formats/yaml.py:88-93, 112-118 *)
Definition item_lines (prefix : str) (c : content) : res (list str) :=
  match c with
  | Inline s => Ok [prefix ++ $" " ++ s]
  | Block [] => py IndexError
  | Block (first :: others) => Ok ((prefix ++ $" " ++ lstrip is_space first) :: others)
  end.

(** The lines of an entry of a structure; [text] says that the value is a text.
    /repo/scheme/formats/yaml.py:110-125 *)
Definition entry_lines (key : str) (text : bool) (c : content) : res (list str) :=
  match text, c with
  | false, Block lines => Ok (key :: lines)
  | _, _ => item_lines key c
  end.

(** [Yaml._serialize_value], [_serialize_sequence] and [_serialize_structure].
    A dict that cannot be sorted fails (see [sorted_items]).
    /repo/scheme/formats/yaml.py:76-126, 163-185 *)
Fixpoint yaml_value (v : val) (level : nat) {struct v} : res content :=
  let structure := fix go (l : list (val * val)) : list (val * res (list str)) :=
    match l with
    | [] => []
    | (k, x) :: l' =>
        (k, do c <- yaml_value x (S level);
            entry_lines (indents level ++ text_of E k ++ $":") (match x with VStr _ => true | _ => false end) c)
        :: go l'
    end in
  let sequence := fix go (l : list val) : list (res (list str)) :=
    match l with
    | [] => []
    | x :: l' => (do c <- yaml_value x (S level); item_lines (indents level ++ $"-") c) :: go l'
    end in
  match v with
  | VDict ordered l =>
      match l with
      | [] => Ok (Inline $"{}")
      | _ =>
          do items <- (if ordered then Ok (structure l) else sorted_items (structure l));
          do groups <- in_turn (map snd items);
          Ok (Block (concat groups))
      end
  | VSurr _ _ _ l =>
      match l with
      | [] => Ok (Inline $"{}")
      | _ =>
          do items <- sorted_items (structure l);
          do groups <- in_turn (map snd items);
          Ok (Block (concat groups))
      end
  | VList l | VTuple l =>
      match l with
      | [] => Ok (Inline $"[]")
      | _ =>
          if forallb simple_item l then
            do parts <- in_turn (map yaml_scalar l);
            Ok (Inline ($"[" ++ join $", " parts ++ $"]"))
          else
            do groups <- in_turn (sequence l);
            Ok (Block (concat groups))
      end
  | VStr s => Ok (yaml_string s level)
  | _ => do t <- yaml_scalar v; Ok (Inline t)
  end.

(** [Yaml.serialize].  /repo/scheme/formats/yaml.py:34-39 *)
Definition yaml_serialize (v : val) : res str :=
  do c <- yaml_value v 0;
  Ok (match c with Inline s => s | Block lines => join [10%N] lines end).

End Yaml.
