(** * What the claims about the documentation generator say, apart from the model's helpers. *)
From Verif Require Export Doc Spec DescSpec.

(** The lines of a text.  /repo/scheme/doc/generator.py:54-60 *)
Definition lines (s : str) : list str := split_on 10 s.

(** Text of one line.  /repo/scheme/doc/generator.py:11, 29 *)
Definition one_line (s : str) : Prop := ~ In 10%N s.

(** Directives whose names and arguments are single lines, throughout; the values of parameters and
    the texts of the content are free.  /repo/scheme/doc/generator.py:10-31 *)
Inductive neat : node -> Prop :=
| neat_block name args params content :
    one_line name -> Forall one_line args -> Forall (fun nv => one_line (fst nv)) params ->
    Forall neat content -> neat (Block name args params content)
| neat_words text : neat (Words text).

(** What [textwrap.wrap] guarantees: every line starts with the indentation and holds no line break.
    /repo/scheme/doc/generator.py:43-44 *)
Definition wraps (wrap : str -> str -> list str) : Prop :=
  forall prefix text line, In line (wrap prefix text) ->
    (one_line prefix -> one_line line) /\ exists rest, line = prefix ++ rest.

(** A line that is empty or starts with [n] blanks: what a reader of reStructuredText takes for a part
    of a block indented by [n].  /repo/scheme/doc/generator.py:34-35 *)
Definition within (n : nat) (line : str) : Prop :=
  line = [] \/ exists rest, line = repeat 32%N n ++ rest.

(** [part] are consecutive lines among [whole].  /repo/scheme/doc/generator.py:54-60 *)
Definition among (part whole : list str) : Prop :=
  exists before after, whole = before ++ part ++ after.

(** What is written in the entry [key] of a description; None if there is no such entry.
    /repo/scheme/doc/generator.py:214, 222, 226, 230 *)
Definition noted (key : str) (l : list (val * val)) : val :=
  match sget key l with Some v => v | None => VNone end.

(** The lower and the upper bound of a description as a list of texts with labels.
    /repo/scheme/doc/generator.py:70-188 *)
Definition labelled (show : val -> str) (low high : str) (lo hi : val) : list str :=
  (if is_none lo then [] else [low ++ show lo]) ++ (if is_none hi then [] else [high ++ show hi]).

(** The value of a parameter of a block, if it is set.  /repo/scheme/doc/generator.py:29-31 *)
Definition shows_param (name : str) (d : node) (v : option val) : Prop :=
  match d with
  | Block _ _ params _ => match v with
                          | Some v => In (name, v) params
                          | None => ~ In name (map fst params)
                          end
  | Words _ => False
  end.

(** The parameters that only some classes have.  /repo/scheme/doc/generator.py:77, 101, 123, 135, 140, 179 *)
Definition special : list str :=
  [$"constraints"; $"values"; $"required_keys"; $"subtype"; $"unique"; $"pattern"].
(** The special parameters of a directive, in order, and its content.
    /repo/scheme/doc/generator.py:11-15 *)
Definition particulars (d : node) : list (str * val) :=
  match d with
  | Block _ _ params _ => filter (fun nv => existsb (str_eqb (fst nv)) special) params
  | Words _ => []
  end.
(** /repo/scheme/doc/generator.py:11-15 *)
Definition inside (d : node) : list node :=
  match d with Block _ _ _ content => content | Words _ => [] end.

(** The parameter for a list of constraints: none if there are none.
    /repo/scheme/doc/generator.py:76-77, 87-88, 176-177 *)
Definition restricts (sep : str) (cs : list str) : list (str * val) :=
  match cs with [] => [] | _ => [($"constraints", VStr (join sep cs))] end.

(** What the documentation generator asks a description for.  /repo/scheme/doc/generator.py:70-232 *)
Definition asked : list str :=
  [$"fieldtype"; $"minimum"; $"maximum"; $"utc"; $"constant"; $"enumeration"; $"required_keys"; $"key";
   $"value"; $"structural"; $"description"; $"unique"; $"min_length"; $"max_length"; $"item";
   $"structure"; $"polymorphic_on"; $"strip"; $"pattern"; $"values"; $"fields"].
(** Aspects that do not get in the way of the generator.  /repo/scheme/doc/generator.py:202-238 *)
Definition unasked (p : params) : Prop := forall s, In s (map fst (p_aspects p)) -> ~ In s asked.

(** What can be documented: no unions, no structures with fields, enumerations of texts, maps whose
    required keys are texts.  /repo/scheme/doc/generator.py:99-101, 121-123, 151-166, 196-200 *)
Definition documentable (p : params) (k : kind) : Prop :=
  unasked p
  /\ match k with
     | KEnumeration l _ => exists names, l = map VStr names
     | KMap _ _ rk => forall l, rk = Some l -> exists names, l = map VStr names
     | KStructure (SPlain l) _ _ => l = []
     | KStructure (SPoly _ _) _ _ | KUnion _ => False
     | _ => True
     end.
