(** * Specifications of the YAML format (C62). *)
From Coq Require Export Permutation.
From Verif Require Export StSpec YamlText.

(** A line that is empty or starts with the indent of the level. *)
Definition indented (level : nat) (line : str) : Prop := line = [] \/ exists r, line = indents level ++ r.

(** Lines that form one block of a level: the first starts with the indent of the level and the text
    [opening], the others are empty or indented further. *)
Definition opened (level : nat) (opening : str) (block : list str) : Prop :=
  exists text others,
    block = (indents level ++ opening ++ text) :: others /\ Forall (indented (S level)) others.

(** What is assumed of [TextWrapper.wrap]: every line has the indent, and a line that is not empty gives
    some lines. *)
Definition wraps (wrap : str -> str -> list str) : Prop :=
  (forall indent line out, In out (wrap indent line) -> exists r, out = indent ++ r)
  /\ forall indent line, line <> [] -> wrap indent line <> [].

(** Values without parts that YAML writes. *)
Definition yaml_leaf (v : val) : Prop :=
  match v with VNone | VBool _ | VInt _ | VFloat _ | VDate _ | VDateTime _ | VStr _ => True | _ => False end.

(** Values made of nothing else. *)
Inductive yaml_made : val -> Prop :=
| made_leaf : forall v, yaml_leaf v -> yaml_made v
| made_list : forall l, (forall v, In v l -> yaml_made v) -> yaml_made (VList l)
| made_tuple : forall l, (forall v, In v l -> yaml_made v) -> yaml_made (VTuple l)
| made_dict : forall v l, as_dict v = Some l -> (forall k x, In (k, x) l -> yaml_made x) -> yaml_made v.

(** Values that can be written: the entries of a dict can be sorted or need not be, and no text consists
    of line breaks only. *)
Inductive yaml_fit : val -> Prop :=
| fit_scalar : forall v, yaml_leaf v -> (forall s, v <> VStr s) -> yaml_fit v
| fit_text : forall s, s = [] \/ In 10%N s \/ (exists c, In c s /\ line_break c = false) -> yaml_fit (VStr s)
| fit_list : forall l, (forall v, In v l -> yaml_fit v) -> yaml_fit (VList l)
| fit_tuple : forall l, (forall v, In v l -> yaml_fit v) -> yaml_fit (VTuple l)
| fit_ordered : forall l, (forall k x, In (k, x) l -> yaml_fit x) -> yaml_fit (VDict true l)
| fit_texts : forall v l, as_dict v = Some l ->
    (forall k x, In (k, x) l -> exists s, k = VStr s) -> (forall k x, In (k, x) l -> yaml_fit x) -> yaml_fit v
| fit_numbers : forall v l, as_dict v = Some l ->
    (forall k x, In (k, x) l -> exists z, k = VInt z) -> (forall k x, In (k, x) l -> yaml_fit x) -> yaml_fit v.

(** Keys that cannot be mistaken for something else. *)
Definition yaml_key (k : str) : Prop :=
  (forall c, In c k -> c <> 58%N /\ c <> 10%N)
  /\ exists c r, k = c :: r /\ ~ In c indicators /\ is_space c = false.

(** Values whose YAML texts can be told apart, at a level: texts of several lines or short enough for
    one line that are not the digits of a number, in lists and plain dicts. *)
Inductive tellable : nat -> val -> Prop :=
| tell_null : forall n, tellable n VNone
| tell_bool : forall n b, tellable n (VBool b)
| tell_int : forall n z, tellable n (VInt z)
| tell_text : forall n s, In 10%N s \/ (length s + 2 * n <= 100)%nat ->
    (forall z, s <> Z_text z) -> tellable n (VStr s)
| tell_list : forall n l, (forall v, In v l -> tellable (S n) v) -> tellable n (VList l)
| tell_dict : forall n l,
    NoDup (map fst l) ->
    (forall k v, In (k, v) l -> exists s, k = VStr s /\ yaml_key s) ->
    (forall k v, In (k, v) l -> tellable (S n) v) ->
    tellable n (VDict false l).

(** A text of one line without control characters. *)
Definition one_line (s : str) : Prop :=
  s <> [] /\ forall c, In c s -> (32 <= c)%N /\ c <> 133%N /\ c <> 8232%N /\ c <> 8233%N.

(** A single quote written twice.  YAML 1.1, 7.3.2 *)
Fixpoint doubled (s : str) : str :=
  match s with
  | [] => []
  | c :: r => (if (c =? 39)%N then [39; 39]%N else [c]) ++ doubled r
  end.

(** What YAML 1.1 reads as a plain scalar that is no null and no boolean: the first character is no blank
    and none of the nineteen indicators, nowhere in it stands a colon before a blank or a number sign after
    one, and it ends with neither a colon nor a blank. *)
Definition plain_scalar (s : str) : Prop :=
  (exists c r, s = c :: r /\ c <> 32%N /\
     ~ In c [45; 63; 58; 44; 91; 93; 123; 125; 35; 38; 42; 33; 124; 62; 39; 34; 37; 64; 96]%N)
  /\ (forall a b, s <> a ++ [58; 32]%N ++ b) /\ (forall a b, s <> a ++ [32; 35]%N ++ b)
  /\ (forall a, s <> a ++ [58]%N) /\ (forall a, s <> a ++ [32]%N)
  /\ ~ In (map lower_ascii s) [$"null"; $"~"; $"true"; $"false"].

(** What stands on a line, and the text YAML reads from it. *)
Inductive scalar_text : str -> str -> Prop :=
| text_quoted : forall s, scalar_text (39%N :: doubled s ++ [39%N]) s
| text_plain : forall s, plain_scalar s -> scalar_text s s.

(** The line breaks of Python's [splitlines]. *)
Definition breaks : list N := [10; 11; 12; 13; 28; 29; 30; 133; 8232; 8233]%N.

(** A text and its lines: each line but the last ends with a line break; nothing follows the last break
    of a text that ends with one. *)
Inductive cut_lines : str -> list str -> Prop :=
| cut_none : cut_lines [] []
| cut_last : forall l, l <> [] -> (forall c, In c l -> ~ In c breaks) -> cut_lines l [l]
| cut_break : forall l c r ls, (forall d, In d l -> ~ In d breaks) -> In c breaks -> cut_lines r ls ->
    cut_lines (l ++ c :: r) (l :: ls).
