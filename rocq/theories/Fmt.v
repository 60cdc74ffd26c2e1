(** * Model of [StructureFormatter] and [format_structure] of /repo/scheme/util.py:151-232. *)
From Verif Require Export Util Construct.

Section Formatter.
(** [repr(value)] of texts and of anything that is not a dict, list or tuple; [str(key)] of keys that
    are not texts.  /repo/scheme/util.py:172, 179, 183, 216, 228 *)
Variable repr : val -> str.
(** /repo/scheme/util.py:172 *)
Variable text : val -> str.
(** The constructor arguments.  /repo/scheme/util.py:152-156 *)
Variable abbreviate : bool.
(** /repo/scheme/util.py:152-156 *)
Variable masks : list str.
(** /repo/scheme/util.py:152-156 *)
Variable width : nat.

(** What [_format_value] returns: a text, or a list of lines.  /repo/scheme/util.py:164-228 *)
Inductive shown := One (s : str) | Lines (first : str) (middle : list str) (last : str).

(** [k < j] as [sorted] uses it on the keys of a dict: texts with texts, numbers with numbers, else
    TypeError.  Simplifications: signalling NaNs compare like others; keys of other types that can be
    ordered (bytes, dates, tuples) count as unorderable.  /repo/scheme/util.py:168 *)
Definition key_lt (k j : val) : res bool :=
  match k, j with
  | VStr a, VStr b => Ok (negb (str_leb b a))
  | _, _ => match num_of k, num_of j with
            | Some a, Some b => Ok (num_ltb a b)
            | _, _ => py TypeError
            end
  end.

(** Insertion behind all that is not greater, which is what a stable sort does.  The keys of a dict
    differ, so the values are never compared.  /repo/scheme/util.py:168 *)
Fixpoint insert_item {A} (x : val * A) (l : list (val * A)) : res (list (val * A)) :=
  match l with
  | [] => Ok [x]
  | y :: l' => do b <- key_lt (fst x) (fst y);
               if b then Ok (x :: l) else do r <- insert_item x l'; Ok (y :: r)
  end.
(** [sorted(value.items())].  /repo/scheme/util.py:168 *)
Fixpoint sort_items {A} (done l : list (val * A)) : res (list (val * A)) :=
  match l with
  | [] => Ok done
  | x :: l' => do d <- insert_item x done; sort_items d l'
  end.

(** [str(k)].  /repo/scheme/util.py:169-172 *)
Definition key_text (k : val) : str := match k with VStr s => s | _ => text k end.

(** [self.indent * level].  /repo/scheme/util.py:154, 165, 187 *)
Definition margin (level : nat) : str := blanks (width * level).

(** One round of the loop of [_format_dict]: the two lists afterwards.
    /repo/scheme/util.py:173-182 *)
Definition dict_round (level : nat) (k : val) (d : shown) (acc : list str * list str) : list str * list str :=
  let pre := margin (S level) ++ repr (VStr (key_text k)) ++ $": " in
  match d with
  | One s => (fst acc ++ [pre ++ s ++ $","], snd acc)
  | Lines first middle last =>
      (fst acc, snd acc ++ [pre ++ first] ++ middle ++ [margin (S level) ++ last ++ $","])
  end.
(** The loop.  /repo/scheme/util.py:168-182 *)
Fixpoint dict_rounds (level : nat) (items : list (val * res shown)) (acc : list str * list str)
  : res (list str * list str) :=
  match items with
  | [] => Ok acc
  | (k, d) :: items' =>
      do d' <- (if smem (key_text k) masks then Ok (One $"***MASKED***") else d);
      dict_rounds level items' (dict_round level k d' acc)
  end.
(** [_format_dict]; the items come with what [_format_value] gives for their values.  The first of
    them to fail decides, as in the loop.  /repo/scheme/util.py:164-184 *)
Definition format_dict (level : nat) (items : list (val * res shown)) : res shown :=
  do sorted <- sort_items [] items;
  do r <- dict_rounds level sorted ([], []);
  Ok (Lines $"{" (fst r ++ snd r) $"}").

(** The loop of [_format_list]: the lines, and whether all values were single lines.
    /repo/scheme/util.py:190-199 *)
Fixpoint list_rounds (level : nat) (ds : list (res shown)) : res (list str * bool) :=
  match ds with
  | [] => Ok ([], true)
  | d :: ds' =>
      do d' <- d;
      do r <- list_rounds level ds';
      match d' with
      | One s => Ok ((margin (S level) ++ s ++ $",") :: fst r, snd r)
      | Lines first middle last =>
          Ok ((margin (S level) ++ first) :: middle ++ (margin (S level) ++ last ++ $",") :: fst r, false)
      end
  end.
(** [l.strip().rstrip(',')].  /repo/scheme/util.py:202 *)
Definition trimmed (l : str) : str := rstrip (N.eqb 44) (strip is_space l).
(** [_format_list] with the two tokens.  /repo/scheme/util.py:186-206 *)
Definition format_list (level : nat) (opening closing : str) (ds : list (res shown)) : res shown :=
  do r <- list_rounds level ds;
  let single := opening ++ join $", " (map trimmed (fst r)) ++ closing in
  if snd r && (zlen single <=? 60)%Z then Ok (One single)
  else Ok (Lines opening (fst r) closing).

(** [_format_string].  /repo/scheme/util.py:208-216 *)
Definition format_string (s : str) : res shown :=
  do s' <- (if abbreviate then abbreviate_string s 0 else Ok s);
  Ok (One (repr (VStr s'))).

(** [_format_value].  /repo/scheme/util.py:218-228 *)
Fixpoint format_value (level : nat) (v : val) : res shown :=
  match v with
  | VDict _ l | VSurr _ _ _ l =>
      format_dict level
        ((fix items (l : list (val * val)) : list (val * res shown) :=
            match l with
            | [] => []
            | (k, x) :: l' => (k, format_value (S level) x) :: items l'
            end) l)
  | VList l =>
      format_list level $"[" $"]"
        ((fix each (l : list val) : list (res shown) :=
            match l with [] => [] | x :: l' => format_value (S level) x :: each l' end) l)
  | VTuple l =>
      format_list level $"(" $")"
        ((fix each (l : list val) : list (res shown) :=
            match l with [] => [] | x :: l' => format_value (S level) x :: each l' end) l)
  | VStr s => format_string s
  | _ => Ok (One (repr v))
  end.

(** [format_structure], [StructureFormatter.format].  /repo/scheme/util.py:158-162, 230-232 *)
Definition format_structure (level : nat) (v : val) : res str :=
  do d <- format_value level v;
  match d with
  | One s => Ok s
  | Lines first middle last => Ok (join [10%N] (first :: middle ++ [last]))
  end.

End Formatter.
