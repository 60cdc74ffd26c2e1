(** * The structured text format. *)
From Verif Require Export Extract.

Section StructuredText.
Context (E : env).

(** ** Serialization *)

(** [sorted(content.items())]: by key, the keys of a dict being different.  Keys that are neither all
    strings nor all integers are not modelled.
    /repo/scheme/formats/structuredtext.py:35, xml.py:52, 57, yaml.py:107 *)
Fixpoint insert_item {A} (kv : str * A) (l : list (str * A)) : list (str * A) :=
  match l with
  | [] => [kv]
  | kw :: l' => if str_leb (fst kv) (fst kw) then kv :: l else kw :: insert_item kv l'
  end.
(** Insertion by number.  /repo/scheme/formats/structuredtext.py:35 *)
Fixpoint insert_numbered {A} (kv : Z * A) (l : list (Z * A)) : list (Z * A) :=
  match l with
  | [] => [kv]
  | kw :: l' => if (fst kv <=? fst kw)%Z then kv :: l else kw :: insert_numbered kv l'
  end.
(** The items when all keys are of one type.  /repo/scheme/formats/structuredtext.py:35 *)
Fixpoint keyed {K A} (proj : val -> option K) (l : list (val * A)) : option (list (K * A)) :=
  match l with
  | [] => Some []
  | (k, v) :: l' => match proj k, keyed proj l' with Some a, Some r => Some ((a, v) :: r) | _, _ => None end
  end.
(** [sorted(content.items())].  /repo/scheme/formats/structuredtext.py:35 *)
Definition sorted_items {A} (l : list (val * A)) : res (list (val * A)) :=
  match keyed (fun k => match k with VStr s => Some s | _ => None end) l with
  | Some r => Ok (map (fun kv => (VStr (fst kv), snd kv)) (fold_right insert_item [] r))
  | None =>
      match keyed (fun k => match k with VInt z => Some z | _ => None end) l with
      | Some r => Ok (map (fun kv => (VInt (fst kv), snd kv)) (fold_right insert_numbered [] r))
      | None => match l with [_] => Ok l | _ => py (OtherError 0) end
      end
  end.

(** The characters of STRUCTURE_TOKENS_EXPR and ESCAPED_TOKENS_EXPR.
    /repo/scheme/formats/structuredtext.py:15-16 *)
Definition is_bracket (c : N) : bool := (c =? 123)%N || (c =? 125)%N || (c =? 91)%N || (c =? 93)%N.

(** [STRUCTURE_TOKENS_EXPR.sub(r'\\\1', content)].  /repo/scheme/formats/structuredtext.py:48 *)
Fixpoint escape (s : str) : str :=
  match s with
  | [] => []
  | c :: s' => if is_bracket c then 92%N :: c :: escape s' else c :: escape s'
  end.

(** [ESCAPED_TOKENS_EXPR.sub(r'\1', value)].  /repo/scheme/formats/structuredtext.py:112 *)
Fixpoint unescape (s : str) : str :=
  match s with
  | c :: ((d :: s'') as s') => if (c =? 92)%N && is_bracket d then d :: unescape s'' else c :: unescape s'
  | _ => s
  end.

(** [str(content)].  /repo/scheme/formats/structuredtext.py:36, 50 *)
Definition text_of (v : val) : str :=
  match v with VStr s => s | VInt z => Z_text z | _ => e_str E v end.

(** [StructuredText._serialize_content]; the dict is sorted after its values are serialized here, which
    gives the same text.  A dict that cannot be sorted fails (see [sorted_items]).
    /repo/scheme/formats/structuredtext.py:31-50 *)
Fixpoint st_serialize (v : val) : res str :=
  match v with
  | VDict _ l | VSurr _ _ _ l =>
      do parts <- (fix go (l : list (val * val)) : res (list (val * val)) :=
                     match l with
                     | [] => Ok []
                     | (k, x) :: l' => do t <- st_serialize x; do r <- go l'; Ok ((k, VStr t) :: r)
                     end) l;
      do items <- sorted_items parts;
      Ok ($"{" ++ join $"," (map (fun kv => text_of (fst kv) ++ $":" ++ text_of (snd kv)) items) ++ $"}")
  | VList l | VTuple l =>
      do parts <- (fix go (l : list val) : res (list str) :=
                     match l with
                     | [] => Ok []
                     | x :: l' => do t <- st_serialize x; do r <- go l'; Ok (t :: r)
                     end) l;
      Ok ($"[" ++ join $"," parts ++ $"]")
  | VBool true => Ok $"true"
  | VBool false => Ok $"false"
  | VNone => Ok $"null"
  | VStr s => Ok (escape s)
  | _ => Ok (text_of v)
  end.

(** ** Unserialization *)

(** [StructuredText._unserialize_simple_value].  /repo/scheme/formats/structuredtext.py:102-123 *)
Definition simple_value (numbers : bool) (s : str) : val :=
  let candidate := lower (e_ulower E) s in
  if str_eqb candidate $"true" then VBool true
  else if str_eqb candidate $"false" then VBool false
  else if str_eqb candidate $"null" then VNone
  else if negb numbers then VStr (unescape s)
  else
    match (if existsb (N.eqb 46) s then parse_float (e_udigit E) s else None) with
    | Some x => VFloat x
    | None => match parse_int (e_udigit E) s with Some z => VInt z | None => VStr s end
    end.

(** The match of one of the two alternatives of STRUCTURE_EXPR after its opening bracket: escapes and
    characters other than the backslash and [bad] up to the first [close]; [None] is no match.  The
    repetition is lazy and a closing bracket is tried first, so the match is the shortest, and there
    is nothing to backtrack.  /repo/scheme/formats/structuredtext.py:12-14 *)
Fixpoint scan (close : N) (bad : N -> bool) (s : str) : option str :=
  match s with
  | [] => None
  | c :: s' =>
      if (c =? close)%N then Some [c]
      else if (c =? 92)%N then
        match s' with
        | d :: s'' => if is_bracket d || (d =? 92)%N
                      then option_map (fun m => c :: d :: m) (scan close bad s'') else None
        | [] => None
        end
      else if bad c then None else option_map (cons c) (scan close bad s')
  end.
(** What may not stand inside the braces.  /repo/scheme/formats/structuredtext.py:12-14 *)
Definition bad_in_dict (c : N) : bool := (c =? 123)%N || (c =? 91)%N || (c =? 93)%N.
(** What may not stand inside the brackets.  /repo/scheme/formats/structuredtext.py:12-14 *)
Definition bad_in_list (c : N) : bool := (c =? 123)%N || (c =? 125)%N || (c =? 91)%N.

(** The match of STRUCTURE_EXPR at the start of [s].  /repo/scheme/formats/structuredtext.py:12-14 *)
Definition structure_match (s : str) : option str :=
  match s with
  | 123%N :: s' => option_map (cons 123%N) (scan 125 bad_in_dict s')
  | 91%N :: s' => option_map (cons 91%N) (scan 93 bad_in_list s')
  | _ => None
  end.

(** The value a token stands for, else the simple value.
    /repo/scheme/formats/structuredtext.py:61-64, 77-80 *)
Definition token_value (numbers : bool) (structures : list (str * val)) (s : str) : val :=
  match aget s structures with Some v => v | None => simple_value numbers s end.

(** [pair.split(':', 1)]; [None] when there is no colon.  /repo/scheme/formats/structuredtext.py:53-85 *)
Fixpoint split_pair (s : str) : option (str * str) :=
  match s with
  | [] => None
  | c :: s' => if (c =? 58)%N then Some ([], s')
               else match split_pair s' with Some (a, b) => Some (c :: a, b) | None => None end
  end.

(** The pairs of a dict; a pair without colon does not unpack.
    /repo/scheme/formats/structuredtext.py:57-67 *)
Fixpoint read_pairs (numbers : bool) (structures : list (str * val)) (l : list str)
  : res (list (val * val)) :=
  match l with
  | [] => Ok []
  | p :: l' =>
      match split_pair p with
      | None => py ValueError
      | Some (k, t) => do r <- read_pairs numbers structures l';
                       Ok ((VStr k, token_value numbers structures t) :: r)
      end
  end.

(** [StructuredText._unserialize_structure] of a match.  [dict(pairs)] keeps the last of equal keys at
    the place of the first.  /repo/scheme/formats/structuredtext.py:52-84 *)
Definition read_structure (numbers : bool) (structures : list (str * val)) (m : str) : res val :=
  let tokens := removelast (tl m) in
  match m with
  | 123%N :: _ =>
      match tokens with
      | [] => Ok (VDict false [])
      | _ => do pairs <- read_pairs numbers structures (split_on 44 tokens);
             Ok (VDict false (fold_left (fun d kv => dset (e_local E) (fst kv) (snd kv) d) pairs []))
      end
  | _ =>
      match tokens with
      | [] => Ok (VList [])
      | _ => Ok (VList (map (token_value numbers structures) (split_on 44 tokens)))
      end
  end.

(** ['||%d||' % len(structures)].  /repo/scheme/formats/structuredtext.py:92 *)
Definition token (n : nat) : str := $"||" ++ N_text (N.of_nat n) ++ $"||".

(** [expr.subn(replace, text)]: from left to right; [skip] characters belong to the last match.
    The result is the table of structures, the new text and the number of matches.
    /repo/scheme/formats/structuredtext.py:91-98 *)
Fixpoint pass (numbers : bool) (skip : nat) (structures : list (str * val)) (s : str)
  : res (list (str * val) * str * nat) :=
  match s with
  | [] => Ok (structures, [], O)
  | c :: s' =>
      match skip with
      | S k => pass numbers k structures s'
      | O =>
          match structure_match s with
          | Some m =>
              do v <- read_structure numbers structures m;
              let tok := token (length structures) in
              do r <- pass numbers (length m - 1) (structures ++ [(tok, v)]) s';
              Ok (fst (fst r), tok ++ snd (fst r), S (snd r))
          | None =>
              do r <- pass numbers O structures s';
              Ok (fst (fst r), c :: snd (fst r), snd r)
          end
      end
  end.

(** The loop of [_unserialize_structured_value]; [None] is running out of fuel.
    /repo/scheme/formats/structuredtext.py:97-100 *)
Fixpoint passes (numbers : bool) (fuel : nat) (structures : list (str * val)) (s : str)
  : option (res val) :=
  match fuel with
  | O => None
  | S fuel' =>
      match pass numbers O structures s with
      | Raise x => Some (Raise x)
      | Ok (structures', s', O) =>
          Some (match aget s' structures' with Some v => Ok v | None => py KeyError end)
      | Ok (structures', s', S _) => passes numbers fuel' structures' s'
      end
  end.

(** The opening brackets of a text.
    The fuel of the loop at /repo/scheme/formats/structuredtext.py:87-101, whose rounds each remove
    a pair of brackets. *)
Fixpoint openings (s : str) : nat :=
  match s with
  | [] => O
  | c :: s' => if (c =? 123)%N || (c =? 91)%N then S (openings s') else openings s'
  end.

(** [StructuredText._unserialize_structured_value]; the fuel suffices (C59).
    /repo/scheme/formats/structuredtext.py:86-100 *)
Definition structured_value (numbers : bool) (s : str) : res val :=
  match passes numbers (S (openings s)) [] s with
  | Some r => r
  | None => py RecursionError
  end.

(** [StructuredText.unserialize] of a string.  /repo/scheme/formats/structuredtext.py:22-29 *)
Definition st_unserialize (numbers : bool) (s : str) : res val :=
  match s with
  | [] => py IndexError
  | c :: _ => if (c =? 123)%N || (c =? 91)%N then structured_value numbers s
              else Ok (simple_value numbers s)
  end.

End StructuredText.
