(** * The JSON format: what [json.dumps] and [json.loads] do with their default arguments.

    Not modelled: the recursion limit of the interpreter, documents given as bytes, float subclasses,
    reference cycles. *)
From Verif Require Export XmlText.

Section Json.
Context (E : env).

(** ** [json.dumps] *)

(** A hexadecimal digit, lower case.  Used through [json.dumps] (/repo/scheme/formats/json.py:16). *)
Definition json_hex (n : N) : N := if (n <? 10)%N then (48 + n)%N else (87 + n)%N.

(** [\uXXXX].  Used through [json.dumps] (/repo/scheme/formats/json.py:16). *)
Definition json_u (c : N) : str :=
  [92; 117; json_hex (c / 4096); json_hex (c / 256 mod 16); json_hex (c / 16 mod 16); json_hex (c mod 16)]%N.

(** One character of a text (json/encoder.py [py_encode_basestring_ascii]): printable ASCII stays,
    others are escaped, beyond 16 bits by a surrogate pair.
    Used through [json.dumps] (/repo/scheme/formats/json.py:16). *)
Definition json_char (c : N) : str :=
  if (c =? 34)%N then [92; 34]%N
  else if (c =? 92)%N then [92; 92]%N
  else if (c =? 10)%N then [92; 110]%N
  else if (c =? 13)%N then [92; 114]%N
  else if (c =? 9)%N then [92; 116]%N
  else if (c =? 12)%N then [92; 102]%N
  else if (c =? 8)%N then [92; 98]%N
  else if ((32 <=? c) && (c <=? 126))%N then [c]
  else if (c <? 65536)%N then json_u c
  else json_u (55296 + (c - 65536) / 1024)%N ++ json_u (56320 + (c - 65536) mod 1024)%N.

(** A text with its quotes.  Used through [json.dumps] (/repo/scheme/formats/json.py:16). *)
Definition json_quote (s : str) : str := 34%N :: flat_map json_char s ++ [34%N].

(** A float: [float.__repr__] is [e_str].  Used through [json.dumps] (/repo/scheme/formats/json.py:16). *)
Definition json_float (f : spec_float) : str :=
  match f with
  | S754_nan => $"NaN"
  | S754_infinity false => $"Infinity"
  | S754_infinity true => $"-Infinity"
  | _ => e_str E (VFloat f)
  end.

(** The text of a key; [None] is TypeError.
    Used through [json.dumps] (/repo/scheme/formats/json.py:16). *)
Definition json_key (k : val) : option str :=
  match k with
  | VStr s => Some s
  | VFloat f => Some (json_float f)
  | VBool true => Some $"true"
  | VBool false => Some $"false"
  | VNone => Some $"null"
  | VInt z => Some (Z_text z)
  | _ => None
  end.

(** [Json.serialize]: [json.dumps(value)].  /repo/scheme/formats/json.py:14-16 *)
Fixpoint json_serialize (v : val) : res str :=
  match v with
  | VNone => Ok $"null"
  | VBool true => Ok $"true"
  | VBool false => Ok $"false"
  | VInt z => Ok (Z_text z)
  | VFloat f => Ok (json_float f)
  | VStr s => Ok (json_quote s)
  | VList l | VTuple l =>
      do parts <- (fix go (l : list val) : res (list str) :=
                     match l with
                     | [] => Ok []
                     | x :: l' => do t <- json_serialize x; do r <- go l'; Ok (t :: r)
                     end) l;
      Ok ($"[" ++ join $", " parts ++ $"]")
  | VDict _ l | VSurr _ _ _ l =>
      do parts <- (fix go (l : list (val * val)) : res (list str) :=
                     match l with
                     | [] => Ok []
                     | (k, x) :: l' =>
                         match json_key k with
                         | None => py TypeError
                         | Some kt =>
                             do t <- json_serialize x; do r <- go l'; Ok ((json_quote kt ++ $": " ++ t) :: r)
                         end
                     end) l;
      Ok ($"{" ++ join $", " parts ++ $"}")
  | _ => py TypeError
  end.

(** ** [json.loads] *)

(** [JSONDecodeError], a ValueError.  Used through [json.loads] (/repo/scheme/formats/json.py:20). *)
Definition json_bad {A} : res A := py ValueError.

(** [WHITESPACE] of json/decoder.py.  Used through [json.loads] (/repo/scheme/formats/json.py:20). *)
Definition json_white (c : N) : bool := (c =? 32)%N || (c =? 9)%N || (c =? 10)%N || (c =? 13)%N.
(** White space skipped.  Used through [json.loads] (/repo/scheme/formats/json.py:20). *)
Definition skip_white (s : str) : str := snd (span json_white s).

(** Four hexadecimal digits.  Used through [json.loads] (/repo/scheme/formats/json.py:20). *)
Definition json_code (a b c d : N) : option N :=
  match hex_digit a, hex_digit b, hex_digit c, hex_digit d with
  | Some w, Some x, Some y, Some z => Some (((w * 16 + x) * 16 + y) * 16 + z)%N
  | _, _, _, _ => None
  end.

(** Surrogates.  Used through [json.loads] (/repo/scheme/formats/json.py:20). *)
Definition high_surrogate (c : N) : bool := ((55296 <=? c) && (c <? 56320))%N.
(** Used through [json.loads] (/repo/scheme/formats/json.py:20). *)
Definition low_surrogate (c : N) : bool := ((56320 <=? c) && (c <? 57344))%N.

(** The characters after a backslash other than [u].
    Used through [json.loads] (/repo/scheme/formats/json.py:20). *)
Definition json_unescape (c : N) : option N :=
  if (c =? 34)%N then Some 34%N
  else if (c =? 92)%N then Some 92%N
  else if (c =? 47)%N then Some 47%N
  else if (c =? 98)%N then Some 8%N
  else if (c =? 102)%N then Some 12%N
  else if (c =? 110)%N then Some 10%N
  else if (c =? 114)%N then Some 13%N
  else if (c =? 116)%N then Some 9%N
  else None.

(** The second half of a surrogate pair, and what follows.
    Used through [json.loads] (/repo/scheme/formats/json.py:20). *)
Definition second_half (s : str) : option N :=
  match s with
  | b :: u :: w :: x :: y :: z :: _ =>
      if ((b =? 92) && (u =? 117))%N then
        match json_code w x y z with
        | Some d => if low_surrogate d then Some d else None
        | None => None
        end
      else None
  | _ => None
  end.

(** [scanstring] after the opening quote, strict (_json.c [scanstring_unicode]): the text and what
    follows the closing quote; [None] is JSONDecodeError.  [pending] is the first half of a surrogate
    pair whose second half comes next.
    Used through [json.loads] (/repo/scheme/formats/json.py:20). *)
Fixpoint json_chars (pending : option N) (s : str) : option (str * str) :=
  match s with
  | [] => None
  | c :: s' =>
      if (c =? 34)%N then Some ([], s')
      else if (c =? 92)%N then
        match s' with
        | [] => None
        | e :: s1 =>
            if (e =? 117)%N then
              match s1 with
              | w :: x :: y :: z :: s2 =>
                  match json_code w x y z with
                  | None => None
                  | Some d =>
                      match pending with
                      | Some h =>
                          match json_chars None s2 with
                          | Some (t, r) => Some ((65536 + (h - 55296) * 1024 + (d - 56320))%N :: t, r)
                          | None => None
                          end
                      | None =>
                          match (if high_surrogate d then second_half s2 else None) with
                          | Some _ => json_chars (Some d) s2
                          | None =>
                              match json_chars None s2 with
                              | Some (t, r) => Some (d :: t, r)
                              | None => None
                              end
                          end
                      end
                  end
              | _ => None
              end
            else
              match json_unescape e, json_chars None s1 with
              | Some d, Some (t, r) => Some (d :: t, r)
              | _, _ => None
              end
        end
      else if (c <? 32)%N then None
      else match json_chars None s' with
           | Some (t, r) => Some (c :: t, r)
           | None => None
           end
  end.

(** [(\.\d+)?] and [([eE][-+]?\d+)?]: what is matched and the rest.
    Used through [json.loads] (/repo/scheme/formats/json.py:20). *)
Definition json_fraction (s : str) : str * str :=
  match s with
  | c :: s' => if (c =? 46)%N then match span is_digit s' with
                                   | ([], _) => ([], s)
                                   | (ds, r) => (c :: ds, r)
                                   end
               else ([], s)
  | [] => ([], s)
  end.
(** The exponent of a number.  Used through [json.loads] (/repo/scheme/formats/json.py:20). *)
Definition json_exponent (s : str) : str * str :=
  match s with
  | c :: s' =>
      if ((c =? 101) || (c =? 69))%N then
        let (sg, s1) := match s' with
                        | d :: s2 => if ((d =? 45) || (d =? 43))%N then ([d], s2) else ([], s')
                        | [] => ([], s')
                        end in
        match span is_digit s1 with
        | ([], _) => ([], s)
        | (ds, r) => (c :: sg ++ ds, r)
        end
      else ([], s)
  | [] => ([], s)
  end.

(** [match_number] ([-?(0|[1-9]\d* )(\.\d+)?([eE][-+]?\d+)?], json/scanner.py).
    Used through [json.loads] (/repo/scheme/formats/json.py:20). *)
Definition json_minus (s : str) : str * str :=
  match s with c :: s' => if (c =? 45)%N then ([c], s') else ([], s) | [] => ([], s) end.
(** The digits before the point.  Used through [json.loads] (/repo/scheme/formats/json.py:20). *)
Definition json_whole (s : str) : str * str :=
  match s with c :: s' => if (c =? 48)%N then ([c], s') else span is_digit s | [] => ([], s) end.
(** A number.  Used through [json.loads] (/repo/scheme/formats/json.py:20). *)
Definition json_number (s : str) : res (val * str) :=
  let (sg, s1) := json_minus s in
  let (ip, s2) := json_whole s1 in
  match ip with
  | [] => json_bad
  | _ =>
      let (fr, s3) := json_fraction s2 in
      let (ex, s4) := json_exponent s3 in
      match fr ++ ex with
      | [] => match parse_int (e_udigit E) (sg ++ ip) with Some z => Ok (VInt z, s4) | None => json_bad end
      | _ => match parse_float (e_udigit E) (sg ++ ip ++ fr ++ ex) with
             | Some f => Ok (VFloat f, s4)
             | None => json_bad
             end
      end
  end.

(** The constants, then numbers (json/scanner.py [_scan_once]).
    Used through [json.loads] (/repo/scheme/formats/json.py:20). *)
Definition json_word (s : str) : res (val * str) :=
  if starts_with $"null" s then Ok (VNone, skipn 4 s)
  else if starts_with $"true" s then Ok (VBool true, skipn 4 s)
  else if starts_with $"false" s then Ok (VBool false, skipn 5 s)
  else if starts_with $"NaN" s then Ok (VFloat S754_nan, skipn 3 s)
  else if starts_with $"Infinity" s then Ok (VFloat (S754_infinity false), skipn 8 s)
  else if starts_with $"-Infinity" s then Ok (VFloat (S754_infinity true), skipn 9 s)
  else json_number s.

(** The scanner (json/scanner.py [_scan_once], json/decoder.py [JSONArray], [JSONObject]).  Running
    out of fuel is RecursionError; [json_unserialize] gives enough.
    Used through [json.loads] (/repo/scheme/formats/json.py:20). *)
Fixpoint json_value (n : nat) (s : str) : res (val * str) :=
  match n with
  | O => py RecursionError
  | S m =>
      match s with
      | [] => json_bad
      | c :: r =>
          if (c =? 34)%N then
            match json_chars None r with Some (t, r') => Ok (VStr t, r') | None => json_bad end
          else if (c =? 91)%N then
            match skip_white r with
            | [] => json_bad
            | d :: r' => if (d =? 93)%N then Ok (VList [], r')
                         else do x <- json_items m (d :: r'); Ok (VList (fst x), snd x)
            end
          else if (c =? 123)%N then
            match skip_white r with
            | [] => json_bad
            | d :: r' => if (d =? 125)%N then Ok (VDict false [], r')
                         else do x <- json_members m [] (d :: r'); Ok (VDict false (fst x), snd x)
            end
          else json_word s
      end
  end
with json_items (n : nat) (s : str) : res (list val * str) :=
  match n with
  | O => py RecursionError
  | S m =>
      do x <- json_value m s;
      match skip_white (snd x) with
      | [] => json_bad
      | d :: r => if (d =? 93)%N then Ok ([fst x], r)
                  else if (d =? 44)%N then
                    do y <- json_items m (skip_white r); Ok (fst x :: fst y, snd y)
                  else json_bad
      end
  end
with json_members (n : nat) (acc : list (val * val)) (s : str) : res (list (val * val) * str) :=
  match n with
  | O => py RecursionError
  | S m =>
      match s with
      | [] => json_bad
      | q :: s1 =>
          if (q =? 34)%N then
            match json_chars None s1 with
            | None => json_bad
            | Some (k, s2) =>
                match skip_white s2 with
                | [] => json_bad
                | p :: s3 =>
                    if (p =? 58)%N then
                      do x <- json_value m (skip_white s3);
                      let acc' := sset k (fst x) acc in
                      match skip_white (snd x) with
                      | [] => json_bad
                      | d :: r => if (d =? 125)%N then Ok (acc', r)
                                  else if (d =? 44)%N then json_members m acc' (skip_white r)
                                  else json_bad
                      end
                    else json_bad
                end
            end
          else json_bad
      end
  end.

(** [Json.unserialize]: [json.loads(value)] of a text; a byte order mark is refused.
    /repo/scheme/formats/json.py:18-20 *)
Definition json_unserialize (s : str) : res val :=
  match s with
  | 65279%N :: _ => json_bad
  | _ =>
      do x <- json_value (S (2 * length s)) (skip_white s);
      match skip_white (snd x) with
      | [] => Ok (fst x)
      | _ => json_bad
      end
  end.

End Json.
