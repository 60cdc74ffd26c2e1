(** * The grammar of JSON (RFC 8259) with its meaning in Python (C74). *)
From Verif Require Export Spec JsonSpec.

(** White space.  Used through [json.loads] (/repo/scheme/formats/json.py:20). *)
Definition white (w : str) : Prop := forall c, In c w -> In c [32; 9; 10; 13]%N.

(** A hexadecimal digit and its value.  Used through [json.loads] (/repo/scheme/formats/json.py:20). *)
Definition hexadecimal (c n : N) : Prop :=
  (48 <= c <= 57 /\ n = c - 48)%N \/ (97 <= c <= 102 /\ n = c - 87)%N \/ (65 <= c <= 70 /\ n = c - 55)%N.
(** [\uXXXX] and its number.  Used through [json.loads] (/repo/scheme/formats/json.py:20). *)
Definition coded (c : N) (text : str) : Prop :=
  exists a b d e w x y z, text = ([92; 117; a; b; d; e])%N
    /\ hexadecimal a w /\ hexadecimal b x /\ hexadecimal d y /\ hexadecimal e z
    /\ (c = w * 4096 + x * 256 + y * 16 + z)%N.
(** The two halves of a pair of surrogates.  Used through [json.loads] (/repo/scheme/formats/json.py:20). *)
Definition high_half (c : N) : Prop := (55296 <= c <= 56319)%N.
(** Used through [json.loads] (/repo/scheme/formats/json.py:20). *)
Definition low_half (c : N) : Prop := (56320 <= c <= 57343)%N.

(** The text between quotes of a string.  Used through [json.loads] (/repo/scheme/formats/json.py:20). *)
Inductive quoted : str -> str -> Prop :=
| q_end : quoted [] []
| q_char c s t : (32 <= c)%N -> c <> 34%N -> c <> 92%N -> quoted s t -> quoted (c :: s) (c :: t)
| q_escape e c s t :
    In (e, c) [(34, 34); (92, 92); (47, 47); (98, 8); (102, 12); (110, 10); (114, 13); (116, 9)]%N ->
    quoted s t -> quoted (c :: s) (92%N :: e :: t)
| q_code c u s t :
    coded c u -> (high_half c -> forall d v r, coded d v -> low_half d -> t <> v ++ r) ->
    quoted s t -> quoted (c :: s) (u ++ t)
| q_pair h l u v s t :
    coded h u -> coded l v -> high_half h -> low_half l ->
    quoted s t -> quoted ((65536 + (h - 55296) * 1024 + (l - 56320))%N :: s) (u ++ v ++ t).

(** What Python makes of the members of an object: a later member replaces an earlier one in its place.
    Used through [json.loads] (/repo/scheme/formats/json.py:20). *)
Definition gathered (m : list (str * val)) : list (val * val) :=
  fold_left (fun d kv => sset (fst kv) (snd kv) d) m [].

(** The texts of values.  Used through [json.loads] (/repo/scheme/formats/json.py:20). *)
Inductive jvalue (E : env) : val -> str -> Prop :=
| jv_null : jvalue E VNone $"null"
| jv_true : jvalue E (VBool true) $"true"
| jv_false : jvalue E (VBool false) $"false"
| jv_nan : jvalue E (VFloat S754_nan) $"NaN"
| jv_inf : jvalue E (VFloat (S754_infinity false)) $"Infinity"
| jv_ninf : jvalue E (VFloat (S754_infinity true)) $"-Infinity"
| jv_int ds : ds <> [] -> (forall d, In d ds -> (d < 10)%N) -> ds = [0%N] \/ hd 0%N ds <> 0%N ->
    jvalue E (VInt (place_value ds)) (map (fun d => 48 + d)%N ds)
| jv_minus ds : ds <> [] -> (forall d, In d ds -> (d < 10)%N) -> ds = [0%N] \/ hd 0%N ds <> 0%N ->
    jvalue E (VInt (- place_value ds)) ($"-" ++ map (fun d => 48 + d)%N ds)
| jv_float f t : float_syntax t -> parse_float (e_udigit E) t = Some f -> jvalue E (VFloat f) t
| jv_text s t : quoted s t -> jvalue E (VStr s) ([34%N] ++ t ++ [34%N])
| jv_empty_list w : white w -> jvalue E (VList []) ($"[" ++ w ++ $"]")
| jv_list l t : jitems E l t -> jvalue E (VList l) ($"[" ++ t ++ $"]")
| jv_empty_dict w : white w -> jvalue E (VDict false []) ($"{" ++ w ++ $"}")
| jv_dict m t : jmembers E m t -> jvalue E (VDict false (gathered m)) ($"{" ++ t ++ $"}")
with jitems (E : env) : list val -> str -> Prop :=
| ji_one v w1 t w2 : white w1 -> jvalue E v t -> white w2 -> jitems E [v] (w1 ++ t ++ w2)
| ji_more v w1 t w2 l r :
    white w1 -> jvalue E v t -> white w2 -> jitems E l r -> jitems E (v :: l) (w1 ++ t ++ w2 ++ $"," ++ r)
with jmembers (E : env) : list (str * val) -> str -> Prop :=
| jm_one k v t : jmember E k v t -> jmembers E [(k, v)] t
| jm_more k v t m r : jmember E k v t -> jmembers E m r -> jmembers E ((k, v) :: m) (t ++ $"," ++ r)
with jmember (E : env) : str -> val -> str -> Prop :=
| jm_member k v w1 q w2 w3 t w4 :
    white w1 -> quoted k q -> white w2 -> white w3 -> jvalue E v t -> white w4 ->
    jmember E k v (w1 ++ [34%N] ++ q ++ [34%N] ++ w2 ++ $":" ++ w3 ++ t ++ w4).

(** A document: a value with white space around it.  Used through [json.loads]
    (/repo/scheme/formats/json.py:20). *)
Definition jdocument (E : env) (v : val) (t : str) : Prop :=
  exists w1 u w2, t = w1 ++ u ++ w2 /\ white w1 /\ jvalue E v u /\ white w2.
