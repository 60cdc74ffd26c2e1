(** * Specifications of the structured text format (C58 to C60). *)
From Coq Require Import Permutation.
From Verif Require Export Spec StText.

(** Characters with a meaning in structured text. *)
Definition separator (c : N) : Prop := In c $"{}[],\".

(** The form of the tokens the parser inserts. *)
Definition token_like (s : str) : Prop := exists n : N, s = $"||" ++ N_text n ++ $"||".

(** A text that is read back as itself: no separators, not a keyword, not like a token, and when
    numbers are parsed not a number. *)
Definition plain_text (E : env) (numbers : bool) (s : str) : Prop :=
  (forall c, In c s -> ~ separator c) /\ ~ token_like s
  /\ ~ In (lower (e_ulower E) s) [$"true"; $"false"; $"null"]
  /\ (numbers = true -> parse_int (e_udigit E) s = None /\ (In 46%N s -> parse_float (e_udigit E) s = None)).

(** A key: neither separators nor colons. *)
Definition plain_key (s : str) : Prop := forall c, In c s -> ~ separator c /\ c <> 58%N.

(** Nested lists and dicts of booleans, nulls and plain texts; also of integers when numbers are
    parsed.  A list of just the empty text is not distinguished from the empty list. *)
Inductive clean (E : env) (numbers : bool) : val -> Prop :=
| clean_bool : forall b, clean E numbers (VBool b)
| clean_null : clean E numbers VNone
| clean_int : forall z, numbers = true -> clean E numbers (VInt z)
| clean_text : forall s, plain_text E numbers s -> clean E numbers (VStr s)
| clean_list : forall l, (forall v, In v l -> clean E numbers v) -> l <> [VStr []] -> clean E numbers (VList l)
| clean_dict : forall o l,
    NoDup (map fst l) ->
    (forall k v, In (k, v) l -> exists s, k = VStr s /\ plain_key s) ->
    (forall k v, In (k, v) l -> clean E numbers v) ->
    clean E numbers (VDict o l).

(** [w] is [v] up to the order of dict entries, that is [v == w]. *)
Inductive reordered : val -> val -> Prop :=
| reordered_scalar : forall v,
    match v with VList _ | VTuple _ | VDict _ _ | VSurr _ _ _ _ => False | _ => True end -> reordered v v
| reordered_list : forall l m, Forall2 reordered l m -> reordered (VList l) (VList m)
| reordered_tuple : forall l m, Forall2 reordered l m -> reordered (VTuple l) (VTuple m)
| reordered_dict : forall o l l' m,
    Permutation l l' -> Forall2 (fun kv kw => fst kw = fst kv /\ reordered (snd kv) (snd kw)) l' m ->
    reordered (VDict o l) (VDict false m).

(** The loop of the parser, pass after pass, without any bound: [k] passes that replace something,
    then one that finds nothing (or a failure).  /repo/scheme/formats/structuredtext.py:97-100 *)
Inductive loop (E : env) (numbers : bool) : nat -> list (str * val) -> str -> res val -> Prop :=
| loop_last : forall st s st' s', pass E numbers O st s = Ok (st', s', O) ->
    loop E numbers O st s (match aget s' st' with Some v => Ok v | None => py KeyError end)
| loop_fails : forall st s x, pass E numbers O st s = Raise x -> loop E numbers O st s (Raise x)
| loop_more : forall st s st' s' c k r, pass E numbers O st s = Ok (st', s', S c) ->
    loop E numbers k st' s' r -> loop E numbers (S k) st s r.
