(** * Vocabulary of the claim about [format_structure] (C78). *)
From Verif Require Export UtilSpec BuildSpec Fmt.

(** The key [k] is written as the text [s]: itself, or [str(k)]. *)
Definition written_as (text : val -> str) (k : val) (s : str) : Prop :=
  k = VStr s \/ (forall t, k <> VStr t) /\ s = text k.

(** Two values that differ at most in what is under masked keys, at any depth, in the order of the
    items of dicts with text keys, and in dicts being surrogates. *)
Inductive same_unmasked (text : val -> str) (masks : list str) : val -> val -> Prop :=
| su_same : forall v, same_unmasked text masks v v
| su_trans : forall u v w, same_unmasked text masks u v -> same_unmasked text masks v w ->
    same_unmasked text masks u w
| su_masked : forall o a k x y b s, written_as text k s -> In s masks ->
    same_unmasked text masks (VDict o (a ++ (k, x) :: b)) (VDict o (a ++ (k, y) :: b))
| su_under_key : forall o a k x y b, same_unmasked text masks x y ->
    same_unmasked text masks (VDict o (a ++ (k, x) :: b)) (VDict o (a ++ (k, y) :: b))
| su_list : forall a x y b, same_unmasked text masks x y ->
    same_unmasked text masks (VList (a ++ x :: b)) (VList (a ++ y :: b))
| su_tuple : forall a x y b, same_unmasked text masks x y ->
    same_unmasked text masks (VTuple (a ++ x :: b)) (VTuple (a ++ y :: b))
| su_order : forall o o' l l' names, map fst l = map VStr names -> NoDup names -> Permutation l l' ->
    same_unmasked text masks (VDict o l) (VDict o' l')
| su_surrogate : forall i s n o l, same_unmasked text masks (VSurr i s n l) (VDict o l).

(** [v] is neither a dict nor a list nor a tuple, and is shown as [s]. *)
Definition shown_flat (repr : val -> str) (v : val) (s : str) : Prop :=
  as_dict v = None /\ (forall l, v <> VList l /\ v <> VTuple l) /\ s = repr v.
(** The text begins and ends with a character that is not blank, and does not end with a comma. *)
Definition compact (s : str) : Prop :=
  s <> [] /\ (forall c r, s = c :: r -> is_space c = false)
  /\ (forall c r, s = r ++ [c] -> is_space c = false /\ c <> 44%N).

(** The lines of a value inside a container: all but the inner ones are indented, the text [pre] precedes
    the first and a comma follows the last. *)
Definition hung (indent pre : str) (block : list str) : list str :=
  match block with
  | [] => []
  | [s] => [indent ++ pre ++ s ++ $","]
  | first :: rest => (indent ++ pre ++ first) :: removelast rest ++ [indent ++ last rest [] ++ $","]
  end.
Definition single (block : list str) : bool := match block with [_] => true | _ => false end.

(** How values of any depth are shown, line by line: lists and tuples on one line if all their values are
    and that line has at most 60 characters, else with their values one below the other; dicts always so,
    in the order of the keys, but with all values of one line before the others. *)
Inductive shows (repr : val -> str) (masks : list str) (width : nat) : nat -> val -> list str -> Prop :=
| shows_flat : forall level v s, shown_flat repr v s -> compact s -> shows repr masks width level v [s]
| shows_line : forall level v values texts opening closing,
    v = VList values /\ opening = $"[" /\ closing = $"]" \/ v = VTuple values /\ opening = $"(" /\ closing = $")" ->
    Forall2 (fun x s => shows repr masks width (S level) x [s]) values texts ->
    (zlen (opening ++ join $", " texts ++ closing) <= 60)%Z ->
    shows repr masks width level v [opening ++ join $", " texts ++ closing]
| shows_lines : forall level v values blocks opening closing,
    v = VList values /\ opening = $"[" /\ closing = $"]" \/ v = VTuple values /\ opening = $"(" /\ closing = $")" ->
    Forall2 (fun x b => shows repr masks width (S level) x b) values blocks ->
    (forall texts, blocks = map (fun s => [s]) texts -> (60 < zlen (opening ++ join $", " texts ++ closing))%Z) ->
    shows repr masks width level v
      ([opening] ++ concat (map (hung (blanks (width * S level)) []) blocks) ++ [closing])
| shows_dict : forall level o l (entries sorted : list (str * list str)),
    Forall2 (fun kx e => fst kx = VStr (fst e)
               /\ (In (fst e) masks /\ snd e = [$"***MASKED***"]
                   \/ ~ In (fst e) masks /\ shows repr masks width (S level) (snd kx) (snd e))) l entries ->
    NoDup (map fst entries) -> Permutation entries sorted -> StronglySorted str_le (map fst sorted) ->
    let item := fun e => hung (blanks (width * S level)) (repr (VStr (fst e)) ++ $": ") (snd e) in
    shows repr masks width level (VDict o l)
      ([$"{"] ++ concat (map item (filter (fun e => single (snd e)) sorted))
       ++ concat (map item (filter (fun e => negb (single (snd e))) sorted)) ++ [$"}"]).

(** The values that are shown: the keys of every dict in them are different texts, and the
    representations of single values are [compact]. *)
Fixpoint presentable (repr : val -> str) (v : val) : Prop :=
  match v with
  | VList l | VTuple l => (fix all (l : list val) : Prop := match l with [] => True | x :: l' => presentable repr x /\ all l' end) l
  | VDict _ l => (exists names, map fst l = map VStr names /\ NoDup names)
      /\ (fix all (l : list (val * val)) : Prop := match l with [] => True | (_, x) :: l' => presentable repr x /\ all l' end) l
  | VSurr _ _ _ _ => False
  | _ => compact (repr v)
  end.
