(** Property theorems proved in UtilProofs.v (generated by tools/mkprops.py). *)
From Verif Require Import Spec Demo UtilSpec UtilProofs.

(** C68.  traverse_to_key returns exactly the value found by following the keys of the dotted
    path; it raises KeyError when a dict on the way misses the next key and TypeError when something
    else than a dict is on the way. *)
Theorem C68_traverse_to_key_exact :
  forall v segs path, dotted segs path ->
    (forall x, traverse_to_key v path = Ok x <-> follows v segs x)
    /\ (traverse_to_key v path = Raise (XPy KeyError) <->
        exists p k q d, segs = p ++ k :: q /\ follows v p d /\ no_item d k)
    /\ (traverse_to_key v path = Raise (XPy TypeError) <->
        exists p k q d, segs = p ++ k :: q /\ follows v p d /\ as_dict d = None)
    /\ ((exists x, traverse_to_key v path = Ok x) \/ traverse_to_key v path = Raise (XPy KeyError)
        \/ traverse_to_key v path = Raise (XPy TypeError)).
Proof. exact traverse_to_key_exact. Qed.
Print Assumptions C68_traverse_to_key_exact.

Example C68_example :
  dotted [$"a"; $"b"] $"a.b"
  /\ traverse_to_key (VDict false [(VStr $"a", VDict false [(VStr $"b", VInt 1)])]) $"a.b" = Ok (VInt 1)
  /\ traverse_to_key (VDict false [(VStr $"a", VInt 1)]) $"a.b" = Raise (XPy TypeError)
  /\ traverse_to_key (VDict false [(VStr $"c", VInt 1)]) $"a.b" = Raise (XPy KeyError).
Proof.
  split; [|repeat split; reflexivity]. split; [discriminate|]. split; [|reflexivity].
  repeat constructor; cbn; intros [H|[]]; discriminate.
Qed.

(** C68.  set_nested_value succeeds exactly when the path without its last key leads to a dict.
    Then traverse_to_key at the path returns the value set (and below it, what is below the value
    set), and every path that neither begins nor continues it leads where it led before.  Otherwise
    KeyError or TypeError is raised and nothing is modified. *)
Theorem C68_set_nested_value_exact :
  forall v segs lastk path x,
    dotted (segs ++ [lastk]) path ->
    let v' := fst (set_nested_value v path x) in
    let r := snd (set_nested_value v path x) in
    (r = Ok tt <-> exists d, follows v segs d /\ as_dict d <> None)
    /\ (r = Ok tt ->
          traverse_to_key v' path = Ok x
          /\ (forall below y, follows v' (segs ++ lastk :: below) y <-> follows x below y)
          /\ forall q y, apart (segs ++ [lastk]) q -> (follows v' q y <-> follows v q y))
    /\ (r <> Ok tt -> v' = v /\ (r = Raise (XPy KeyError) \/ r = Raise (XPy TypeError))).
Proof. exact set_nested_value_exact. Qed.
Print Assumptions C68_set_nested_value_exact.

Example C68_set_example :
  let v := VDict false [(VStr $"a", VDict false [(VStr $"b", VInt 1)]); (VStr $"c", VInt 2)] in
  set_nested_value v $"a.d" (VInt 3)
    = (VDict false [(VStr $"a", VDict false [(VStr $"b", VInt 1); (VStr $"d", VInt 3)]); (VStr $"c", VInt 2)], Ok tt)
  /\ set_nested_value v $"x.d" (VInt 3) = (v, Raise (XPy KeyError))
  /\ set_nested_value v $"c.d" (VInt 3) = (v, Raise (XPy TypeError))
  /\ apart [$"a"; $"d"] [$"a"; $"b"].
Proof. repeat split; intros r H; discriminate. Qed.

(** C69.  After recursive_merge the leaf at a path is that of the addition if it has one there;
    otherwise that of the original, provided the addition has nothing at that path and no leaf on
    the way to it. *)
Theorem C69_recursive_merge_leaves :
  forall L K o lo a la m,
    well_compared L K ->
    as_dict o = Some lo -> as_dict a = Some la -> as_dict m = Some (recursive_merge L lo a) ->
    keyed K o -> keyed K a -> proper L a ->
    forall path x, Forall K path ->
      (leaf L m path x <->
       leaf L a path x
       \/ leaf L o path x /\ (forall y, ~ holds L a path y)
          /\ (forall p k q y, path = p ++ k :: q -> ~ leaf L a p y)).
Proof. exact recursive_merge_leaves. Qed.
Print Assumptions C69_recursive_merge_leaves.

Example C69_example :
  let d l := VDict false l in
  let o := [(VStr $"a", d [(VStr $"b", VInt 1); (VStr $"c", VInt 2)]); (VStr $"e", d [(VStr $"f", VInt 3)])] in
  let a := d [(VStr $"a", d [(VStr $"c", VInt 4)]); (VStr $"e", VInt 5); (VStr $"g", VInt 6)] in
  recursive_merge (e_local env0) o a
  = [(VStr $"a", d [(VStr $"b", VInt 1); (VStr $"c", VInt 4)]); (VStr $"e", VInt 5); (VStr $"g", VInt 6)]
  /\ well_compared (e_local env0) (fun k => exists s, k = VStr s).
Proof.
  split; [reflexivity|].
  assert (Hq : forall a b, veq (e_local env0) (VStr a) (VStr b) = true <-> a = b)
    by (intros a b; cbn; apply PyBaseFacts.str_eqb_eq).
  split; [|split].
  - intros k [s ->]. apply Hq. reflexivity.
  - intros k k' [s ->] [s' ->] H. apply Hq in H. apply Hq. congruence.
  - intros k k' k'' [s ->] [s' ->] [s'' ->] H H'. apply Hq in H, H'. apply Hq. congruence.
Qed.

(** C70.  indent puts the blanks before exactly the lines of the text, the first one only if
    asked. *)
Theorem C70_indent_lines :
  forall n l ls, Forall (fun x => ~ In 10%N x) (l :: ls) ->
    indent (join [10%N] (l :: ls)) n true = join [10%N] (map (fun x => repeat 32%N n ++ x) (l :: ls))
    /\ indent (join [10%N] (l :: ls)) n false = join [10%N] (l :: map (fun x => repeat 32%N n ++ x) ls).
Proof. exact indent_lines. Qed.
Print Assumptions C70_indent_lines.

Example C70_indent_example :
  indent ($"a" ++ [10%N] ++ $"b") 2 true = $"  a" ++ [10%N] ++ $"  b".
Proof. reflexivity. Qed.

(** C70.  minimize_string joins the words of the text by single blanks, and every text is a
    sequence of words separated by white space. *)
Theorem C70_minimize_string_words :
  (forall s ws, words s ws -> minimize_string s = join [32%N] ws) /\ forall s, exists ws, words s ws.
Proof. exact minimize_string_words. Qed.
Print Assumptions C70_minimize_string_words.

Example C70_words_example :
  let s := $"  a" ++ [10%N; 9%N] ++ $"bc " in
  words s [$"a"; $"bc"] /\ minimize_string s = $"a bc".
Proof.
  split; [|reflexivity].
  apply (wo_more $"  " $"a" 10%N ([9%N] ++ $"bc ")); [repeat constructor|split; [discriminate|repeat constructor]|reflexivity|].
  apply (wo_more [10%N; 9%N] $"bc" 32%N []); [repeat constructor|split; [discriminate|repeat constructor]|reflexivity|].
  constructor. repeat constructor.
Qed.

(** C70.  minimize_string is idempotent. *)
Theorem C70_minimize_string_idempotent :
  forall s, minimize_string (minimize_string s) = minimize_string s.
Proof. exact minimize_string_idempotent. Qed.
Print Assumptions C70_minimize_string_idempotent.

Example C70_idempotent_example : minimize_string (minimize_string $" a  b ") = $"a b".
Proof. reflexivity. Qed.

(** C70.  abbreviate_string returns a text of at most four characters, or within the length asked for,
    unchanged; every longer text is a TypeError (the half length is a float on Python 3). *)
Theorem C70_abbreviate_exact :
  forall s maxlength,
    ((length s <= 4)%nat \/ (Z.of_nat (length s) <= maxlength)%Z -> abbreviate_string s maxlength = Ok s)
    /\ ((4 < length s)%nat /\ (maxlength < Z.of_nat (length s))%Z ->
        abbreviate_string s maxlength = Raise (XPy TypeError)).
Proof. exact abbreviate_exact. Qed.
Print Assumptions C70_abbreviate_exact.

Example C70_abbreviate_example :
  abbreviate_string $"four" 0 = Ok $"four" /\ abbreviate_string $"fives" 5 = Ok $"fives"
  /\ abbreviate_string $"a longer text" 9 = Raise (XPy TypeError).
Proof. repeat split. Qed.

(** C70.  pluralize returns the word itself for the quantity 1 (or 1.0, True, Decimal 1). *)
Theorem C70_pluralize_singular :
  forall L w q, veq L q (VInt 1) = true -> pluralize L w q = w.
Proof. exact pluralize_singular. Qed.
Print Assumptions C70_pluralize_singular.

Example C70_singular_example : pluralize (e_local env0) $"knife" (VBool true) = $"knife".
Proof. reflexivity. Qed.

(** C70.  pluralize otherwise returns the plural of the word by the rules (for words that do
    not end with a newline). *)
Theorem C70_pluralize_plural :
  forall L w q, veq L q (VInt 1) = false -> (forall x, w <> x ++ [10%N]) -> plural w (pluralize L w q).
Proof. exact pluralize_plural. Qed.
Print Assumptions C70_pluralize_plural.

Example C70_plural_example :
  map (fun w => pluralize (e_local env0) w VNone) [$"knife"; $"box"; $"church"; $"city"; $"day"; $"soliloquy"; $"half"]
  = [$"knives"; $"boxes"; $"churches"; $"cities"; $"days"; $"soliloquies"; $"halves"].
Proof. reflexivity. Qed.

(** C70.  At the end of a line both places match where a pattern may end: the newline stays behind the
    plural, except that the ending "es" is put both before and after it, and the ending "s" after it. *)
Theorem C70_pluralize_line :
  forall L w q,
    veq L q (VInt 1) = false -> (forall x, w <> x ++ [10%N]) ->
    let out := pluralize L (w ++ [10%N]) q in
    (pluralize L w q = w ++ $"es" -> out = w ++ $"es" ++ [10%N] ++ $"es")
    /\ (pluralize L w q = w ++ $"s" -> out = w ++ [10%N] ++ $"s")
    /\ (pluralize L w q <> w ++ $"es" -> pluralize L w q <> w ++ $"s" -> out = pluralize L w q ++ [10%N]).
Proof. exact pluralize_line. Qed.
Print Assumptions C70_pluralize_line.

Example C70_line_example :
  let nl := [10%N] in
  map (fun w => pluralize (e_local env0) (w ++ nl) VNone) [$"knife"; $"box"; $"day"; $"city"]
  = [$"knives" ++ nl; $"boxes" ++ nl ++ $"es"; $"day" ++ nl ++ $"s"; $"cities" ++ nl].
Proof. vm_compute. reflexivity. Qed.
