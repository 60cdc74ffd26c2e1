(** * What the claim about the texts of elements and surrogates says (C97). *)
From Verif Require Export ObjRepr Spec.

(** An object has an attribute if it or else its class has it.  /repo/scheme/element.py:85 *)
Inductive has_attribute (class_attr : nat -> str -> option val) (class : nat) (attrs : list (str * val)) (name : str)
  : val -> Prop :=
| attribute_own : forall v, aget name attrs = Some v -> has_attribute class_attr class attrs name v
| attribute_of_class : forall v, ~ In name (map fst attrs) -> class_attr class name = Some v ->
    has_attribute class_attr class attrs name v.

(** The text names the class and then, by the order of [names] and each at most once, those of [names] that
    stand for a value [P] other than null.  /repo/scheme/element.py:82-89 *)
Definition identifies (repr : val -> str) (class : str) (names : list str) (P : str -> val -> Prop) (text : str) : Prop :=
  exists shown : list (str * val),
    text = class ++ $"(" ++ join $", " (map (fun sv => fst sv ++ $"=" ++ repr (snd sv)) shown) ++ $")"
    /\ sublist (map fst shown) names
    /\ forall name v, In (name, v) shown <-> In name names /\ P name v /\ v <> VNone.
