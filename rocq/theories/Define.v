(** * Placeholders being defined: who holds what, as fields are constructed and placeholders defined. *)
From Coq Require Export List Arith Bool.
Export ListNotations.

(** What a container field holds at one position: a field (objects are numbers) or a placeholder.
    /repo/scheme/fields/tuple.py:34-48, fields/union.py:29-42, fields/sequence.py:45-58, fields/map.py:45-64,
    fields/structure.py:95-102.  Simplification: the positions of a structure are numbered as its dict lists
    them, those of its variants one after another; a sequence and a map have the one position 0.  Containers do not share a dict
    of fields, and are not cloned. *)
Inductive slot := SField (f : nat) | SUndef (u : nat).

(** [field] and [callbacks] of each placeholder, a callback being the container and the position it was
    registered with, and what each container holds, containers being numbered as they are constructed.
    /repo/scheme/field.py:624-626 *)
Record heap := { h_field : nat -> option nat; h_calls : nat -> list (nat * nat); h_parents : list (list slot) }.

(** Nothing constructed, nothing defined.  /repo/scheme/field.py:624-626 *)
Definition heap0 : heap := {| h_field := fun _ => None; h_calls := fun _ => []; h_parents := [] |}.

(** [self.callbacks.append((callback, args))].  /repo/scheme/field.py:633-634 *)
Definition register (u : nat) (c : nat * nat) (h : heap) : heap :=
  {| h_field := h_field h;
     h_calls := fun w => if Nat.eqb w u then h_calls h w ++ [c] else h_calls h w;
     h_parents := h_parents h |}.

(** The loop over the arguments in the constructors: a placeholder that is defined is replaced, any other is
    kept and asked to call back.  [parent] is [self], [i] the position.
    /repo/scheme/fields/tuple.py:34-43, union.py:29-38, sequence.py:45-49, map.py:45-49, structure.py:561-568 *)
Fixpoint build (parent i : nat) (l : list slot) (h : heap) : list slot * heap :=
  match l with
  | [] => ([], h)
  | SField f :: l' =>
      let r := build parent (S i) l' h in (SField f :: fst r, snd r)
  | SUndef u :: l' =>
      match h_field h u with
      | Some f => let r := build parent (S i) l' h in (SField f :: fst r, snd r)
      | None => let r := build parent (S i) l' (register u (parent, i) h) in (SUndef u :: fst r, snd r)
      end
  end.

(** A container constructed on such arguments.
    /repo/scheme/fields/tuple.py:48, union.py:42, sequence.py:58, map.py:64, structure.py:95-102 *)
Definition construct (l : list slot) (h : heap) : heap :=
  let r := build (length (h_parents h)) 0 l h in
  {| h_field := h_field (snd r); h_calls := h_calls (snd r); h_parents := h_parents (snd r) ++ [fst r] |}.

(** [list(values[:idx]) + [field] + list(values[idx + 1:])].  /repo/scheme/fields/tuple.py:224, union.py:141,
    sequence.py:225, map.py:242, structure.py:504-509.  Simplification: a structure enters a clone of the field,
    with the key for its name, which is not told from the field here. *)
Definition replaced {A} (i : nat) (x : A) (l : list A) : list A := firstn i l ++ [x] ++ skipn (S i) l.

(** [callback(field, *args)].  /repo/scheme/field.py:630-631 and as for [replaced]. *)
Definition call_back (f : nat) (parents : list (list slot)) (c : nat * nat) : list (list slot) :=
  match nth_error parents (fst c) with
  | Some l => replaced (fst c) (replaced (snd c) (SField f) l) parents
  | None => parents
  end.

(** [Undefined.define].  /repo/scheme/field.py:628-631 *)
Definition define (u f : nat) (h : heap) : heap :=
  {| h_field := fun w => if Nat.eqb w u then Some f else h_field h w;
     h_calls := h_calls h;
     h_parents := fold_left (call_back f) (h_calls h u) (h_parents h) |}.

(** What a program does: construct a container, define a placeholder.  /repo/scheme/field.py:616-634 *)
Inductive op := Construct (l : list slot) | Define (u f : nat).

(** One step of a program.  /repo/scheme/field.py:616-634 *)
Definition step (h : heap) (o : op) : heap :=
  match o with
  | Construct l => construct l h
  | Define u f => define u f h
  end.

(** A program run from the start.  /repo/scheme/field.py:616-634 *)
Definition run (ops : list op) : heap := fold_left step ops heap0.
