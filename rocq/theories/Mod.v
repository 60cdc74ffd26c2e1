(** * Model of [import_object] and [identify_object] of /repo/scheme/util.py:46-104. *)
From Verif Require Export Env.

(** What [__import__(path, None, None, fromlist)] comes to: the module [path] itself (its root package
    when the list is empty), an ImportError whose text starts with "No module named", another
    ImportError, or another exception.  Used at /repo/scheme/util.py:76, 85-87, 100-104 *)
Inductive imported := Imported (o : nat) | NoModule | ImportFails | OtherFails.

(** What [identify_object] can see of an object: a module with its name, a class with the names of its
    module and its own, or something else with the name and the attributes of the module that
    [inspect.getmodule] finds for it, if any.  /repo/scheme/util.py:47-52, 59-63 *)
Inductive described :=
| AModule (name : str)
| AClass (module name : str)
| AnObject (home : option (str * list (str * nat))).

(** The state of the interpreter: the outcome of each import, attributes, and what objects are.  Objects
    are numbers, so that [is] is equality.  Simplification: imports and lookups do not change the state.
    Used at /repo/scheme/util.py:46-104 *)
Record modules := {
  mo_import : str -> list str -> imported;
  mo_attr : nat -> str -> option nat;
  mo_described : nat -> described
}.

Section Modules.
Context (M : modules).

(** [for attr in attrs: target = getattr(target, attr)]; every exception of [getattr] becomes an
    ImportError.  /repo/scheme/util.py:77-78, 93-94, 103-104 *)
Fixpoint getattrs (target : nat) (attrs : list str) : res nat :=
  match attrs with
  | [] => Ok target
  | a :: attrs' => match mo_attr M target a with
                   | Some o => getattrs o attrs'
                   | None => Raise (XPy ImportError)
                   end
  end.

(** [path.rpartition('.')] without the separator: what precedes the last dot, and what follows it.
    /repo/scheme/util.py:83 *)
Fixpoint rpartition (s : str) : str * str :=
  match s with
  | [] => ([], [])
  | c :: s' =>
      if existsb (N.eqb 46) s' then (c :: fst (rpartition s'), snd (rpartition s'))
      else if (c =? 46)%N then ([], s')
      else ([], s)
  end.

(** The loop for dotted paths.  [attrs] are the attributes left to be looked up.  The fuel is never
    exhausted (each round shortens the path).  /repo/scheme/util.py:81-98 *)
Fixpoint import_loop (fuel : nat) (path : str) (attrs : list str) : res nat :=
  match fuel with
  | O => Raise (XPy RecursionError)
  | S m =>
      let front := fst (rpartition path) in
      let back := snd (rpartition path) in
      match mo_import M path [back] with
      | Imported target => getattrs target attrs
      | NoModule => match front with
                    | [] => Raise (XPy ImportError)
                    | _ => import_loop m front (back :: attrs)
                    end
      | ImportFails | OtherFails => Raise (XPy ImportError)
      end
  end.

(** [import_object(path)].  Whatever goes wrong is an ImportError (with the path as its text, which is
    not modelled).  /repo/scheme/util.py:70-104 *)
Definition import_object (path : str) : res nat :=
  if existsb (N.eqb 58) path then
    match split_on 58 path with
    | [p; a] =>
        let attrs := split_on 46 a in
        match mo_import M p (firstn 1 attrs) with
        | Imported target => getattrs target attrs
        | _ => Raise (XPy ImportError)
        end
    | _ => Raise (XPy ImportError)
    end
  else if existsb (N.eqb 46) path then import_loop (S (length path)) path []
  else match mo_import M path [] with
       | Imported target => Ok target
       | _ => Raise (XPy ImportError)
       end.

(** The first attribute of a module that is the object.  /repo/scheme/util.py:63-66 *)
Fixpoint attribute_of (o : nat) (items : list (str * nat)) : option str :=
  match items with
  | [] => None
  | (a, x) :: items' => if Nat.eqb x o then Some a else attribute_of o items'
  end.

(** [identify_object(obj)].  The cache only repeats earlier results and is left out; an
    object that cannot be a key of it raises TypeError like one without a module.
    /repo/scheme/util.py:46-68 *)
Definition identify_object (o : nat) : res str :=
  match mo_described M o with
  | AModule name => Ok name
  | AClass module name => if str_eqb module $"__main__" then Ok name else Ok (module ++ $"." ++ name)
  | AnObject None => Raise (XPy TypeError)
  | AnObject (Some (module, items)) =>
      match attribute_of o items with
      | Some a => Ok (module ++ $"." ++ a)
      | None => Raise (XPy TypeError)
      end
  end.

End Modules.
