(** * Vocabulary for importing and identifying objects (C83, C84). *)
From Verif Require Export Mod.

(** Following attributes from an object to another. *)
Inductive leads (M : modules) : nat -> list str -> nat -> Prop :=
| leads_here : forall o, leads M o [] o
| leads_on : forall o a attrs o' o'', mo_attr M o a = Some o' -> leads M o' attrs o'' -> leads M o (a :: attrs) o''.

(** The dotted name of a list of names. *)
Definition dots (l : list str) : str := join $"." l.

(** An undivided name has no dot and no colon. *)
Definition simple (s : str) : Prop := ~ In 46%N s /\ ~ In 58%N s.

(** A dotted path names an object: some of its first names are those of a module, no longer part of the
    path is one, and the other names are attributes to be followed from there.  The import system is
    asked for the last name of the module as well ([fromlist]). *)
Definition names_object (M : modules) (names : list str) (o : nat) : Prop :=
  exists mods last attrs m,
    names = mods ++ [last] ++ attrs /\ dots (mods ++ [last]) <> []
    /\ mo_import M (dots (mods ++ [last])) [last] = Imported m
    /\ leads M m attrs o
    /\ forall more x rest, attrs = more ++ [x] ++ rest ->
         mo_import M (dots (mods ++ [last] ++ more ++ [x])) [x] = NoModule.

(** Where an object has to be for its name to lead back to it: importing its module gives that module,
    which has it as the attribute named, while the name is not that of another module. *)
Definition at_home (M : modules) (module name : str) (o : nat) : Prop :=
  exists mods last m,
    Forall simple (mods ++ [last]) /\ module = dots (mods ++ [last]) /\ module <> [] /\ simple name
    /\ mo_import M (module ++ $"." ++ name) [name] = NoModule
    /\ mo_import M module [last] = Imported m /\ mo_attr M m name = Some o.
Definition placed (M : modules) (o : nat) : Prop :=
  match mo_described M o with
  | AModule name => exists mods last, Forall simple (mods ++ [last]) /\ name = dots (mods ++ [last])
      /\ mo_import M name (match mods with [] => [] | _ => [last] end) = Imported o
  | AClass module name => module <> $"__main__" /\ at_home M module name o
  | AnObject None => False
  | AnObject (Some (module, items)) => forall a, In (a, o) items -> at_home M module a o
  end.
