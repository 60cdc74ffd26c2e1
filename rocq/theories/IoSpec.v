(** * Vocabulary for the registry of formats and for files. *)
From Verif Require Export Io Spec JsonSpec.

(** What a format is to be found by: its name, its mimetype, its extensions with a leading point, and the
    class itself.  /repo/scheme/format.py:7-23 *)
Definition keyed (f : format) (k : key) : Prop :=
  k = ByText (fm_name f)
  \/ fm_mimetype f <> [] /\ k = ByText (fm_mimetype f)
  \/ (exists e, In ($"." ++ e) (fm_extensions f) /\ k = ByText ($"." ++ e))
  \/ k = ByClass (fm_class f).

(** Formats with a name and without empty extensions.  /repo/scheme/format.py:10, 15 *)
Definition registrable (f : format) : Prop := fm_name f <> [] /\ ~ In [] (fm_extensions f).

(** [f] is the last of the formats having [k].  /repo/scheme/format.py:16-22 *)
Definition last_keyed (k : key) (fs : list format) (f : format) : Prop :=
  exists a b, fs = a ++ f :: b /\ keyed f k /\ forall g, In g b -> ~ keyed g k.

(** A path [directory/stem.extension] (or without the directory); the stem is not only points.
    /repo/scheme/format.py:51, 78 *)
Definition path_with (path extension : str) : Prop :=
  exists directory stem,
    path = directory ++ stem ++ $"." ++ extension
    /\ (directory = [] \/ exists d, directory = d ++ $"/")
    /\ ~ In 47%N stem /\ (exists c, In c stem /\ c <> 46%N)
    /\ ~ In 47%N extension /\ ~ In 46%N extension.

(** A path [directory/name] (or without the directory) with points only at the beginning of the name.
    /repo/scheme/format.py:51, 78 *)
Definition path_without (path : str) : Prop :=
  exists directory points name,
    path = directory ++ points ++ name
    /\ (directory = [] \/ exists d, directory = d ++ $"/")
    /\ (forall c, In c points -> c = 46%N) /\ ~ In 47%N name /\ ~ In 46%N name.

(** What is read from a file in which [s] was written: ["\r"] and ["\r\n"] are read as ["\n"].
    /repo/scheme/format.py:57-58 *)
Inductive newlines : str -> str -> Prop :=
  | nl_end : newlines [] []
  | nl_char : forall c s t, c <> 13%N -> newlines s t -> newlines (c :: s) (c :: t)
  | nl_return : forall s t, newlines s t -> (forall r, s <> 10%N :: r) -> newlines (13%N :: s) (10%N :: t)
  | nl_both : forall s t, newlines s t -> newlines (13%N :: 10%N :: s) (10%N :: t).

(** The files are the same, or the same except at one path.  /repo/scheme/format.py:84-85 *)
Definition same_files (w w' : world) : Prop := forall p, w_node w' p = w_node w p.
Definition only_changed (path : str) (w w' : world) : Prop := forall p, p <> path -> w_node w' p = w_node w p.
