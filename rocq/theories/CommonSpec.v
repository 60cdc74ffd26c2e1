(** * What is said of the field for the serialization of errors (C92). *)
From Verif Require Export Spec.

(** An entry of the errors: null, or a dict of texts under texts.  [y] is [x] with the blanks around the
    texts taken off (an ordinary dict, whatever [x] is). *)
Definition entry_trimmed (x y : val) : Prop :=
  (x = VNone /\ y = VNone)
  \/ exists l m, as_dict x = Some l /\ y = VDict false m
       /\ Forall2 (fun a b => fst b = fst a
                              /\ exists k s t, fst a = VStr k /\ snd a = VStr s /\ snd b = VStr t
                                               /\ stripped s t) l m.

(** The errors: null, or a list of entries. *)
Definition errors_trimmed (x y : val) : Prop :=
  (x = VNone /\ y = VNone)
  \/ exists l m, x = VList l /\ y = VList m /\ Forall2 entry_trimmed l m.

(** The entry is a dict of texts under texts, none of which begins or ends with a blank. *)
Definition entry_tidy (x : val) : Prop :=
  exists l, x = VDict false l
    /\ Forall (fun a => exists k s, a = (VStr k, VStr s) /\ stripped s s) l.

(** As every dict of Python is, the dicts of the list are without equal keys. *)
Definition dicts_proper (L : localtz) (x : val) : Prop :=
  forall l e items, x = VList l -> In e l -> as_dict e = Some items -> distinct L (map fst items).
