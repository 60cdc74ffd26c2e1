(** * Vocabulary for the order of the entries of dicts (C32). *)
From Coq Require Export Permutation.
From Verif Require Export Spec.

(** The fields a structure may hold under a name. *)
Definition held (d : sdefP val field) : list (str * field) :=
  match d with
  | SPlain l => l
  | SPoly _ variants => concat (map snd variants)
  end.

(** What tells the variants apart: [name] is the key under which a polymorphic structure looks it up. *)
Definition tells_apart (E : env) (d : sdefP val field) (name : str) : Prop :=
  match d with
  | SPlain _ => False
  | SPoly on _ => exists q, fparams E on = Some q /\ p_name q = Some name
  end.

(** Both are dicts, or both are lists. *)
Definition same_container (v w : val) : Prop :=
  (exists o o' l l', v = VDict o l /\ w = VDict o' l') \/ exists l l', v = VList l /\ w = VList l'.

(** Fields of one plain value, to which all dicts are alike, and all lists, but that a decimal can be made
    of a list. *)
Definition plain_class (f : field) (v : val) : Prop :=
  match f with
  | FUndef _ => False
  | Fld p k =>
      p_preprocessor p = None /\ p_constant p = VNone
      /\ match k with
         | KBinary _ _ | KBoolean | KDate _ _ | KDateTime _ _ _ | KEmail _ _ _ _ | KFloat _ _
         | KInteger _ _ | KText _ _ _ _ | KTime _ _ | KToken _ | KUUID => True
         | KDecimal _ _ => forall l, v <> VList l
         | _ => False
         end
  end.

(** [shuffled E f v w]: [w] is [v] with the entries of some dicts in another order, namely of those that
    stand where [f] has a structure; each key stands once in such a dict, and no preprocessor sees it.
    To a union it must be that for each alternative but those of one plain value. *)
Inductive shuffled (E : env) : field -> val -> val -> Prop :=
| sh_same f v : shuffled E f v v
| sh_undef i f v w : e_undef E i = Some f -> shuffled E f v w -> shuffled E (FUndef i) v w
| sh_sequence p item mn mx u l l' :
    p_preprocessor p = None -> Forall2 (shuffled E item) l l' ->
    shuffled E (Fld p (KSequence item mn mx u)) (VList l) (VList l')
| sh_tuple p fs c l l' :
    p_preprocessor p = None -> c = VList \/ c = VTuple -> length l = length l' ->
    (forall i g x y, nth_error fs i = Some g -> nth_error l i = Some x -> nth_error l' i = Some y ->
                     shuffled E g x y) ->
    shuffled E (Fld p (KTuple fs)) (c l) (c l')
| sh_map p value key req o o' l l' :
    p_preprocessor p = None ->
    Forall2 (fun a b => fst a = fst b /\ shuffled E value (snd a) (snd b)) l l' ->
    shuffled E (Fld p (KMap value key req)) (VDict o l) (VDict o' l')
| sh_union p fs g v w :
    In g fs -> shuffled E g v w ->
    (forall h, In h fs -> shuffled E h v w \/ same_container v w /\ plain_class h v) ->
    shuffled E (Fld p (KUnion fs)) v w
| sh_structure p d strict order o o' l l' :
    p_preprocessor p = None -> distinct (e_local E) (map fst l) -> distinct (e_local E) (map fst l') ->
    Permutation (map fst l) (map fst l') ->
    match d with SPlain _ => True | SPoly _ _ => exists name, tells_apart E d name end ->
    (forall k x y, In (k, x) l -> In (k, y) l' ->
       x = y
       \/ exists name, k = VStr name /\ ~ tells_apart E d name
          /\ (exists g, In (name, g) (held d)) /\ forall g, In (name, g) (held d) -> shuffled E g x y) ->
    shuffled E (Fld p (KStructure d strict order)) (VDict o l) (VDict o' l').

(** The same error, but for the report on the parts of the value: class, own errors and place. *)
Definition same_error (e e' : err) : Prop :=
  er_cls e = er_cls e' /\ er_errors e = er_errors e' /\ er_identity e = er_identity e' /\ er_hasfield e = er_hasfield e'
  /\ (er_structure e = None <-> er_structure e' = None).

(** The same report, but for the order in which dicts of errors list their entries. *)
Inductive same_report : val -> val -> Prop :=
| sr_same v : same_report v v
| sr_error e e' :
    same_error e e' ->
    (forall s s', er_structure e = Some s -> er_structure e' = Some s' -> same_report s s') ->
    same_report (VErr e) (VErr e')
| sr_list l l' : Forall2 same_report l l' -> same_report (VList l) (VList l')
| sr_tuple l l' : Forall2 same_report l l' -> same_report (VTuple l) (VTuple l')
| sr_dict o l m l' :
    Permutation l m -> Forall2 (fun a b => fst a = fst b /\ same_report (snd a) (snd b)) m l' ->
    same_report (VDict o l) (VDict o l').

(** Both give the same value, or both raise the same exception, but for the order of the entries of the dicts
    in the report on the parts. *)
Definition same_outcome {A} (r r' : res A) : Prop :=
  r = r'
  \/ exists e e', r = Raise (XErr e) /\ r' = Raise (XErr e') /\ same_error e e' /\ same_report (VErr e) (VErr e').
