(** * Vocabulary for the construction of structures (C52). *)
From Verif Require Export ConSpec SchemaSpec.
From Coq Require Export Sorting.Permutation Sorting.Sorted.

(** The order of Python strings: the first difference decides, a prefix comes first. *)
Inductive str_le : str -> str -> Prop :=
| sle_prefix : forall a, str_le [] a
| sle_less : forall x y a b, (x < y)%N -> str_le (x :: a) (y :: b)
| sle_same : forall x a b, str_le a b -> str_le (x :: a) (x :: b).
Definition sorted_names (l sorted : list str) : Prop := Permutation l sorted /\ StronglySorted str_le sorted.

(** [s] cut at every blank. *)
Definition blank : N := 32.
Inductive words : str -> list str -> Prop :=
| words_one : forall w, ~ In blank w -> words w [w]
| words_more : forall w s l, ~ In blank w -> words s l -> words (w ++ blank :: s) (w :: l).

(** The field under a key: the field given there, named after the key unless it has a name. *)
Definition under_key (s : str) (f g : field) : Prop :=
  match f with
  | FUndef i => g = FUndef i
  | Fld p k => exists q, g = Fld q k
      /\ (p_name p = None \/ p_name p = Some [] -> p_name q = Some s)
      /\ (p_name p <> None -> p_name p <> Some [] -> p_name q = p_name p)
      /\ set_name None q = set_name None p
  end.
Definition field_entry (kv : val * val) (sf : str * field) : Prop :=
  fst kv = VStr (fst sf) /\ exists f, snd kv = VField f /\ under_key (fst sf) f (snd sf).
Definition field_dict (v : val) (l : list (str * field)) : Prop :=
  exists items, as_dict v = Some items /\ Forall2 field_entry items l.

(** The order of keys: anything false means none, a text is cut at blanks, a list is kept. *)
Definition order_given (v : val) (order : option (list str)) : Prop :=
  truthy v = false /\ order = None
  \/ (exists s l, v = VStr s /\ s <> [] /\ words s l /\ order = Some l)
  \/ exists l, v = VList (map VStr l) /\ l <> [] /\ order = Some l.

(** The default: generated from the defaults and constants of the fields when that is asked for and
    there is no other. *)
Definition parameters_of (E : env) (kf : str * field) (sp : str * params) : Prop :=
  fst kf = fst sp /\ defined_as E (snd kf) (snd sp).
Definition structure_default (E : env) (generate : val) (fields : list (str * field) -> Prop) (given d : val) : Prop :=
  if truthy generate && negb (truthy given)
  then exists l ps, fields l /\ Forall2 (parameters_of E) l ps /\ d = VDict false (default_entries true ps)
  else d = given.

(** The entries of ['*'] are added to those of every identity, and win. *)
Definition overlay (d common : list (val * val)) : list (val * val) :=
  map (fun kv => (fst kv, match fst kv with
                          | VStr s => match sget s common with Some x => x | None => snd kv end
                          | _ => snd kv
                          end)) d
  ++ filter (fun kv => match fst kv with
                       | VStr s => match sget s d with Some _ => false | None => true end
                       | _ => true
                       end) common.
Definition shared (items0 items : list (val * val)) : Prop :=
  (sget $"*" items0 = None /\ items = items0)
  \/ exists before common after, items0 = before ++ (VStr $"*", common) :: after /\ sget $"*" before = None
       /\ Forall2 (fun kv kw => fst kv = fst kw
                     /\ exists o d c, snd kv = VDict o d /\ as_dict common = Some c /\ snd kw = VDict o (overlay d c))
            (before ++ after) items.

(** The discriminator: an enumeration of the sorted identities for a name, or the given field made
    required. *)
Definition made_required (q : params) : params :=
  {| p_name := p_name q; p_nonnull := p_nonnull q; p_required := true; p_ignore_null := p_ignore_null q;
     p_default := p_default q; p_constant := p_constant q; p_preprocessor := p_preprocessor q;
     p_extractor := p_extractor q; p_instantiator := p_instantiator q; p_title := p_title q;
     p_description := p_description q; p_notes := p_notes q; p_aspects := p_aspects q |}.
Definition discriminator_for (v : val) (identities : list val) (on : field) : Prop :=
  (exists name keys sorted p, v = VStr name /\ identities = map VStr keys /\ sorted_names keys sorted
     /\ on = Fld p (KEnumeration (map VStr sorted) None)
     /\ p_name p = Some name /\ p_required p = true /\ p_nonnull p = true /\ p_ignore_null p = false
     /\ p_default p = VNone /\ p_constant p = VNone /\ p_preprocessor p = None /\ p_extractor p = None
     /\ p_instantiator p = None)
  \/ (exists q k, v = VField (Fld q k) /\ alike on (Fld (made_required q) k)).

(** The variants: the fields of each identity together with the discriminator, which holds the
    identity as its constant and replaces a field of the same name. *)
Definition variant_of (name : str) (q : params) (kd : kind) (kv : val * val) (vl : val * list (str * field)) : Prop :=
  fst vl = fst kv
  /\ exists fields c, field_dict (snd kv) fields
       /\ aget name (snd vl) = Some c /\ alike c (Fld (with_constant q (fst kv)) kd)
       /\ (forall s, s <> name -> aget s (snd vl) = aget s fields)
       /\ map fst (snd vl) = map fst fields ++ (if smem name (map fst fields) then [] else [name]).
(** The fields of the first variant whose identity is [i]. *)
Definition variant_fields (L : localtz) (i : val) (vs : list (val * list (str * field))) (l : list (str * field)) : Prop :=
  exists before j after, vs = before ++ (j, l) :: after /\ veq L j i = true
    /\ forall vl, In vl before -> veq L (fst vl) i = false.

(** A dict of dicts with texts for keys, no key twice. *)
Definition proper_dicts (items : list (val * val)) : Prop :=
  NoDup (map fst items)
  /\ forall a v l, In (a, v) items -> as_dict v = Some l -> exists names, map fst l = map VStr names /\ NoDup names.

(** What [polymorphic_on] and [generate_default] may be. *)
Definition discriminating (v : val) (identities : list val) : Prop :=
  (exists name keys, v = VStr name /\ identities = map VStr keys)
  \/ (exists q k name, v = VField (Fld q k) /\ p_name q = Some name).
Definition generating (L : localtz) (generate given : val) (identities : list val) : Prop :=
  truthy generate = false \/ truthy given = true
  \/ hashable generate = true /\ exists i, In i identities /\ veq L i generate = true.
