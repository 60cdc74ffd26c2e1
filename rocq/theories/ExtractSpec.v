(** * Specifications of extraction, instantiation and interpolation (C53 to C57). *)
From Verif Require Export Spec Extract.

(** How a subject answers to a name: a dict by its key; when extraction is not strict, an object by
    its attribute. *)
Definition reads (strict : bool) (subject : val) (look : str -> option val) : Prop :=
  (exists items, as_dict subject = Some items /\ forall k, look k = sget k items)
  \/ (strict = false /\ exists i attrs, subject = VObj i attrs /\ forall k, look k = aget k attrs).

(** One candidate: kept with the value its field makes of it, or left out because its field raised
    [x]. *)
Inductive outcome (x : pyexc) (r : res val) : option val -> Prop :=
| outcome_kept : forall w, r = Ok w -> outcome x r (Some w)
| outcome_left : r = py x -> outcome x r None.

(** The entries made for the keys of a definition: in the order of the definition, a key is left out
    when the subject has no value for it ([nulls] says whether null counts as a value) or its field
    raised [x]. *)
Inductive entries_made (x : pyexc) (nulls : bool) (look : str -> option val)
  (run : field -> val -> res val) : list (str * field) -> list (val * val) -> Prop :=
| made_nil : entries_made x nulls look run [] []
| made_absent : forall k f defn es,
    look k = None \/ (nulls = false /\ look k = Some VNone) ->
    entries_made x nulls look run defn es -> entries_made x nulls look run ((k, f) :: defn) es
| made_left : forall k f defn v es,
    look k = Some v -> (nulls = true \/ v <> VNone) -> run f v = py x ->
    entries_made x nulls look run defn es -> entries_made x nulls look run ((k, f) :: defn) es
| made_kept : forall k f defn v w es,
    look k = Some v -> (nulls = true \/ v <> VNone) -> run f v = Ok w ->
    entries_made x nulls look run defn es ->
    entries_made x nulls look run ((k, f) :: defn) ((VStr k, w) :: es).

(** The elements made from a list: in order, one for each that was not left out. *)
Inductive elements_made {A B} (R : A -> option B -> Prop) : list A -> list B -> Prop :=
| elements_nil : elements_made R [] []
| elements_left : forall a l m, R a None -> elements_made R l m -> elements_made R (a :: l) m
| elements_kept : forall a b l m, R a (Some b) -> elements_made R l m -> elements_made R (a :: l) (b :: m).

(** Entries with the same key. *)
Definition same_key (R : val -> option val -> Prop) (kv : val * val) (o : option (val * val)) : Prop :=
  match o with
  | Some kw => fst kw = fst kv /\ R (snd kv) (Some (snd kw))
  | None => R (snd kv) None
  end.

(** A field takes part: no tests, or it passes them. *)
Definition takes_part (E : env) (tests : list (str * val)) (p : params) (k : kind) : Prop :=
  tests = [] \/ screen E p k tests = true.

(** A sequence of Python values. *)
Definition elements (v : val) (l : list val) : Prop := v = VList l \/ v = VTuple l.

(** ** Whole schemas *)

(** No key order; unions are of scalar fields; the identities of variants are true values. *)
Definition straight (p : params) (k : kind) : Prop :=
  match k with
  | KStructure d _ ko =>
      ko = None /\ match d with
                   | SPlain _ => True
                   | SPoly _ vs => forall vd, In vd vs -> truthy (fst vd) = true
                   end
  | KUnion l => Forall (fun g => exists q k', g = Fld q k' /\ kind_structural k' = false) l
  | _ => True
  end.

Definition no_extractor (p : params) (k : kind) : Prop := p_extractor p = None.
Definition no_instantiator (p : params) (k : kind) : Prop := p_instantiator p = None.
Definition no_union (p : params) (k : kind) : Prop := match k with KUnion _ => False | _ => True end.


(** [denulled E f v w]: [w] is [v] without the null entries of its structures. *)
Inductive denulled (E : env) : field -> val -> val -> Prop :=
| denulled_null : forall f, denulled E f VNone VNone
| denulled_undef : forall i p k v w,
    e_undef E i = Some (Fld p k) -> denulled E (Fld p k) v w -> denulled E (FUndef i) v w
| denulled_scalar : forall p k v, kind_structural k = false -> denulled E (Fld p k) v v
| denulled_union : forall p l v, denulled E (Fld p (KUnion l)) v v
| denulled_sequence : forall p it a b u l m,
    Forall2 (denulled E it) l m -> denulled E (Fld p (KSequence it a b u)) (VList l) (VList m)
| denulled_tuple : forall p fs l m,
    Forall2 (fun fv w => denulled E (fst fv) (snd fv) w) (combine fs l) m ->
    length fs = length l -> denulled E (Fld p (KTuple fs)) (VTuple l) (VTuple m)
| denulled_map : forall p vf kf req l m,
    Forall2 (fun kv kw => fst kv = fst kw /\ denulled E vf (snd kv) (snd kw)) l m ->
    denulled E (Fld p (KMap vf kf req)) (VDict false l) (VDict false m)
| denulled_structure : forall p d st ko defn l m,
    (d = SPlain defn \/ exists on vs i, d = SPoly on vs /\ In (i, defn) vs) ->
    denulled_entries E defn l m ->
    denulled E (Fld p (KStructure d st ko)) (VDict false l) (VDict false m)
with denulled_entries (E : env) : list (str * field) -> list (val * val) -> list (val * val) -> Prop :=
| denulled_nil : forall defn, denulled_entries E defn [] []
| denulled_drop : forall defn k l m,
    denulled_entries E defn l m -> denulled_entries E defn ((k, VNone) :: l) m
| denulled_keep : forall defn k f v w l m,
    In (k, f) defn -> v <> VNone -> denulled E f v w ->
    denulled_entries E defn l m -> denulled_entries E defn ((VStr k, v) :: l) ((VStr k, w) :: m).

(** No dict inside the value has a null entry. *)
Inductive no_null_entries : val -> Prop :=
| no_null_entries_intro : forall v,
    (forall o l k x, v = VDict o l -> In (k, x) l -> x <> VNone /\ no_null_entries x) ->
    (forall l x, elements v l -> In x l -> no_null_entries x) ->
    no_null_entries v.

(** The extractors undo the instantiators: where there is one there is the other, and what the
    instantiator makes is never null and is turned back by the extractor.  The discriminator of a
    polymorphic structure has neither. *)
Definition undoes (E : env) (p : params) (k : kind) : Prop :=
  match p_instantiator p with
  | None => p_extractor p = None
  | Some i => exists e, p_extractor p = Some e
      /\ forall v key w, v <> VNone -> e_inst E i v key = Ok w -> w <> VNone /\ e_ext E e w = Ok v
  end
  /\ match k with
     | KStructure (SPoly (Fld q _) _) _ _ => p_instantiator q = None
     | KStructure (SPoly (FUndef _) _) _ _ => False
     | _ => True
     end.

(** Weaker: an extractor for a structure may return a dict with other entries, as long as it reads like
    the one that was instantiated for the keys of the definition in use (a null entry reads like none);
    and this is asked only of the dicts that the structure produces. *)
Definition in_use (E : env) (d : sdef) (items : list (val * val)) (defn : list (str * field)) : Prop :=
  d = SPlain defn
  \/ exists q kd vs name y i, d = SPoly (Fld q kd) vs /\ p_name q = Some name
       /\ sget name items = Some y /\ truthy y = true /\ hashable y = true
       /\ find (fun vd => veq (e_local E) (fst vd) y) vs = Some (i, defn).

Definition produced (E : env) (k : kind) (v : val) : Prop :=
  match k with
  | KStructure d _ _ =>
      exists items defn, v = VDict false items /\ NoDup (map fst items) /\ in_use E d items defn
        /\ (forall x, In x (map fst items) -> exists s, x = VStr s /\ In s (map fst defn))
        /\ (forall s g, In (s, g) defn -> ~ In (VStr s) (map fst items) ->
              exists q, defined_as E g q /\ (p_ignore_null q = true \/ p_required q = false /\ p_default q = VNone))
  | _ => True
  end.

Definition reads_like (E : env) (k : kind) (v v' : val) : Prop :=
  match k with
  | KStructure d _ _ =>
      exists items items', v = VDict false items /\ v' = VDict false items'
        /\ forall defn s, in_use E d items defn -> In s (map fst defn) ->
             sget s items' = sget s items \/ sget s items = None /\ sget s items' = Some VNone
  | _ => v' = v
  end.

Definition reverts (E : env) (p : params) (k : kind) : Prop :=
  match p_instantiator p with
  | None => p_extractor p = None
  | Some i => exists e, p_extractor p = Some e
      /\ forall v key w, v <> VNone -> produced E k v -> e_inst E i v key = Ok w ->
           w <> VNone /\ exists v', e_ext E e w = Ok v' /\ reads_like E k v v'
  end
  /\ match k with
     | KStructure (SPoly (Fld q _) _) _ _ => p_instantiator q = None
     | KStructure (SPoly (FUndef _) _) _ _ => False
     | _ => True
     end.

(** What a field makes of the instantiated parts. *)
Definition finished (E : env) (p : params) (w key r : val) : Prop :=
  match p_instantiator p with
  | None => r = w
  | Some i => e_inst E i w key = Ok r
  end.

(** ** Interpolation *)

(** [s] is a variable reference: blanks, [${], a non empty expression without closing brace, a
    closing brace, blanks. *)
Definition blank (s : str) : Prop := Forall (fun c => is_space c = true) s.
Definition reference (s e : str) : Prop :=
  exists a b, blank a /\ blank b /\ e <> [] /\ ~ In 125%N e /\ s = a ++ $"${" ++ e ++ $"}" ++ b.

(** Classes that hand the references they get to [interpolate_parameters] and return the result as
    it is. *)
Definition referring (k : kind) : Prop :=
  match k with
  | KField | KBinary _ _ | KBoolean | KDate _ _ | KDateTime _ _ _ | KDefinition _ | KError | KObject
  | KTime _ _ | KUUID => True
  | _ => False
  end.
(** Classes that take templates. *)
Definition templated (k : kind) : Prop :=
  match k with KText _ _ _ _ | KEmail _ _ _ _ | KToken _ => True | _ => False end.

(** Schemas whose conforming values mean themselves: no union and no class without a native type. *)
Definition literal_kind (p : params) (k : kind) : Prop :=
  match k with
  | KUnion _ | KField | KError | KObject => False
  | KEnumeration l _ => forall x, In x l -> snan_val x = false
  | _ => True
  end.

(** Every string inside the value is rendered as itself. *)
Inductive literal_text (ip : interpolator) : val -> Prop :=
| literal_text_intro : forall v,
    (forall s, v = VStr s -> ip_render ip s = Ok (VStr s)) ->
    (forall o l k x, v = VDict o l -> In (k, x) l -> literal_text ip x) ->
    (forall l x, elements v l -> In x l -> literal_text ip x) ->
    literal_text ip v.

(** What a value given for interpolation in simple mode becomes: the value of the expression of a
    reference, any other string itself; it is an error to give anything but a string. *)
Inductive referred (ip : interpolator) : val -> res val -> Prop :=
| referred_expression : forall s e e',
    reference s e -> stripped e e' -> referred ip (VStr s) (ip_eval ip e')
| referred_text : forall s, (forall e, ~ reference s e) -> referred ip (VStr s) (Ok (VStr s))
| referred_other : forall v, (forall s, v <> VStr s) -> referred ip v (py ValueError).

(** What a container works on: a string stands for what it refers to. *)
Definition taken (ip : interpolator) (v s : val) : Prop :=
  ((forall x, v <> VStr x) /\ s = v) \/ ((exists x, v = VStr x) /\ referred ip v (Ok s)).

(** The native values of a class. *)
Definition native_value (k : kind) (v : val) : Prop :=
  match k with
  | KBinary _ _ => exists b, v = VBytes b
  | KBoolean => exists b, v = VBool b
  | KDate _ _ => (exists d, v = VDate d) \/ (exists d, v = VDateTime d)
  | KDateTime _ _ _ => exists d, v = VDateTime d
  | KTime _ _ => exists t, v = VTime t
  | KDecimal _ _ => exists d, v = VDec d
  | KDefinition _ => exists p k', v = VField (Fld p k')
  | KSurrogate _ => exists i s w l, v = VSurr i s w l
  | _ => False
  end.

(** Numeric fields: the values they take as numbers at once, and the number a value is converted to
    ([int(w)], [float(w)], [Decimal(w)]). *)
Definition numeric (k : kind) : Prop :=
  match k with KInteger _ _ | KFloat _ _ | KDecimal _ _ => True | _ => False end.
Definition number (k : kind) (v : val) : Prop :=
  match k with
  | KInteger _ _ | KFloat _ _ => (exists z, v = VInt z) \/ (exists b, v = VBool b) \/ (exists x, v = VFloat x)
  | _ => False
  end.
Definition as_number (E : env) (k : kind) (w r : val) : Prop :=
  match k with
  | KInteger _ _ => exists z, to_int (e_udigit E) w = Some z /\ r = VInt z
  | KFloat _ _ => exists x, to_float (e_udigit E) w = Some x /\ r = VFloat x
  | _ => exists d, to_dec (e_udigit E) w = Some d /\ r = VDec d
  end.
