(** * Vocabulary for the claims about operations on schemas (C46 to C51, C73). *)
From Verif Require Export Schema ConSpec.

(** ** Filtering *)

(** A test on an attribute; an attribute that is None counts as False. *)
Definition passes (E : env) (p : params) (k : kind) (test : str * val) : bool :=
  veq (e_local E) (match attribute E p k (fst test) with VNone => VBool false | a => a end) (snd test).
Definition selected (E : env) (tests : list (str * val)) (all : bool) (p : params) (k : kind) : bool :=
  match tests with
  | [] => true
  | _ => if all then forallb (passes E p k) tests else existsb (passes E p k) tests
  end.

(** The discriminator among the fields of a variant of a polymorphic structure. *)
Definition identified (on : field) (l : list (str * field)) : option (str * field) :=
  match on with
  | Fld q _ => match p_name q with
               | Some name => match aget name l with Some c => Some (name, c) | None => None end
               | None => None
               end
  | FUndef _ => None
  end.

(** What remains of a tree when the fields that are not selected are dropped: None when the field
    itself is dropped.  Values of maps and fields of structures are always selected by all the
    tests.  The discriminator remains in every variant of a polymorphic structure: in its place when
    it is selected, at the end when it is not.  Unions and keys of maps are left alone. *)
Fixpoint pruned (sel : bool -> params -> kind -> bool) (all : bool) (f : field) : option field :=
  match f with
  | FUndef i => Some (FUndef i)
  | Fld p k =>
      if sel all p k then
        let keep all g := match pruned sel all g with Some h => h | None => g end in
        Some (Fld p (match k with
                     | KMap v key rk => KMap (keep true v) key rk
                     | KSequence item a b u => KSequence (keep all item) a b u
                     | KTuple l => KTuple (map (keep all) l)
                     | KStructure (SPlain l) s o =>
                         KStructure (SPlain (flat_map (fun kf => match pruned sel true (snd kf) with
                                                                 | Some h => [(fst kf, h)]
                                                                 | None => []
                                                                 end) l)) s o
                     | KStructure (SPoly on vs) s o =>
                         KStructure (SPoly on (map (fun vd =>
                           let left := flat_map (fun kf => match pruned sel true (snd kf) with
                                                           | Some h => [(fst kf, h)]
                                                           | None => []
                                                           end) (snd vd) in
                           (fst vd, match identified on (snd vd) with
                                    | Some (name, c) => aset name c left
                                    | None => left
                                    end)) vs)) s o
                     | k => k
                     end))
      else None
  end.
(** Nothing is dropped. *)
Fixpoint intact (sel : bool -> params -> kind -> bool) (all : bool) (f : field) : bool :=
  match f with
  | FUndef _ => true
  | Fld p k =>
      sel all p k && match k with
                     | KMap v _ _ => intact sel true v
                     | KSequence item _ _ _ => intact sel all item
                     | KTuple l => forallb (intact sel all) l
                     | KStructure (SPlain l) _ _ => forallb (fun kf => intact sel true (snd kf)) l
                     | KStructure (SPoly _ vs) _ _ =>
                         forallb (fun vd => forallb (fun kf => intact sel true (snd kf)) (snd vd)) vs
                     | _ => true
                     end
  end.
(** The value of a map, the item of a sequence, the fields of a tuple cannot be dropped; among the
    fields of a structure, or of a variant of a polymorphic one, one must be selected. *)
Fixpoint prunable (sel : bool -> params -> kind -> bool) (all : bool) (f : field) : Prop :=
  match f with
  | FUndef _ => False
  | Fld p k =>
      sel all p k = true ->
      match k with
      | KMap v _ _ => pruned sel true v <> None /\ prunable sel true v
      | KSequence item _ _ _ => pruned sel all item <> None /\ prunable sel all item
      | KTuple l => (fix go (l : list field) : Prop :=
                       match l with
                       | [] => True
                       | g :: l' => pruned sel all g <> None /\ prunable sel all g /\ go l'
                       end) l
      | KStructure (SPlain l) _ _ =>
          (exists kf, In kf l /\ pruned sel true (snd kf) <> None)
          /\ (fix go (l : list (str * field)) : Prop :=
                match l with [] => True | (_, g) :: l' => prunable sel true g /\ go l' end) l
      | KStructure (SPoly _ vs) _ _ =>
          (fix each_variant (vs : list (val * list (str * field))) : Prop :=
             match vs with
             | [] => True
             | (_, l) :: vs' =>
                 (exists kf, In kf l /\ pruned sel true (snd kf) <> None)
                 /\ (fix go (l : list (str * field)) : Prop :=
                       match l with [] => True | (_, g) :: l' => prunable sel true g /\ go l' end) l
                 /\ each_variant vs'
             end) vs
      | _ => True
      end
  end.

(** ** Transforming *)

(** The tree in which the fields a transformer answers with a field are replaced; where it answers
    the same field or False nothing below is visited.  In a structure a replacement without name
    takes the name of the field it replaces.  Keys of maps are not visited. *)
Definition with_name (s : str) (f : field) : field :=
  match f with
  | Fld p k => if match p_name p with None | Some [] => true | _ => false end then renamed s (Fld p k) else f
  | _ => f
  end.
Fixpoint rewritten (tr : field -> answer) (f : field) : field :=
  match f with
  | FUndef i => FUndef i
  | Fld p k =>
      match tr (Fld p k) with
      | AField g => g
      | ASame | AFalse => f
      | AOther =>
          Fld p (match k with
                 | KMap v key rk => KMap (rewritten tr v) key rk
                 | KSequence item a b u => KSequence (rewritten tr item) a b u
                 | KTuple l => KTuple (map (rewritten tr) l)
                 | KUnion l => KUnion (map (rewritten tr) l)
                 | KStructure (SPlain l) s o =>
                     KStructure (SPlain (map (fun kf => (fst kf, with_name (fst kf) (rewritten tr (snd kf)))) l)) s o
                 | k => k
                 end)
      end
  end.
(** Some field that is visited is replaced. *)
Fixpoint touched (tr : field -> answer) (f : field) : bool :=
  match f with
  | FUndef i => false
  | Fld p k =>
      match tr (Fld p k) with
      | AField g => true
      | ASame | AFalse => false
      | AOther =>
          match k with
          | KMap v _ _ => touched tr v
          | KSequence item _ _ _ => touched tr item
          | KTuple l | KUnion l => existsb (touched tr) l
          | KStructure (SPlain l) _ _ => existsb (fun kf => touched tr (snd kf)) l
          | _ => false
          end
      end
  end.
Definition not_polymorphic (k : kind) : Prop :=
  match k with KStructure (SPoly _ _) _ _ => False | _ => True end.

(** ** Editing structures *)

Definition only_fields (d : list (str * val)) : Prop :=
  Forall (fun kv => exists p k, snd kv = VField (Fld p k)) d.
(** Same field up to documentation, or both absent. *)
Definition both_alike (a b : option field) : Prop :=
  match a, b with
  | Some f, Some g => alike f g
  | None, None => True
  | _, _ => False
  end.
Definition absent {A} (l : list (str * A)) (s : str) : bool := match aget s l with Some _ => false | None => true end.

(** Edits of a structure in place and what they do to its fields, exceptions ignored. *)
Inductive edit := EInsert (v : val) (overwrite : bool) | ERemove (names : list str)
                | EMerge (d : list (str * val)) (prefer : bool).
Definition run_edit (E : env) (n : nat) (e : edit) (l : list (str * field)) : list (str * field) :=
  match e with
  | EInsert v o => fst (insert v o l)
  | ERemove names => remove_names names l
  | EMerge d p => fst (merge E n d p l)
  end.
Fixpoint run_edits (E : env) (n : nat) (es : list edit) (l : list (str * field)) : list (str * field) :=
  match es with [] => l | e :: es' => run_edits E n es' (run_edit E n e l) end.
(** Does the edit give permission to change an existing key? *)
Definition may_change (key : str) (e : edit) : Prop :=
  match e with
  | EInsert (VField (Fld p _)) true => p_name p = Some key
  | EInsert _ _ => False
  | ERemove names => In key names
  | EMerge d true => In key (map fst d)
  | EMerge d false => False
  end.
(** ... or to create it? *)
Definition may_create (key : str) (e : edit) : Prop :=
  match e with
  | EInsert (VField (Fld p _)) _ => p_name p = Some key
  | EInsert _ _ => False
  | ERemove _ => False
  | EMerge d _ => In key (map fst d)
  end.
(** The entries before the first one whose key is already used. *)
Fixpoint before_clash {A B} (l : list (str * A)) (d : list (str * B)) : list (str * B) :=
  match d with
  | [] => []
  | (s, v) :: d' => if absent l s then (s, v) :: before_clash l d' else []
  end.

(** ** Defaults *)

(** The default of a field, else its constant. *)
Definition fallback (p : params) : val := match p_default p with VNone => p_constant p | v => v end.
(** The expected entries, in the order of the structure. *)
Definition default_entries (sparse : bool) (l : list (str * params)) : list (val * val) :=
  flat_map (fun sp => match fallback (snd sp) with
                      | VNone => if sparse then [] else [(VStr (fst sp), VNone)]
                      | v => [(VStr (fst sp), v)]
                      end) l.

(** ** Visiting *)

(** What the visit of a specification must return: its nested specifications, each replaced by what
    the callback returns for it. *)
Inductive visited (callback : val -> val) (l : list (val * val)) : str -> list (val * val) -> Prop :=
| visited_map v : sget $"value" l = Some v -> sget $"key" l = None ->
    visited callback l $"map" [(VStr $"value", callback v)]
| visited_map_key v k : sget $"value" l = Some v -> sget $"key" l = Some k ->
    visited callback l $"map" [(VStr $"value", callback v); (VStr $"key", callback k)]
| visited_sequence v : sget $"item" l = Some v ->
    visited callback l $"sequence" [(VStr $"item", callback v)]
| visited_tuple v vs : sget $"values" l = Some v -> v = VList vs \/ v = VTuple vs ->
    visited callback l $"tuple" [(VStr $"values", VTuple (map callback vs))]
| visited_union v vs : sget $"fields" l = Some v -> v = VList vs \/ v = VTuple vs ->
    visited callback l $"union" [(VStr $"fields", VTuple (map callback vs))]
| visited_structure o d : sget $"structure" l = Some (VDict o d) ->
    (forall x, sget $"polymorphic_on" l = Some x -> truthy x = false) ->
    visited callback l $"structure" [(VStr $"structure", VDict false (map (fun kv => (fst kv, callback (snd kv))) d))]
| visited_polymorphic o d x (ds : list (val * (bool * list (val * val)))) :
    sget $"structure" l = Some (VDict o d) -> sget $"polymorphic_on" l = Some x -> truthy x = true ->
    d = map (fun kd => (fst kd, VDict (fst (snd kd)) (snd (snd kd)))) ds ->
    visited callback l $"structure"
      [(VStr $"structure", VDict false (map (fun kd => (fst kd, VDict false
          (map (fun kv => (fst kv, callback (snd kv))) (snd (snd kd))))) ds))]
| visited_other c : structural c = false -> visited callback l (cls_name c) [].

(** The entry of a specification that holds the nested ones. *)
Inductive nests : str -> str -> Prop :=
| nests_map : nests $"map" $"value"
| nests_sequence : nests $"sequence" $"item"
| nests_tuple : nests $"tuple" $"values"
| nests_union : nests $"union" $"fields"
| nests_structure : nests $"structure" $"structure".
