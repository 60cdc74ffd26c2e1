(** * Vocabulary for values sent through JSON by fields (C80). *)
From Verif Require Export RtSpec JsonSpec IoSpec.
Open Scope Z_scope.

(** The names of the entries of a structure. *)
Definition entry_names (d : sdefP val field) : list str :=
  match d with SPlain l => map fst l | SPoly _ vs => flat_map (fun vl => map fst (snd vl)) vs end.

(** Classes of keys that come back from the texts JSON makes of keys. *)
Definition json_key (k : kind) : Prop :=
  match k with
  | KText _ _ _ _ | KEmail _ _ _ _ | KToken _ | KUUID | KDate _ _ | KTime _ _ | KDateTime _ _ _ | KDecimal _ _
  | KInteger _ _ => True
  | KEnumeration l _ => forall x, In x l -> exists s, x = VStr s
  | _ => False
  end.

(** JSON makes lists of tuples: an alternative before a tuple refuses lists. *)
Definition list_apart (E : env) (f g : field) : Prop :=
  match f, g with
  | Fld _ k, Fld _ (KTuple _) => forall l, ~ read_type E k (VList l)
  | _, _ => True
  end.

(** Classes whose serialized values JSON can carry: not Binary, which serializes to bytes; the keys of
    a map are not null and of one of the classes above; no surrogates in the names of a structure; the
    alternatives of a union can be told apart as above. *)
Definition json_portable (E : env) (p : params) (k : kind) : Prop :=
  match k with
  | KBinary _ _ => False
  | KUnion fs => ForallOrdPairs (list_apart E) fs
  | KMap _ (Some key) _ => exists q kd, key = Fld q kd /\ p_nonnull q = true /\ json_key kd
  | KStructure d _ _ => forall name, In name (entry_names d) -> carried name
  | _ => True
  end.

(** Values that JSON carries as they are: the values of plain fields and enumerations are documents of
    JSON, finite floats are printed so that they can be read, texts and the names of objects have no
    surrogates, descriptions are documents. *)
Definition json_faithful (E : env) (desc : field -> res val) (k : kind) (x : val) : Prop :=
  x = VNone \/
  match k with
  | KField | KEnumeration _ _ => document E x
  | KFloat _ _ => forall f, x = VFloat f -> finite f -> prints E f
  | KText _ _ _ _ | KEmail _ _ _ _ | KToken _ | KUUID => forall s, x = VStr s -> carried s
  | KMap _ _ _ => forall o l s y, x = VDict o l -> In (VStr s, y) l -> carried s
  | KObject => forall s, x = VStr s \/ e_identify E x = Some s -> carried s
  | KDefinition _ => forall f d, x = VField f -> desc f = Ok d -> document E d
  | _ => True
  end.
