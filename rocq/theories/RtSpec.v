(** * Vocabulary of the serialization round trip (C34). *)
From Verif Require Export CalSpec.
Open Scope Z_scope.

(** [meets E f v k x]: when the value [v] is processed by the field [f], a field of class [k] is given
    [x], here or inside. *)
Inductive meets (E : env) : field -> val -> kind -> val -> Prop :=
| meets_here : forall p k v, meets E (Fld p k) v k v
| meets_placeholder : forall i g v k x,
    e_undef E i = Some g -> meets E g v k x -> meets E (FUndef i) v k x
| meets_item : forall p item mn mx u l y k x,
    In y l -> meets E item y k x -> meets E (Fld p (KSequence item mn mx u)) (VList l) k x
| meets_element : forall p fs l i f y k x,
    nth_error fs i = Some f -> nth_error l i = Some y -> meets E f y k x ->
    meets E (Fld p (KTuple fs)) (VTuple l) k x
| meets_key : forall p value key req o l a b k x,
    In (a, b) l -> meets E key a k x -> meets E (Fld p (KMap value (Some key) req)) (VDict o l) k x
| meets_value : forall p value key req o l a b k x,
    In (a, b) l -> meets E value b k x -> meets E (Fld p (KMap value key req)) (VDict o l) k x
| meets_entry : forall p d strict ko o l name f y k x,
    In (name, f) d -> In (VStr name, y) l -> meets E f y k x ->
    meets E (Fld p (KStructure (SPlain d) strict ko)) (VDict o l) k x
| meets_variant : forall p q kd vs strict ko o l dname id vk d name f y k x,
    p_name q = Some dname -> In (VStr dname, id) l -> In (vk, d) vs -> veq (e_local E) vk id = true ->
    In (name, f) d -> In (VStr name, y) l -> meets E f y k x ->
    meets E (Fld p (KStructure (SPoly (Fld q kd) vs) strict ko)) (VDict o l) k x
| meets_alternative : forall p fs f n v k x,
    In f fs -> conforms E n f v -> meets E f v k x -> meets E (Fld p (KUnion fs)) v k x.

(** Values whose serialized form says everything about them: bytes; days the C library writes with
    four digits of year; times and datetimes without microseconds; datetimes in a local zone without
    daylight saving time or in UTC, with a reading in UTC that can be written; no NaN, which differs
    from itself, among items that must differ or keys; objects that are imported under the name they
    are identified by; fields that are reconstructed from their description. *)
Definition faithful (E : env) (desc : field -> res val) (recon : val -> res field) {F} (k : kindP val F) (x : val) : Prop :=
  x = VNone \/
  match k with
  | KBinary _ _ => forall b, x = VBytes b -> bytes_ok b
  | KDate _ _ => exists d, x = VDate d /\ existing_day d /\ (e_pad E = true \/ 1000 <= d_year d)
  | KTime _ _ => exists t, x = VTime t /\ existing_time t /\ t_us t = 0
  | KDateTime _ _ utc => exists dt i u, x = VDateTime dt /\ existing dt /\ t_us (dt_time dt) = 0
      /\ (utc = true \/ lt_dst (e_local E) = lt_std (e_local E))
      /\ instant (e_local E) utc dt i /\ existing u /\ wall_clock u i
      /\ (e_pad E = true \/ 1000 <= d_year (dt_date u))
  | KSequence _ _ _ true => forall l d, x = VList l -> In (VDec d) l -> dec_is_nan d = false
  | KMap _ _ _ => forall o l d y, x = VDict o l -> In (VDec d, y) l -> dec_is_nan d = false
  | KObject => exists s, e_import E s = Some x /\ (x = VStr s \/ (forall t, x <> VStr t) /\ e_identify E x = Some s)
  | KDefinition _ => exists f d, x = VField f /\ desc f = Ok d /\ d <> VNone /\ recon d = Ok f
  | _ => True
  end.

(** Classes that serialize to the value itself, and classes that serialize to texts or bytes. *)
Definition unchanged {F} (k : kindP val F) : bool :=
  match k with
  | KField | KBoolean | KFloat _ _ | KInteger _ _ | KText _ _ _ _ | KEmail _ _ _ _ | KEnumeration _ _
  | KToken _ | KUUID => true
  | _ => false
  end.
Definition written {F} (k : kindP val F) : bool :=
  match k with KBinary _ _ | KDate _ _ | KTime _ _ | KDateTime _ _ _ | KDecimal _ _ => true | _ => false end.

(** The Python types of serialized values; of an enumeration, the values. *)
Definition wire_type (E : env) (k : kind) (w : val) : Prop :=
  match k with
  | KBinary _ _ => exists b, w = VBytes b
  | KBoolean => exists b, w = VBool b
  | KFloat _ _ => exists x, w = VFloat x
  | KInteger _ _ => exists z, w = VInt z
  | KDate _ _ | KDateTime _ _ _ | KTime _ _ | KDecimal _ _ | KObject
  | KText _ _ _ _ | KEmail _ _ _ _ | KToken _ | KUUID => exists s, w = VStr s
  | KEnumeration l _ => exists x, In x l /\ veq (e_local E) x w = true
  | KSequence _ _ _ _ => exists l, w = VList l
  | KTuple _ => exists l, w = VTuple l
  | KMap _ _ _ | KStructure _ _ _ => exists o l, w = VDict o l
  | _ => True
  end.

(** The types of serialized values a class does not refuse outright. *)
Definition read_type (E : env) (k : kind) (w : val) : Prop :=
  match k with
  | KBinary _ _ => exists b, w = VBytes b
  | KBoolean => exists b, w = VBool b
  | KInteger _ _ | KFloat _ _ | KDecimal _ _ =>
      match w with
      | VInt _ | VFloat _ | VDec _ | VStr _ | VBytes _ => True
      | VBool _ => match k with KInteger _ _ => False | _ => True end
      | VTuple _ | VList _ => match k with KDecimal _ _ => True | _ => False end
      | _ => False
      end
  | KDate _ _ => match w with VDate _ | VDateTime _ | VStr _ => True | _ => False end
  | KDateTime _ _ _ => match w with VDateTime _ | VStr _ => True | _ => False end
  | KTime _ _ => match w with VTime _ | VStr _ => True | _ => False end
  | KText _ _ _ _ | KEmail _ _ _ _ | KToken _ | KUUID => exists s, w = VStr s
  | KSequence _ _ _ _ => exists l, w = VList l
  | KTuple _ => exists l, w = VTuple l \/ w = VList l
  | KMap _ _ _ | KStructure _ _ _ => as_dict w <> None
  | KEnumeration l _ => exists x, In x l /\ veq (e_local E) x w = true
  | _ => True
  end.

(** An earlier alternative [f] does not take what a later one [g] serialized: either both serialize to
    the value itself and [f] returns what it accepts, or [f] refuses the type. *)
Definition told_apart (E : env) (f g : field) : Prop :=
  match f, g with
  | Fld _ k, Fld _ k' =>
      (match k with
       | KBoolean | KUUID | KToken None | KText None None None false | KEnumeration _ None => decisive k
       | _ => False
       end /\ unchanged k' = true)
      \/ (match k with KEnumeration _ _ => decisive k | _ => True end
          /\ forall w, read_type E k w -> wire_type E k' w -> False)
  | _, _ => False
  end.

(** Round-trippable classes: not errors, which cannot be read back, surrogates, of which more in C72,
    and unions only if no alternative takes what another one serialized.  The items of a
    sequence without duplicates and the keys of a map are of a class that keeps distinct values
    distinct; required keys are compared before unserialization, so the key serializes to itself;
    likewise the discriminator of a polymorphic structure. *)
Definition portable (E : env) (p : params) (k : kind) : Prop :=
  match k with
  | KError | KSurrogate _ => False
  | KUnion fs => ForallOrdPairs (told_apart E) fs
  | KSequence item _ _ true => exists q kd, item = Fld q kd /\ (unchanged kd || written kd = true)
  | KMap _ (Some key) req => exists q kd, key = Fld q kd
      /\ (unchanged kd = true \/ written kd = true /\ req = None)
  | KStructure (SPoly on _) _ _ => exists q kd, on = Fld q kd /\ unchanged kd = true
  | _ => True
  end.
