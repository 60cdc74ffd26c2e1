(** * Specifications of surrogates (C72). *)
From Verif Require Export ExtractSpec RtSpec Surrogate.

(** The schema of a version: versions count from one.  /repo/scheme/surrogate.py:120-122, 199-204 *)
Definition version_schema (E : env) (impl : nat) (z : Z) (f : field) : Prop :=
  (1 <= z <= Z.of_nat (length (e_schemas E impl)))%Z /\ nth_error (e_schemas E impl) (Z.to_nat (z - 1)) = Some f.

(** The keys in which a serialized surrogate keeps its class, schema and version.
    /repo/scheme/surrogate.py:120-126, 132-134, 200 *)
Definition reserved (s : str) : Prop := s = $"_" \/ s = $"__schema__" \/ s = $"__version__".

(** A schema that is a structure without the reserved keys. *)
Definition unreserved (f : field) : Prop :=
  exists p d strict ko, f = Fld p (KStructure d strict ko)
    /\ match d with
       | SPlain l => forall s, In s (map fst l) -> ~ reserved s
       | SPoly _ vs => forall i l s, In (i, l) vs -> In s (map fst l) -> ~ reserved s
       end.

(** The class is known by its token, and its surrogates may be values of the field.
    /repo/scheme/surrogate.py:126, 145-158, /repo/scheme/fields/surrogate.py:61-67 *)
Definition identified (E : env) (impl : nat) (token : str) : Prop :=
  e_surrogate E impl = Some token /\ e_impl E (VStr token) = impl.
Definition permitted (E : env) (valid : option (list str)) (impl : nat) : Prop :=
  match valid with
  | Some (t :: ts) => exists name, e_identity E impl = Some name /\ In name (t :: ts)
  | _ => True
  end.

(** A Surrogate field that only checks and converts. *)
Definition pristine (p : params) : Prop := p_preprocessor p = None /\ p_constant p = VNone.

(** [d] without [key]. *)
Definition without_key (key : str) (l l' : list (val * val)) : Prop :=
  exists a b, l' = a ++ b
    /\ (l = a ++ b /\ ~ In (VStr key) (map fst l)
        \/ exists x, l = a ++ (VStr key, x) :: b /\ ~ In (VStr key) (map fst a)).

(** Round-trippable classes, among them now surrogates; compare [portable]. *)
Definition transportable (E : env) (p : params) (k : kind) : Prop :=
  match k with KSurrogate _ => p_constant p = VNone | _ => portable E p k end.

(** [restorable E desc recon n m f v]: [v] is a value of the schema [f] in which every surrogate can be
    written and read again.  Its class is identified by its token and permitted by the field.  It has
    neither schemas nor reserved keys, or contents that are restorable by the schema of its version, or
    by a schema of its own that is reconstructed from its description.  At most [m] surrogates are
    nested, and at most [n] placeholders are followed between them. *)
Fixpoint restorable E desc recon (n m : nat) (f : field) (v : val) : Prop :=
  throughout E well_keyed f /\ throughout E (tidy E) f /\ throughout E (transportable E) f
  /\ conforms E n f v /\ (forall k x, meets E f v k x -> faithful E desc recon k x)
  /\ forall valid x, meets E f v (KSurrogate valid) x -> x <> VNone ->
       match m with
       | O => False
       | S m' => exists impl token schema version items, x = VSurr impl schema version items
           /\ permitted E valid impl /\ identified E impl token
           /\ match schema, version with
              | None, None => e_schemas E impl = [] /\ forall s, reserved s -> ~ In (VStr s) (map fst items)
              | None, Some z => exists g, version_schema E impl z g
                  /\ unreserved g /\ restorable E desc recon n m' g (VDict false items)
              | Some g, None => exists d, desc g = Ok d /\ truthy d = true /\ recon d = Ok g
                  /\ unreserved g /\ restorable E desc recon n m' g (VDict false items)
              | _, _ => False
              end
       end.
