(** * Vocabulary for recursive schemas (C93). *)
From Verif Require Export UndefSpec.

(** How deeply lists, tuples, dicts and surrogates are nested in a value; the keys of a dict count as
    well. *)
Fixpoint depth (v : val) : nat :=
  match v with
  | VList l | VTuple l => S ((fix deepest l := match l with [] => O | x :: l' => Nat.max (depth x) (deepest l') end) l)
  | VDict _ l | VSurr _ _ _ l =>
      S ((fix deepest l := match l with
                           | [] => O
                           | (a, b) :: l' => Nat.max (Nat.max (depth a) (depth b)) (deepest l')
                           end) l)
  | _ => O
  end.

(** The placeholder [i] is asked to process the very value the field is given: the field is the
    placeholder, or a Union one of whose alternatives exposes it. *)
Inductive exposed : field -> nat -> Prop :=
| exposed_here : forall i, exposed (FUndef i) i
| exposed_union : forall p fs g i, In g fs -> exposed g i -> exposed (Fld p (KUnion fs)) i.

(** No placeholder leads back to itself through Unions alone: a definition exposes only placeholders
    of lower rank, and there are finitely many ranks. *)
Definition guarded (E : env) (rank : nat -> nat) (ranks : nat) : Prop :=
  (forall i, (rank i < ranks)%nat)
  /\ forall i g j, e_undef E i = Some g -> exposed g j -> (rank j < rank i)%nat.

(** No field brings in a schema at run time. *)
Definition no_surrogate (p : params) (k : kind) : Prop := match k with KSurrogate _ => False | _ => True end.

(** The field works on its value as it is: no preprocessor makes another container out of it, and the
    default of an entry of a structure is absent or given to a field without placeholders and
    surrogates. *)
Definition works_inward (E : env) (p : params) (k : kind) : Prop :=
  (basic k = true \/ p_preprocessor p = None)
  /\ match k with
     | KStructure d _ _ =>
         forall f q, In f (sdef_fields d) -> defined_as E f q ->
           p_default q = VNone \/ complete f /\ everywhere no_surrogate f
     | _ => True
     end.

(** The items, entries and keys of a value. *)
Definition parts_of (v : val) : list val :=
  match v with
  | VList l | VTuple l => l
  | VDict _ l | VSurr _ _ _ l => map fst l ++ map snd l
  | _ => []
  end.

(** [within v w]: [w] is [v] or a part of it at any depth. *)
Inductive within (v : val) : val -> Prop :=
| within_here : within v v
| within_part : forall u w, within v u -> In w (parts_of u) -> within v w.

(** [inside v w]: [w] is a part of [v] at any depth. *)
Definition inside (v w : val) : Prop := exists u, within v u /\ In w (parts_of u).

(** The schemas that may be met while [v] is processed: those of the classes of surrogates, those
    described somewhere in [v], and those that surrogates in [v] carry.
    /repo/scheme/surrogate.py:118-124, 185-207 *)
Definition schema_within (E : env) (recon : val -> res field) (v : val) (g : field) : Prop :=
  (exists impl, In g (e_schemas E impl))
  \/ (exists d, inside v d /\ recon d = Ok g)
  \/ exists i z l, within v (VSurr i (Some g) z l).

(** Such a schema works on the contents of the surrogate, not on the surrogate as a whole again. *)
Definition inward_schema (E : env) (g : field) : Prop :=
  (exists p k, g = Fld p k /\ match k with KUnion _ | KSurrogate _ => False | _ => True end)
  /\ everywhere (works_inward E) g.
