(** * Vocabulary for placeholders (C38). *)
From Verif Require Export Spec.

(** The slot holds a placeholder that was never given a field. *)
Definition unresolved (E : env) (f : field) : Prop := ~ defined E f.

(** The field after the [define] calls recorded in [E]: every placeholder with a definition is
    replaced by it.  /repo/scheme/field.py:628-631, fields/sequence.py:222-224 and its like *)
Fixpoint resolve (E : env) (f : field) : field :=
  match f with
  | FUndef i => match e_undef E i with Some (Fld q k) => Fld q k | _ => f end
  | Fld p k => Fld p (kmap (resolve E) k)
  end.

(** Processing ends with outcome [r] (with enough fuel for the recursion; the outcome
    RecursionError is left out). *)
Definition settles (E : env) desc recon (f : field) (partial : bool) ph ser anc v (r : res val) : Prop :=
  r <> Raise (XPy RecursionError) /\ exists n, process_gen E desc recon n f partial ph ser anc v = r.

(** The environment with other definitions of the placeholders. *)
Definition with_undef (E : env) (u : nat -> option field) : env :=
  {| e_pre := e_pre E; e_ext := e_ext E; e_inst := e_inst E; e_pattern := e_pattern E; e_local := e_local E;
     e_pad := e_pad E; e_udigit := e_udigit E; e_uword := e_uword E; e_ulower := e_ulower E;
     e_import := e_import E; e_identify := e_identify E; e_undef := u; e_str := e_str E;
     e_impl := e_impl E; e_schemas := e_schemas E; e_compile := e_compile E;
     e_surrogate := e_surrogate E; e_identity := e_identity E; e_repr := e_repr E |}.
