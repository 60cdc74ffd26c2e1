(** Property theorems proved in EscapeProofs.v (generated by tools/mkprops.py). *)
From Verif Require Import Spec Demo EscSpec EscapeProofs.

(** C36.  Any exception that is not a structural error and escapes from [process] is one of an
    explicit list, determined by the fields of the schema: an escape from a field's own processing, from
    a subfield, or from a placeholder. *)
Theorem C36_escaping_exceptions :
  forall E desc recon n f partial ph ser anc v x,
    process_gen E desc recon n f partial ph ser anc v = Raise (XPy x) ->
    may_escape E desc recon ph ser x f.
Proof. exact escaping_exceptions. Qed.
Print Assumptions C36_escaping_exceptions.

(* A unique sequence: of the listed exceptions only TypeError, and it does escape. *)
Example C36_escape_example :
  let f := Fld p0 (KSequence (Fld p0 KObject) None None true) in
  run0 f Inbound false (VList [VList []]) = Raise (XPy TypeError)
  /\ forall x, may_escape env0 nodesc norecon Inbound false x f -> x = TypeError.
Proof.
  split; [reflexivity|]. intros x H. inversion H as [p k H'|p k g Hg H'| | | |]; subst.
  - cbn in H'. destruct H' as [[_ H']|[[i [w [H' _]]]|[H' _]]]; [exact H'|discriminate|contradiction].
  - destruct Hg as [<-|[]]. inversion H' as [p k H2|p k g Hg H2| | | |]; subst.
    + cbn in H2. destruct H2 as [[H2 _]|[]]. discriminate.
    + destruct Hg.
Qed.

(** C36.  A schema without placeholders whose fields are all tame lets no exception but
    structural errors escape, for any value. *)
Theorem C36_tame_schemas_orderly_partial :
  forall E desc recon n f partial ph ser anc v,
    complete f -> everywhere (tame ph ser) f ->
    orderly (process_gen E desc recon n f partial ph ser anc v).
Proof. exact tame_schemas_orderly_partial. Qed.
Print Assumptions C36_tame_schemas_orderly_partial.

(* Sequences of texts under a key, with a polymorphic part. *)
Example C36_tame_example :
  let f := Fld p0 (KStructure (SPlain
             [($"a", Fld p0 (KSequence (Fld p0 (KText None None None false)) None None false));
              ($"b", Fld p0 (KStructure (SPoly (Fld (p_named $"t") (KEnumeration [VStr $"x"] None))
                                              [(VStr $"x", [($"n", Fld p0 (KInteger None None))])]) true None))])
             true None) in
  complete f /\ everywhere (tame Inbound true) f
  /\ orderly (run0 f Inbound true (VDict false [(VStr $"a", VInt 1); (VInt 2, VNone)])).
Proof.
  intros f. assert (H1 : complete f).
  { repeat (constructor; cbn; intros ? H; repeat destruct H as [<-|H]; try contradiction). }
  assert (H2 : everywhere (tame Inbound true) f).
  { repeat (constructor; [cbn|intros ? H; cbn in H; repeat destruct H as [<-|H]; try contradiction]);
      auto using incl_refl.
    split; [reflexivity|]. split; [reflexivity|]. exists (p_named $"t"), [VStr $"x"], None.
    split; [reflexivity|]. split; [discriminate|]. constructor; [eauto|constructor]. }
  split; [exact H1|]. split; [exact H2|]. apply (tame_schemas_orderly_partial env0 nodesc norecon); assumption.
Qed.

(** C36.  As stated the claim fails: a unique sequence of unconstrained items, given an item that
    cannot be hashed, raises TypeError. *)
Theorem C36_only_structural_errors_refuted :
  exists E desc recon n f v,
    complete f /\ everywhere ordinary f
    /\ process_gen E desc recon n f false Inbound false [] v = Raise (XPy TypeError).
Proof. exact only_structural_errors_refuted. Qed.
Print Assumptions C36_only_structural_errors_refuted.

(** C36.  Each class raises on its own exactly the listed exceptions (besides those of the
    description of a field a Definition serializes and of the schema of a serialized surrogate):
    without preprocessor and over subfields that let nothing escape no other exception can escape, and
    every listed one does for some field of the class and some value. *)
Theorem C36_class_exceptions :
  forall k0 x,
    In x (own_exceptions k0) <->
    exists E desc recon n p k partial ph ser anc v,
      same_class k k0 /\ p_preprocessor p = None
      /\ (forall f y, desc f <> Raise (XPy y))
      /\ (forall g, In g (subfields k) -> complete g /\ everywhere (tame ph ser) g)
      /\ (ser = true -> kind_type k <> $"surrogate")
      /\ process_gen E desc recon n (Fld p k) partial ph ser anc v = Raise (XPy x).
Proof. exact class_exceptions. Qed.
Print Assumptions C36_class_exceptions.

(* Malformed base64 given as bytes. *)
Example C36_class_exceptions_example :
  own_exceptions (KBinary None None) = [InvalidOperation; BinasciiError]
  /\ run0 (Fld p0 (KBinary None None)) Inbound true (VBytes $"QUJD*R") = Raise (XPy BinasciiError).
Proof. split; vm_compute; reflexivity. Qed.

(** C36.  A Surrogate field raises on its own, given serialized values or serializing, exactly
    the listed exceptions: if descriptions, reconstructions and schemas let nothing escape, no other
    exception can escape, and every listed one does for some field, class and value. *)
Theorem C36_surrogate_own_exceptions :
  forall ph x,
    In x (surrogate_exceptions ph) <->
    exists E desc recon n p valid partial anc v,
      p_preprocessor p = None
      /\ (forall f y, desc f <> Raise (XPy y)) /\ (forall d y, recon d <> Raise (XPy y))
      /\ (forall g, schema_met E recon v g -> complete g /\ everywhere (tame ph true) g)
      /\ process_gen E desc recon (S n) (Fld p (KSurrogate valid)) partial ph true anc v = Raise (XPy x).
Proof. exact surrogate_own_exceptions. Qed.
Print Assumptions C36_surrogate_own_exceptions.

(* The third version of a class with one. *)
Example C36_surrogate_own_exceptions_example :
  In ValueError (surrogate_exceptions Inbound)
  /\ process_gen (env_versions None) nodesc norecon 1 (Fld p0 (KSurrogate None)) false Inbound true []
       (VDict false [(VStr $"_", VStr $"s"); (VStr $"__version__", VInt 3)]) = Raise (XPy ValueError).
Proof. split; [cbn; auto|vm_compute; reflexivity]. Qed.
