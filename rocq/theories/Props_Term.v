(** Property theorems proved in TermProofs.v (generated by tools/mkprops.py). *)
From Verif Require Import Spec Demo UndefSpec TermSpec TermProofs.

(** C93.  A schema may refer to itself through placeholders.  If no placeholder leads back to
    itself through Unions alone, every field works on its value as it is, and so do the schemas of the
    surrogates in the value, then processing ends with an outcome other than RecursionError; and the
    recursion it takes grows no faster than the nesting of the value. *)
Theorem C93_recursion_ends_partial :
  forall E desc recon rank ranks f v,
    guarded E rank ranks ->
    throughout E (works_inward E) f ->
    (forall g, desc g <> Raise (XPy RecursionError)) ->
    throughout E no_surrogate f
    \/ ((forall g, schema_within E recon v g -> inward_schema E g)
        /\ forall d, inside v d -> recon d <> Raise (XPy RecursionError)) ->
    forall partial ph ser anc n,
      (S ranks * S (depth v) <= n)%nat ->
      settles E desc recon f partial ph ser anc v (process_gen E desc recon n f partial ph ser anc v).
Proof. exact recursion_ends_partial. Qed.
Print Assumptions C93_recursion_ends_partial.

(* {'value': Integer(), 'next': Undefined()} with the placeholder standing for the structure itself:
   a linked list of any length. *)
Definition C93_chain := Fld p0 (KStructure (SPlain [($"value", Fld p0 (KInteger None None)); ($"next", FUndef 0)]) true None).
Definition C93_env := with_undef env0 (fun i => match i with O => Some C93_chain | _ => None end).
Fixpoint C93_links (n : nat) : val :=
  match n with O => VNone | S m => VDict false [(VStr $"value", VInt (Z.of_nat m)); (VStr $"next", C93_links m)] end.
Example C93_example :
  guarded C93_env (fun _ => O) 1 /\ throughout C93_env (works_inward C93_env) C93_chain
  /\ depth (C93_links 3) = 3%nat
  /\ settles C93_env nodesc norecon C93_chain false Inbound true [] (C93_links 3) (Ok (C93_links 3)).
Proof.
  assert (Hw : everywhere (works_inward C93_env) C93_chain).
  { constructor.
    - split; [right; reflexivity|]. intros f q [<-|[<-|[]]]; cbn.
      + intros <-. left. reflexivity.
      + intros [k [= <- _]]. left. reflexivity.
    - intros g [<-|[<-|[]]]; constructor; [split; [left; reflexivity|exact I]|intros g []]. }
  split; [split; [intros i; repeat constructor|]|split; [split; [exact Hw|]|split; [reflexivity|]]].
  - intros [|i] g j; [|discriminate]. intros [= <-] H. inversion H.
  - intros [|i] g; [|discriminate]. intros [= <-]. exact Hw.
  - split; [discriminate|]. exists 4%nat. vm_compute. reflexivity.
Qed.

(* Surrogates of a class whose schema has a surrogate for its entry [next]. *)
Definition C93_class : env :=
  {| e_pre := e_pre env0; e_ext := e_ext env0; e_inst := e_inst env0; e_pattern := e_pattern env0;
     e_local := e_local env0; e_pad := e_pad env0; e_udigit := e_udigit env0; e_uword := e_uword env0;
     e_ulower := e_ulower env0; e_import := e_import env0; e_identify := e_identify env0;
     e_undef := e_undef env0; e_str := e_str env0; e_impl := fun _ => 1%nat;
     e_schemas := fun i => match i with 1%nat => [Fld p0 (KStructure (SPlain [($"next", Fld p0 (KSurrogate None))]) true None)] | _ => [] end;
     e_compile := e_compile env0; e_repr := e_repr env0; e_surrogate := e_surrogate env0;
     e_identity := e_identity env0 |}.
Example C93_surrogates_example :
  let f := Fld p0 (KSurrogate None) in
  let inner := VDict false [(VStr $"_", VStr $"x")] in
  let v := VDict false [(VStr $"_", VStr $"x"); (VStr $"next", inner)] in
  (forall g, schema_within C93_class norecon v g -> inward_schema C93_class g)
  /\ throughout C93_class (works_inward C93_class) f
  /\ process_gen C93_class nodesc norecon 3 f false Inbound true [] v
     = Ok (VSurr 1 None (Some 1%Z) [(VStr $"next", VSurr 1 None (Some 1%Z) [])]).
Proof.
  intros f inner v. split; [|split; [|vm_compute; reflexivity]].
  - assert (Hall : forall w, within v w -> In w [v; inner; VStr $"_"; VStr $"x"; VStr $"next"]).
    { intros w Hw. induction Hw as [|u w Hu IH Hw]; [left; reflexivity|].
      repeat destruct IH as [<-|IH]; try contradiction; cbn in Hw; repeat destruct Hw as [<-|Hw]; try contradiction; cbn; auto 10. }
    intros g [[i Hi]|[[d [_ Hd]]|[i [z [l Hl]]]]].
    + destruct i as [|[|i]]; cbn in Hi; [contradiction| |contradiction]. destruct Hi as [<-|[]]. split; [eexists; eexists; split; [reflexivity|exact I]|].
      constructor; [split; [right; reflexivity|]|].
      * intros h q [<-|[]] <-. left. reflexivity.
      * intros h [<-|[]]. constructor; [split; [right; reflexivity|exact I]|intros ? []].
    + discriminate.
    + exfalso. apply Hall in Hl. repeat destruct Hl as [Hl|Hl]; discriminate || contradiction.
  - split; [|discriminate]. constructor; [split; [right; reflexivity|exact I]|intros ? []].
Qed.

(** C93.  In general processing need not end: a Union whose alternative stands for the Union
    itself recurses forever on every value but None, and so does a structure with an entry that
    stands for the structure and has the empty dict for default. *)
Theorem C93_recursion_ends_refuted :
  (exists E f, forall desc recon n partial ph ser anc v,
     v <> VNone ->
     process_gen E desc recon n f partial ph ser anc v = Raise (XPy RecursionError))
  /\ exists E f, forall desc recon n ser anc,
     process_gen E desc recon n f false Inbound ser anc (VDict false []) = Raise (XPy RecursionError).
Proof. exact recursion_ends_refuted. Qed.
Print Assumptions C93_recursion_ends_refuted.

Example C93_cycle_example :
  forall n, run0 (Fld p0 (KUnion [FUndef 0])) Inbound true VNone = Ok VNone
    /\ process_gen (with_undef env0 (fun _ => Some (Fld p0 (KUnion [FUndef 0])))) nodesc norecon n
         (FUndef 0) false Inbound true [] VNone = match n with O => Raise (XPy RecursionError) | _ => Ok VNone end.
Proof. intros [|n]; (split; [vm_compute; reflexivity|]); [reflexivity|destruct n; reflexivity]. Qed.

(** C93.  Without any placeholder a surrogate may recurse forever: when the schema of its class
    has an entry whose default is a surrogate of that class. *)
Theorem C93_surrogate_recursion_refuted :
  exists E f, complete f /\ forall desc recon n anc,
    process_gen E desc recon n f false Inbound true anc (VDict false [(VStr $"_", VStr $"x")])
    = Raise (XPy RecursionError).
Proof. exact surrogate_recursion_refuted. Qed.
Print Assumptions C93_surrogate_recursion_refuted.

(* Not with another default. *)
Example C93_surrogate_recursion_example :
  process_gen env_again nodesc norecon 5 again false Inbound true []
    (VDict false [(VStr $"_", VStr $"x"); (VStr $"next", VNone)])
  = Ok (VSurr 1 None (Some 1%Z) [(VStr $"next", VNone)]).
Proof. vm_compute. reflexivity. Qed.
