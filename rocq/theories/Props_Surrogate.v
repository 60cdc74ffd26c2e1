(** Property theorems proved in SurrogateProofs.v (generated by tools/mkprops.py). *)
From Verif Require Import Spec Demo RtSpec ExtractSpec SurrogateSpec SurrogateProofs.

(** C72.  A surrogate of a versioned class whose contents conform to the schema of its version
    serializes, and unserializing the result gives the surrogate back: class, version and contents.
    The class must have the attribute [surrogate]. *)
Theorem C72_versioned_round_trip_partial :
  forall E desc recon n p valid impl token z f items,
    pristine p -> permitted E valid impl -> identified E impl token -> version_schema E impl z f ->
    unreserved f -> throughout E well_keyed f -> throughout E (tidy E) f -> throughout E (portable E) f ->
    conforms E n f (VDict false items) -> (forall k x, meets E f (VDict false items) k x -> faithful E desc recon k x) ->
    exists w,
      (forall anc, process_gen E desc recon (S n) (Fld p (KSurrogate valid)) false Outbound true anc
                     (VSurr impl None (Some z) items) = Ok w)
      /\ (forall anc, process_gen E desc recon (S n) (Fld p (KSurrogate valid)) false Inbound true anc w
                     = Ok (VSurr impl None (Some z) items)).
Proof. exact versioned_round_trip_partial. Qed.
Print Assumptions C72_versioned_round_trip_partial.

(* A class with two versions of its schema, which defines the attribute [surrogate]. *)
Definition env72 : env := {|
  e_pre := e_pre env0; e_ext := e_ext env0; e_inst := e_inst env0; e_pattern := e_pattern env0; e_local := e_local env0;
  e_pad := true; e_udigit := e_udigit env0; e_uword := e_uword env0; e_ulower := e_ulower env0; e_import := e_import env0;
  e_identify := e_identify env0; e_undef := e_undef env0; e_str := e_str env0;
  e_impl := fun t => match t with VStr s => if str_eqb s $"pkg.S" then 1%nat else if str_eqb s $"pkg.T" then 2%nat else 0%nat | _ => 0%nat end;
  e_schemas := fun i => match i with
                        | 1%nat => [Fld p0 (KStructure (SPlain [($"id", Fld p_req (KInteger None None))]) true None);
                                    Fld p0 (KStructure (SPlain [($"id", Fld p_req (KInteger None None)); ($"day", Fld p0 (KDate None None))]) true None)]
                        | _ => [] end;
  e_surrogate := fun i => match i with 1%nat => Some $"pkg.S" | 2%nat => Some $"pkg.T" | _ => None end; e_identity := fun _ => None;
  e_compile := e_compile env0; e_repr := e_repr env0 |}.
Definition f72 : field := Fld p0 (KSurrogate None).
Example C72_example :
  let s := VSurr 1 None (Some 2%Z) [(VStr $"id", VInt 4); (VStr $"day", VDate (Date 2024 2 29))] in
  let w := VDict false [(VStr $"id", VInt 4); (VStr $"day", VStr $"2024-02-29"); (VStr $"__version__", VInt 2); (VStr $"_", VStr $"pkg.S")] in
  process_gen env72 nodesc norecon 1 f72 false Outbound true [] s = Ok w
  /\ process_gen env72 nodesc norecon 1 f72 false Inbound true [] w = Ok s.
Proof. vm_compute. auto. Qed.

(** C72.  A surrogate with a schema of its own: if the schema is reconstructed from its
    description, the serialized form gives the surrogate back with its schema. *)
Theorem C72_dynamic_round_trip_partial :
  forall E desc recon n p valid impl token f d items,
    pristine p -> permitted E valid impl -> identified E impl token ->
    desc f = Ok d -> truthy d = true -> recon d = Ok f ->
    unreserved f -> throughout E well_keyed f -> throughout E (tidy E) f -> throughout E (portable E) f ->
    conforms E n f (VDict false items) -> (forall k x, meets E f (VDict false items) k x -> faithful E desc recon k x) ->
    exists w,
      (forall anc, process_gen E desc recon (S n) (Fld p (KSurrogate valid)) false Outbound true anc
                     (VSurr impl (Some f) None items) = Ok w)
      /\ (forall anc, process_gen E desc recon (S n) (Fld p (KSurrogate valid)) false Inbound true anc w
                     = Ok (VSurr impl (Some f) None items)).
Proof. exact dynamic_round_trip_partial. Qed.
Print Assumptions C72_dynamic_round_trip_partial.

(* The schema is described by its number here. *)
Definition dyn72 : field := Fld p0 (KStructure (SPlain [($"id", Fld p_req (KInteger None None))]) true None).
Example C72_dynamic :
  let desc := fun f : field => Ok (VInt 7) in
  let recon := fun v : val => match v with VInt 7 => Ok dyn72 | _ => py ValueError end in
  let s := VSurr 2 (Some dyn72) None [(VStr $"id", VInt 4)] in
  let w := VDict false [(VStr $"id", VInt 4); (VStr $"__schema__", VInt 7); (VStr $"_", VStr $"pkg.T")] in
  process_gen env72 desc recon 1 f72 false Outbound true [] s = Ok w
  /\ process_gen env72 desc recon 1 f72 false Inbound true [] w = Ok s.
Proof. vm_compute. auto. Qed.

(** C72.  A surrogate without any schema keeps its contents as they are. *)
Theorem C72_bare_round_trip_partial :
  forall E desc recon n p valid impl token items,
    pristine p -> permitted E valid impl -> identified E impl token -> e_schemas E impl = [] ->
    ~ In (VStr $"_") (map fst items) -> ~ In (VStr $"__schema__") (map fst items) ->
    exists w,
      (forall anc, process_gen E desc recon (S n) (Fld p (KSurrogate valid)) false Outbound true anc
                     (VSurr impl None None items) = Ok w)
      /\ (forall anc, process_gen E desc recon (S n) (Fld p (KSurrogate valid)) false Inbound true anc w
                     = Ok (VSurr impl None None items)).
Proof. exact bare_round_trip_partial. Qed.
Print Assumptions C72_bare_round_trip_partial.

Example C72_bare :
  let s := VSurr 2 None None [(VStr $"id", VInt 4)] in
  let w := VDict false [(VStr $"id", VInt 4); (VStr $"_", VStr $"pkg.T")] in
  process_gen env72 nodesc norecon 1 f72 false Outbound true [] s = Ok w
  /\ process_gen env72 nodesc norecon 1 f72 false Inbound true [] w = Ok s.
Proof. vm_compute. auto. Qed.

(** C34.  Surrogates inside other values, and inside the contents of other surrogates at any depth, return from
    their serialized form with the values around them. *)
Theorem C34_surrogates_round_trip_partial :
  forall E desc recon n m f v N,
    restorable E desc recon n m f v -> (n + m * S n <= N)%nat ->
    exists w,
      (forall anc, process_gen E desc recon N f false Outbound true anc v = Ok w)
      /\ (forall anc, process_gen E desc recon N f false Inbound true anc w = Ok v).
Proof. exact surrogates_round_trip_partial. Qed.
Print Assumptions C34_surrogates_round_trip_partial.

(* A list of surrogates; the first one has a versioned schema and holds another surrogate. *)
Definition holder : field := Fld p0 (KStructure (SPlain [($"inner", Fld p0 (KSurrogate None))]) true None).
Definition env34s : env := {|
  e_pre := e_pre env0; e_ext := e_ext env0; e_inst := e_inst env0; e_pattern := e_pattern env0; e_local := e_local env0;
  e_pad := true; e_udigit := e_udigit env0; e_uword := e_uword env0; e_ulower := e_ulower env0; e_import := e_import env0;
  e_identify := e_identify env0; e_undef := fun _ => None; e_str := e_str env0;
  e_impl := e_impl env72; e_schemas := fun i => match i with 1%nat => [holder; holder] | _ => [] end;
  e_surrogate := e_surrogate env72; e_identity := fun _ => None; e_compile := e_compile env0; e_repr := e_repr env0 |}.
Example C34_surrogates_example :
  let f := Fld p0 (KSequence (Fld p0 (KSurrogate None)) None None false) in
  let plain := VSurr 2 None None [(VStr $"id", VInt 4)] in
  let v := VList [VSurr 1 None (Some 2%Z) [(VStr $"inner", plain)]; VNone; plain] in
  let w := VList [VDict false [(VStr $"inner", VDict false [(VStr $"id", VInt 4); (VStr $"_", VStr $"pkg.T")]);
                               (VStr $"__version__", VInt 2); (VStr $"_", VStr $"pkg.S")];
                  VNone; VDict false [(VStr $"id", VInt 4); (VStr $"_", VStr $"pkg.T")]] in
  restorable env34s nodesc norecon 0 2 f v
  /\ process_gen env34s nodesc norecon 2 f false Outbound true [] v = Ok w
  /\ process_gen env34s nodesc norecon 2 f false Inbound true [] w = Ok v.
Proof.
  intros f plain v w. split; [|vm_compute; split; reflexivity].
  assert (Hany : forall P : params -> kind -> Prop, (forall p d valid, p = p0 -> P p (KSurrogate valid) /\ P p (KStructure (SPlain [(d, Fld p0 (KSurrogate None))]) true None)
                                                   /\ P p (KSequence (Fld p0 (KSurrogate None)) None None false)) ->
            throughout env34s P f /\ throughout env34s P holder).
  { intros P HP. assert (Hs : everywhere P (Fld p0 (KSurrogate None))) by (constructor; [apply (HP p0 [] None eq_refl)|intros g []]).
    split; (split; [|discriminate]); constructor.
    - apply (HP p0 [] None eq_refl).
    - intros g [<-|[]]. exact Hs.
    - apply (HP p0 $"inner" None eq_refl).
    - intros g [<-|[]]. exact Hs. }
  assert (Hwk : throughout env34s well_keyed f /\ throughout env34s well_keyed holder).
  { apply Hany. intros p d valid ->. split; [exact I|]. split; [|exact I]. split; [|exact I]. constructor; [intros []|constructor]. }
  assert (Hti : throughout env34s (tidy env34s) f /\ throughout env34s (tidy env34s) holder).
  { apply Hany. intros p d valid ->. repeat split. }
  assert (Htr : throughout env34s (transportable env34s) f /\ throughout env34s (transportable env34s) holder).
  { apply Hany. intros p d valid ->. repeat split. }
  assert (Hc : forall i z l, conforms env34s 0 (Fld p0 (KSurrogate None)) (VSurr i None z l)).
  { intros i z l. right. split; [discriminate|]. split; [exists i, None, z, l; repeat split; exact I|]. split; [left; reflexivity|].
    intros _. split; [discriminate|exact I]. }
  assert (Hplain : exists impl token schema version items, plain = VSurr impl schema version items
            /\ permitted env34s None impl /\ identified env34s impl token
            /\ schema = None /\ version = None /\ e_schemas env34s impl = [] /\ forall s, reserved s -> ~ In (VStr s) (map fst items)).
  { exists 2%nat, $"pkg.T", None, None, [(VStr $"id", VInt 4)]. split; [reflexivity|]. split; [exact I|]. split; [split; reflexivity|].
    split; [reflexivity|]. split; [reflexivity|]. split; [reflexivity|]. intros s [->|[->| ->]] [H|[]]; discriminate. }
  split; [apply Hwk|]. split; [apply Hti|]. split; [apply Htr|]. split; [|split].
  - right. split; [discriminate|]. exists [VSurr 1 None (Some 2%Z) [(VStr $"inner", plain)]; VNone; plain].
    split; [reflexivity|]. split; [discriminate|]. split; [discriminate|]. split; [|discriminate].
    constructor; [apply Hc|]. constructor; [left; split; reflexivity|]. constructor; [apply Hc|constructor].
  - intros k x Hx. inversion Hx; subst; [right; exact I|]. match goal with H : meets _ (Fld _ (KSurrogate _)) _ _ _ |- _ => inversion H end. right. exact I.
  - intros valid x Hx Hxn. inversion Hx; subst. match goal with H : meets _ (Fld _ (KSurrogate _)) _ _ _ |- _ => inversion H; subst; clear H end.
    match goal with H : In _ _ |- _ => destruct H as [<-|[<-|[<-|[]]]] end; [|congruence|].
    + exists 1%nat, $"pkg.S", None, (Some 2%Z), [(VStr $"inner", plain)]. split; [reflexivity|]. split; [exact I|]. split; [split; reflexivity|].
      exists holder. split; [split; [vm_compute; split; discriminate|reflexivity]|]. split.
      { exists p0, (SPlain [($"inner", Fld p0 (KSurrogate None))]), true, None. split; [reflexivity|]. intros s [<-|[]] [H|[H|H]]; discriminate. }
      split; [apply Hwk|]. split; [apply Hti|]. split; [apply Htr|]. split; [|split].
      * right. split; [discriminate|]. exists [(VStr $"inner", plain)]. split; [reflexivity|]. split; [|split].
        -- apply sublist_take, sublist_nil.
        -- intros k y [[= <- <-]|[]]. exists (Fld p0 (KSurrogate None), conforms env34s 0 (Fld p0 (KSurrogate None))). split; [left; reflexivity|]. apply Hc.
        -- intros k c [<-|[]] _ Hn. exfalso. apply Hn. left. reflexivity.
      * intros k x Hx'. inversion Hx'; subst; [right; exact I|].
        match goal with H : In _ [(_, Fld _ _)] |- _ => destruct H as [[= <- <-]|[]] end.
        match goal with H : meets _ (Fld _ (KSurrogate _)) _ _ _ |- _ => inversion H end. right. exact I.
      * intros valid x Hx' Hxn'. inversion Hx'; subst.
        match goal with H : In _ [(_, Fld _ _)] |- _ => destruct H as [[= <- <-]|[]] end.
        match goal with H : In _ [(_, plain)] |- _ => destruct H as [[= <-]|[]] end.
        match goal with H : meets _ (Fld _ (KSurrogate _)) _ _ _ |- _ => inversion H; subst end.
        destruct Hplain as [impl [token [schema [version [items [-> [H1 [H2 [-> [-> [H3 H4]]]]]]]]]]]. exists impl, token, None, None, items. auto.
    + destruct Hplain as [impl [token [schema [version [items [-> [H1 [H2 [-> [-> [H3 H4]]]]]]]]]]]. exists impl, token, None, None, items. auto.
Qed.

(** C72.  REFUTED under Python 3 for every class that does not define the attribute [surrogate]
    itself (nothing in the package does): no surrogate of such a class is ever serialized. *)
Theorem C72_surrogate_serialize_refuted :
  forall E desc recon n p valid impl schema version items anc w,
    e_surrogate E impl = None -> pristine p -> permitted E valid impl ->
    process_gen E desc recon (S n) (Fld p (KSurrogate valid)) false Outbound true anc (VSurr impl schema version items) <> Ok w.
Proof. exact surrogate_serialize_refuted. Qed.
Print Assumptions C72_surrogate_serialize_refuted.

Example C72_not_serialized :
  process_gen env0 nodesc norecon 1 f72 false Outbound true [] (VSurr 0 None None [(VStr $"id", VInt 4)]) = py AttributeError.
Proof. vm_compute. reflexivity. Qed.

(** C72.  REFUTED for a surrogate given where a serialized one is expected: it is taken for a
    dict, and its class, schema and version are lost. *)
Theorem C72_surrogate_unserialized_twice_refuted :
  exists E f s w,
    process_gen E nodesc norecon 1 f false Inbound true [] s = Ok w
    /\ s = VSurr 1 None (Some 2%Z) [(VStr $"id", VInt 4)] /\ w = VSurr 0 None None [(VStr $"id", VInt 4)].
Proof. exact surrogate_unserialized_twice_refuted. Qed.
Print Assumptions C72_surrogate_unserialized_twice_refuted.

(** C72.  What a surrogate of a versioned class serializes to: its contents as the schema of its
    version serializes them, the version if it is above 1, and the class.  Without a version that is a
    TypeError and beyond the last version an IndexError; versions from 0 down count from the last one
    backwards, as the indices of a list do. *)
Theorem C72_versioned_serialize_exact :
  forall E desc recon n p valid anc impl token items,
    pristine p -> permitted E valid impl -> e_surrogate E impl = Some token -> e_schemas E impl <> [] ->
    let out version := process_gen E desc recon (S n) (Fld p (KSurrogate valid)) false Outbound true anc (VSurr impl None version items) in
    let count := Z.of_nat (length (e_schemas E impl)) in
    out None = py TypeError
    /\ (forall z, (z < 1 - count \/ count < z)%Z -> out (Some z) = py IndexError)
    /\ (forall z f o l,
          version_schema E impl z f \/ (z <= 0)%Z /\ version_schema E impl (z + count) f ->
          process_gen E desc recon n f false Outbound true [] (VDict false items) = Ok (VDict o l) ->
          (forall s, reserved s -> ~ In (VStr s) (map fst l)) ->
          ((z <= 1)%Z -> out (Some z) = Ok (VDict o (l ++ [(VStr $"_", VStr token)])))
          /\ ((1 < z)%Z -> out (Some z) = Ok (VDict o (l ++ [(VStr $"__version__", VInt z); (VStr $"_", VStr token)])))).
Proof. exact versioned_serialize_exact. Qed.
Print Assumptions C72_versioned_serialize_exact.

Example C72_versions_example :
  let out version := process_gen env72 nodesc norecon 1 f72 false Outbound true [] (VSurr 1 None version [(VStr $"id", VInt 4)]) in
  out None = py TypeError /\ out (Some 3%Z) = py IndexError /\ out (Some (-2)%Z) = py IndexError
  /\ out (Some 0%Z) = Ok (VDict false [(VStr $"id", VInt 4); (VStr $"_", VStr $"pkg.S")])
  /\ out (Some 2%Z) = Ok (VDict false [(VStr $"id", VInt 4); (VStr $"__version__", VInt 2); (VStr $"_", VStr $"pkg.S")]).
Proof. vm_compute. repeat split. Qed.

(** C72.  Unserialization of a dict by a versioned class: the class is the one the key "_" names
    (the base class without it), the version is that of the key "__version__" (1 without it), and the
    contents are what the schema of that version makes of the other entries; a version above the last
    is a ValueError. *)
Theorem C72_versioned_unserialize_exact :
  forall E desc recon n p valid anc o items impl z l1 l2,
    pristine p ->
    impl = match sget $"_" items with None | Some VNone => O | Some t => e_impl E t end ->
    (forall t, sget $"_" items = Some t -> hashable t = true) ->
    without_key $"_" items l1 -> without_key $"__version__" l1 l2 ->
    ~ In (VStr $"__schema__") (map fst items) ->
    e_schemas E impl <> [] ->
    match sget $"__version__" items with None => VInt 1 | Some v => v end = VInt z -> (1 <= z)%Z ->
    let out := process_gen E desc recon (S n) (Fld p (KSurrogate valid)) false Inbound true anc (VDict o items) in
    let path := path_of p (KSurrogate valid) anc in
    ((Z.of_nat (length (e_schemas E impl)) < z)%Z -> out = py ValueError)
    /\ forall f, version_schema E impl z f ->
         (forall x, process_gen E desc recon n f false Inbound true path (VDict false l2) = Raise x -> out = Raise x)
         /\ forall o' l, process_gen E desc recon n f false Inbound true path (VDict false l2) = Ok (VDict o' l) ->
              permitted E valid impl -> out = Ok (VSurr impl None (Some z) l).
Proof. exact versioned_unserialize_exact. Qed.
Print Assumptions C72_versioned_unserialize_exact.

Example C72_versions :
  process_gen env72 nodesc norecon 1 f72 false Inbound true [] (VDict false [(VStr $"_", VStr $"pkg.S"); (VStr $"id", VInt 4)])
  = Ok (VSurr 1 None (Some 1%Z) [(VStr $"id", VInt 4)])
  /\ process_gen env72 nodesc norecon 1 f72 false Inbound true [] (VDict false [(VStr $"_", VStr $"pkg.S"); (VStr $"__version__", VInt 3); (VStr $"id", VInt 4)])
  = py ValueError
  (* version 0 is the last one *)
  /\ process_gen env72 nodesc norecon 1 f72 false Inbound true [] (VDict false [(VStr $"_", VStr $"pkg.S"); (VStr $"__version__", VInt 0); (VStr $"id", VInt 4)])
  = Ok (VSurr 1 None (Some 0%Z) [(VStr $"id", VInt 4)]).
Proof. vm_compute. auto. Qed.

(** C72.  Values of other types are refused, unless they are null; a surrogate whose class is
    not among the valid ones makes the error message fail (KeyError), or its missing attribute. *)
Theorem C72_surrogate_refuses :
  forall E desc recon n p valid ph ser anc v,
    pristine p -> v <> VNone ->
    let out := process_gen E desc recon (S n) (Fld p (KSurrogate valid)) false ph ser anc v in
    let path := path_of p (KSurrogate valid) anc in
    (as_dict v = None -> ser = false \/ ph = Inbound -> out = invalid_type path)
    /\ (forall i s w l, v = VSurr i s w l -> ser = false ->
          (permitted E valid i -> out = Ok v)
          /\ (~ permitted E valid i -> out = py AttributeError \/ out = py KeyError)).
Proof. exact surrogate_refuses. Qed.
Print Assumptions C72_surrogate_refuses.

Example C72_refuses :
  process_gen env72 nodesc norecon 1 f72 false Inbound true [] (VInt 3) = invalid_type [$"(surrogate)"]
  /\ process_gen env72 nodesc norecon 1 (Fld p0 (KSurrogate (Some [$"a"]))) false Inbound false [] (VSurr 1 None None []) = py AttributeError.
Proof. vm_compute. auto. Qed.

(** C72.  A surrogate constructed by a versioned class from a dict that conforms to the schema
    of the version, by default the last one, holds exactly that dict (apart from the parameters given
    besides), and has the class and the version. *)
Theorem C72_constructed_exact :
  forall E n cls i impl o items version z f,
    impl = match i with Omitted => cls | Named t => e_impl E (VStr t) | Class c => c end ->
    z = match version with Some z => z | None => Z.of_nat (length (e_schemas E impl)) end ->
    version_schema E impl z f ->
    throughout E well_keyed f -> throughout E straight f -> throughout E no_extractor f ->
    conforms E n f (VDict false items) -> no_null_entries (VDict false items) ->
    surr_construct E n cls i (VDict o items) None version [] = Ok (VSurr impl None (Some z) items).
Proof. exact constructed_exact. Qed.
Print Assumptions C72_constructed_exact.

Example C72_construct :
  surr_construct env72 0 0 (Named $"pkg.S") (VDict false [(VStr $"id", VInt 4)]) None None []
  = Ok (VSurr 1 None (Some 2%Z) [(VStr $"id", VInt 4)]).
Proof. vm_compute. reflexivity. Qed.

(** C72.  What construction refuses: a schema for a class that has its own, a version that does
    not exist, and nothing to hold. *)
Theorem C72_construct_refuses :
  forall E n cls i impl value schema version params,
    impl = match i with Omitted => cls | Named t => e_impl E (VStr t) | Class c => c end ->
    let out := surr_construct E n cls i value schema version params in
    (schema <> None -> e_schemas E impl <> [] -> out = py plain_exception)
    /\ (forall z, schema = None -> e_schemas E impl <> [] -> version = Some z ->
          (Z.of_nat (length (e_schemas E impl)) < z)%Z -> out = py plain_exception)
    /\ (e_schemas E impl = [] -> schema = None -> value <> VNone -> as_dict value = None -> out = py ValueError)
    /\ (e_schemas E impl = [] -> value = VNone -> params = [] -> out = py ValueError).
Proof. exact construct_refuses. Qed.
Print Assumptions C72_construct_refuses.

Example C72_construction_refused :
  surr_construct env72 0 1 Omitted (VDict false []) (Some dyn72) None [] = py plain_exception
  /\ surr_construct env72 0 1 Omitted (VDict false []) None (Some 3%Z) [] = py plain_exception
  /\ surr_construct env72 0 2 Omitted VNone None None [] = py ValueError.
Proof. vm_compute. auto. Qed.

(** C72.  The parameters are added to the contents: each overrides the entry of its name, the
    other entries stay. *)
Theorem C72_construct_parameters :
  forall E n cls impl value schema version params l0,
    surr_construct E n cls (Class impl) value schema version [] = Ok (VSurr impl schema version l0) ->
    NoDup (map fst params) ->
    exists l, surr_construct E n cls (Class impl) value schema version params = Ok (VSurr impl schema version l)
      /\ forall s, sget s l = match aget s params with Some v => Some v | None => sget s l0 end.
Proof. exact construct_parameters. Qed.
Print Assumptions C72_construct_parameters.

Example C72_parameters :
  surr_construct env72 0 2 Omitted (VDict false [(VStr $"a", VInt 1); (VStr $"b", VInt 2)]) None None [($"b", VInt 3); ($"c", VInt 4)]
  = Ok (VSurr 2 None None [(VStr $"a", VInt 1); (VStr $"b", VInt 3); (VStr $"c", VInt 4)]).
Proof. vm_compute. reflexivity. Qed.

(** C72.  Acquisition needs a class with schemas and asks it for the version, by default the last;
    a surrogate it answers with is returned, a conforming dict becomes the surrogate of that version. *)
Theorem C72_acquire_exact :
  forall E n acquired cls i impl version z,
    impl = match i with Omitted => cls | Named t => e_impl E (VStr t) | Class c => c end ->
    z = match version with Some z => z | None => Z.of_nat (length (e_schemas E impl)) end ->
    let out := surr_acquire E n acquired cls i version in
    (e_schemas E impl = [] -> out = py ValueError)
    /\ (e_schemas E impl <> [] ->
         (forall x, acquired impl z = Raise x -> out = Raise x)
         /\ (forall a b c l, acquired impl z = Ok (VSurr a b c l) -> out = Ok (VSurr a b c l))
         /\ (forall f o items, acquired impl z = Ok (VDict o items) -> version_schema E impl z f ->
               throughout E well_keyed f -> throughout E straight f -> throughout E no_extractor f ->
               conforms E n f (VDict false items) -> no_null_entries (VDict false items) ->
               out = Ok (VSurr impl None (Some z) items))).
Proof. exact acquire_exact. Qed.
Print Assumptions C72_acquire_exact.

Example C72_acquire :
  surr_acquire env72 0 (fun _ z => Ok (VDict false [(VStr $"id", VInt z)])) 0 (Named $"pkg.S") None
  = Ok (VSurr 1 None (Some 2%Z) [(VStr $"id", VInt 2)])
  /\ surr_acquire env72 0 (fun _ z => Ok (VDict false [])) 0 (Named $"pkg.T") None = py ValueError.
Proof. vm_compute. auto. Qed.
