(** Property theorems proved in ModProofs.v (generated by tools/mkprops.py). *)
From Verif Require Import Spec Demo ModSpec ModProofs.
Open Scope nat_scope.

(** C83.  A dotted path leads to the object that is reached from the module of the longest importable
    part of the path by following the other names as attributes. *)
Theorem C83_import_dotted :
  forall M names o,
    2 <= length names -> Forall simple names ->
    (import_object M (dots names) = Ok o <-> names_object M names o).
Proof. exact import_dotted. Qed.
Print Assumptions C83_import_dotted.

Definition demo_modules : modules := {|
  mo_import := fun s _ => if str_eqb s $"pkg" then Imported 1 else if str_eqb s $"pkg.mod" then Imported 2 else NoModule;
  mo_attr := fun o a => if Nat.eqb o 2 && str_eqb a $"Cls" then Some 3
                        else if Nat.eqb o 3 && str_eqb a $"method" then Some 4 else None;
  mo_described := fun o => if Nat.eqb o 3 then AClass $"pkg.mod" $"Cls" else AnObject None |}.
Example C83_example :
  import_object demo_modules $"pkg.mod.Cls.method" = Ok 4%nat
  /\ dots [$"pkg"; $"mod"; $"Cls"; $"method"] = $"pkg.mod.Cls.method"
  /\ import_object demo_modules $"pkg.mod:Cls.method" = Ok 4%nat
  /\ import_object demo_modules $"pkg.nomod.Cls" = py ImportError.
Proof. repeat split. Qed.

(** C83.  A path with a colon names the module before it, and attributes behind it. *)
Theorem C83_import_colon :
  forall M path name names o,
    ~ In 58%N path -> Forall simple (name :: names) ->
    (import_object M (path ++ $":" ++ dots (name :: names)) = Ok o
     <-> exists m, mo_import M path [name] = Imported m /\ leads M m (name :: names) o).
Proof. exact import_colon. Qed.
Print Assumptions C83_import_colon.

Example C83_colon_example :
  import_object demo_modules ($"pkg.mod" ++ $":" ++ dots [$"Cls"; $"method"]) = Ok 4%nat /\ ~ In 58%N $"pkg.mod".
Proof. split; [reflexivity|]. cbn. intuition discriminate. Qed.

(** C83.  A single name is a module; and whatever the path, the outcome is an object or ImportError. *)
Theorem C83_import_outcomes :
  forall M path,
    (simple path -> forall o, import_object M path = Ok o <-> mo_import M path [] = Imported o)
    /\ ((exists o, import_object M path = Ok o) \/ import_object M path = py ImportError).
Proof. exact import_outcomes. Qed.
Print Assumptions C83_import_outcomes.

Example C83_outcomes_example :
  import_object demo_modules $"pkg" = Ok 1%nat /\ import_object demo_modules $"a:b:c" = py ImportError
  /\ import_object demo_modules [] = py ImportError.
Proof. repeat split. Qed.

(** C84.  Identifying an object and importing its name leads back to the object when it is at home: its
    module can be imported and has it under its name, and the name is not that of a module. *)
Theorem C84_identify_import_partial :
  forall M o, placed M o -> forall s, identify_object M o = Ok s -> import_object M s = Ok o.
Proof. exact identify_import_partial. Qed.
Print Assumptions C84_identify_import_partial.

Example C84_example :
  placed demo_modules 3 /\ identify_object demo_modules 3 = Ok $"pkg.mod.Cls".
Proof.
  split; [|reflexivity]. split; [discriminate|]. exists [$"pkg"], $"mod", 2%nat.
  repeat split; try discriminate; try (cbn; intuition discriminate).
  repeat constructor; cbn; intuition discriminate.
Qed.

(** C84.  Without that it fails: the name of a class defined in the main module is not qualified and
    cannot be imported, and a module with the name of a class hides it. *)
Theorem C84_identify_import_refuted :
  (exists M o s, mo_described M o = AClass $"__main__" s /\ identify_object M o = Ok s
     /\ import_object M s = py ImportError)
  /\ (exists M o s, identify_object M o = Ok s /\ (exists m, mo_import M $"pkg" [$"pkg"] = Imported m /\ mo_attr M m $"item" = Some o)
        /\ exists o', import_object M s = Ok o' /\ o' <> o).
Proof. exact identify_import_refuted. Qed.
Print Assumptions C84_identify_import_refuted.

(** C84.  What it means for Object fields: when [import_object] and [identify_object] are the ones of the
    package, the serialized form of an object at home is read back as that object. *)
Theorem C84_object_field_round_trip_partial :
  forall E desc recon n p M (object : nat -> val) o,
    (forall s i, import_object M s = Ok i -> e_import E s = Some (object i)) ->
    (forall i s, e_identify E (object i) = Some s -> identify_object M i = Ok s) ->
    (forall i, object i <> VNone /\ forall s, object i <> VStr s) ->
    plain p -> placed M o ->
    forall partial anc t,
      process_gen E desc recon n (Fld p KObject) partial Outbound true anc (object o) = Ok t ->
      process_gen E desc recon n (Fld p KObject) partial Inbound true anc t = Ok (object o).
Proof. exact object_field_round_trip_partial. Qed.
Print Assumptions C84_object_field_round_trip_partial.

Definition demo_env : env := {|
  e_pre := e_pre env0; e_ext := e_ext env0; e_inst := e_inst env0; e_pattern := e_pattern env0; e_local := e_local env0;
  e_pad := e_pad env0; e_udigit := e_udigit env0; e_uword := e_uword env0; e_ulower := e_ulower env0;
  e_import := fun s => match import_object demo_modules s with Ok i => Some (VObj i []) | Raise _ => None end;
  e_identify := fun v => match v with
                         | VObj i _ => match identify_object demo_modules i with Ok s => Some s | Raise _ => None end
                         | _ => None
                         end;
  e_undef := e_undef env0; e_str := e_str env0; e_impl := e_impl env0; e_schemas := e_schemas env0; e_compile := e_compile env0;
  e_surrogate := e_surrogate env0; e_identity := e_identity env0; e_repr := e_repr env0 |}.
Example C84_object_example :
  let run := fun ph => process_gen demo_env nodesc norecon 1 (Fld p0 KObject) false ph true [] in
  run Outbound (VObj 3 []) = Ok (VStr $"pkg.mod.Cls") /\ run Inbound (VStr $"pkg.mod.Cls") = Ok (VObj 3 [])
  /\ (forall s i, import_object demo_modules s = Ok i -> e_import demo_env s = Some (VObj i []))
  /\ (forall i s, e_identify demo_env (VObj i []) = Some s -> identify_object demo_modules i = Ok s).
Proof.
  split; [vm_compute; reflexivity|]. split; [vm_compute; reflexivity|]. split.
  - intros s i H. cbn. rewrite H. reflexivity.
  - intros i s. cbn [demo_env e_identify]. destruct (identify_object demo_modules i); [|discriminate].
    intros H. injection H as <-. reflexivity.
Qed.
