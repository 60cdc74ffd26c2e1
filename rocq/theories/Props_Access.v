(** Property theorems proved in AccessProofs.v (generated by tools/mkprops.py). *)
From Verif Require Import Spec Demo ErrSpec AccessSpec AccessProofs.

(** C98.  get of a Tuple or of a Structure that is not polymorphic returns the child field that the key
    identifies: in a Tuple by its position, counted from the start or by a negative number from the end, in a
    Structure by its name. *)
Theorem C98_get_finds_child :
  forall E f key g default,
    (forall p l strict order, f = Fld p (KStructure (SPlain l) strict order) -> NoDup (map fst l)) ->
    child f key g -> field_get E f key default = Ok (VField g).
Proof. exact get_finds_child. Qed.
Print Assumptions C98_get_finds_child.

Example C98_child_example :
  let l := [Fld p_req KBoolean; Fld p0 (KField)] in
  child (Fld p0 (KTuple l)) (VInt (-2)) (Fld p_req KBoolean)
  /\ field_get env0 (Fld p0 (KTuple l)) (VInt (-2)) VNone = Ok (VField (Fld p_req KBoolean))
  /\ child (Fld p0 (KStructure (SPlain [($"a", Fld p0 KField); ($"b", Fld p_req KBoolean)]) true None)) (VStr $"b")
       (Fld p_req KBoolean).
Proof.
  cbn zeta. split; [|split].
  - apply child_of_tuple with (z := (-2)%Z) (i := 0%nat); [left; reflexivity|split; [cbn; lia|right; reflexivity]|reflexivity].
  - reflexivity.
  - apply child_of_structure. right. left. reflexivity.
Qed.

(** C98.  For a number or a name that identifies no child get returns the default. *)
Theorem C98_get_default :
  forall E f key default,
    (exists p l z, f = Fld p (KTuple l) /\ integer_key key z) \/
    (exists p l strict order, f = Fld p (KStructure (SPlain l) strict order) /\ hashable key = true) ->
    (forall g, ~ child f key g) -> field_get E f key default = Ok default.
Proof. exact get_default. Qed.
Print Assumptions C98_get_default.

Example C98_default_example :
  field_get env0 (Fld p0 (KTuple [Fld p_req KBoolean])) (VInt (-2)) (VInt 7) = Ok (VInt 7)
  /\ (forall g, ~ child (Fld p0 (KTuple [Fld p_req KBoolean])) (VInt (-2)) g)
  /\ field_get env0 (Fld p0 (KStructure (SPlain [($"a", Fld p0 KField)]) true None)) (VInt 1) VNone = Ok VNone.
Proof.
  split; [reflexivity|]. split; [|reflexivity].
  intros g H. inversion H as [? ? ? z i ? Hk [Hi Hz] Hg|]; subst. cbn in Hi, Hz.
  destruct Hk as [Hk|[b [Hk _]]]; [|discriminate]. injection Hk as <-. lia.
Qed.

(** C98.  Every other field has no keyed children: get raises TypeError, for every key.  So it does for keys
    that cannot be keys: those of a Tuple that are no integers, those of a Structure that cannot be hashed. *)
Theorem C98_get_refuses :
  forall E p k key default,
    ~ keyed (Fld p k)
    \/ (exists l, k = KTuple l) /\ (forall z, ~ integer_key key z)
    \/ (exists d strict order, k = KStructure d strict order) /\ hashable key = false ->
    field_get E (Fld p k) key default = Raise (XPy TypeError).
Proof. exact get_refuses. Qed.
Print Assumptions C98_get_refuses.

Example C98_refuses_example :
  let f := Fld p0 (KMap (Fld p0 KField) None None) in
  ~ keyed f /\ field_get env0 f (VStr $"a") VNone = Raise (XPy TypeError)
  /\ field_get env0 (Fld p0 (KTuple [Fld p0 KField])) (VStr $"a") VNone = Raise (XPy TypeError)
  /\ field_get env0 (Fld p0 (KStructure (SPlain []) true None)) (VList []) VNone = Raise (XPy TypeError).
Proof. cbn zeta. split; [intros H; inversion H|]. repeat split. Qed.

(** C98.  Not so for a polymorphic Structure: its get gives no child field back but the dict of all fields of
    the variant that the key identifies, and for the name of a field the default. *)
Theorem C98_get_polymorphic_refuted :
  exists E f key v, keyed f /\ field_get E f key VNone = Ok v /\ v <> VNone /\ (forall g, v <> VField g).
Proof. exact get_polymorphic_refuted. Qed.
Print Assumptions C98_get_polymorphic_refuted.

(** C98.  In general the dict of the first variant whose identity equals the key. *)
Theorem C98_get_variant :
  forall E p on before identity l after strict order key default,
    hashable key = true -> veq (e_local E) identity key = true ->
    (forall i, In i (map fst before) -> veq (e_local E) i key = false) ->
    field_get E (Fld p (KStructure (SPoly on (before ++ (identity, l) :: after)) strict order)) key default
    = Ok (VDict false (map (fun kf => (VStr (fst kf), VField (snd kf))) l)).
Proof. exact get_variant. Qed.
Print Assumptions C98_get_variant.

Example C98_variant_example :
  field_get env0 (Fld p0 (KStructure (SPoly (Fld (p_named $"type") (KEnumeration [VInt 1; VInt 2] None))
     ([(VInt 1, [($"a", Fld p0 KField)])] ++ (VInt 2, [($"b", Fld p_req KBoolean)]) :: [])) true None)) (VInt 2) VNone
  = Ok (VDict false [(VStr $"b", VField (Fld p_req KBoolean))]).
Proof. reflexivity. Qed.

(** C42.  The text of an error, str of it, is the line ['validation failed'] followed by what format_errors
    lists, each entry on lines of its own. *)
Theorem C42_error_text_lists :
  forall line e,
    (forall entries, format_errors line e = Ok entries ->
       error_text line e = Ok (concat ($"validation failed" :: map (fun s => [10%N] ++ s) entries)))
    /\ (forall x, format_errors line e = Raise x -> error_text line e = Raise x).
Proof. exact error_text_lists. Qed.
Print Assumptions C42_error_text_lists.

Example C42_text_example :
  let leaf t := VErr (Err CValidation [entry t] [$"x"] None true) in
  let line (e : err) (x : val) := match x with VDict _ [(_, VStr t)] => Ok t | _ => Raise (XPy KeyError) end in
  error_text line (Err CValidation [entry $"own"] [$"x"] (Some (VList [leaf $"first"])) true)
  = Ok ($"validation failed" ++ [10%N] ++ $"[01] own" ++ [10%N] ++ $"[02] first").
Proof. reflexivity. Qed.

(** C42.  An error is substantive exactly if it has own errors or its structure is not empty, and so exactly
    if its serialization (the structure being a list or a dict, as everywhere in the package) is not a pair of
    nulls. *)
Theorem C42_substantive_exact :
  forall e,
    (truthy (substantive e) = true <->
     er_errors e <> [] \/ exists s, er_structure e = Some s /\ truthy s = true)
    /\ ((forall s, er_structure e = Some s -> (exists l, s = VList l) \/ exists o l, s = VDict o l) ->
        (truthy (substantive e) = true <-> err_serialize e <> VTuple [VNone; VNone])).
Proof. exact substantive_exact. Qed.
Print Assumptions C42_substantive_exact.

Example C42_substantive_example :
  truthy (substantive (Err CValidation [] [] (Some (VList [])) false)) = false
  /\ truthy (substantive (Err CValidation [] [] (Some (VList [VInt 1])) false)) = true
  /\ truthy (substantive (Err CValidation [entry $"own"] [] None false)) = true.
Proof. repeat split. Qed.
