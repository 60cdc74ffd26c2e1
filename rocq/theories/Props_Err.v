(** Property theorems proved in ErrProofs.v (generated by tools/mkprops.py). *)
From Verif Require Import Spec Demo ErrSpec ErrProofs.

(** C39.  serialize returns the pair of the own errors (null if there are none) and the
    structure (null if there is none or it is empty), in which exactly the nested errors appear, at
    their places, recursively. *)
Theorem C39_error_serialize_exact :
  forall e a b,
    err_serialize e = VTuple [a; b] <->
    (er_errors e = [] /\ a = VNone
     \/ er_errors e <> [] /\ exists r, a = VList r /\ Forall2 own_form (er_errors e) r)
    /\ ((er_structure e = None \/ exists s, er_structure e = Some s /\ truthy s = false) /\ b = VNone
        \/ exists s, er_structure e = Some s /\ truthy s = true /\ mirrors s b).
Proof. exact error_serialize_exact. Qed.
Print Assumptions C39_error_serialize_exact.

Example C39_example :
  let leaf t := VErr (Err CValidation [entry t] [$"x"] None true) in
  let e := Err CValidation [VStr $"odd"] [$"x"]
             (Some (VDict false [(VStr $"a", leaf $"min"); (VStr $"b", VInt 1);
                                 (VStr $"c", VErr (Err CValidation [] [$"x"] (Some (VList [VInt 2; leaf $"max"])) true))])) true in
  err_serialize e = VTuple [VList [VDict false [(VStr $"message", VStr $"odd")]];
                            VDict false [(VStr $"a", VList [entry $"min"]);
                                         (VStr $"c", VList [VNone; VList [entry $"max"]])]].
Proof. reflexivity. Qed.

(** C39.  Every error nested in the structure, at any depth, is found in the serialized
    structure by following the same path, with its own errors. *)
Theorem C39_error_serialize_leaf :
  forall s path e,
    leaf_at s path e ->
    exists r l, mirrors s r /\ reads r path (VList l) /\ Forall2 own_form (er_errors e) l.
Proof. exact error_serialize_leaf. Qed.
Print Assumptions C39_error_serialize_leaf.

Example C39_leaf_example :
  let leaf := Err CValidation [entry $"max"] [$"x"] None true in
  let s := VDict false [(VStr $"c", VErr (Err CValidation [] [$"x"] (Some (VList [VInt 2; VErr leaf])) true))] in
  leaf_at s [VStr $"c"; VInt 1] leaf.
Proof.
  intros leaf s. eapply la_deeper; [eapply ea_dict; [reflexivity|left; reflexivity]|reflexivity|].
  apply la_leaf; [apply (ea_list _ 1%nat); reflexivity|reflexivity].
Qed.

(** C40.  When an error has own errors, unserialize(serialize(e)) is an error with the same own
    errors (those that are not dicts become messages); its structure is the serialized structure, in
    which no error is nested any more. *)
Theorem C40_error_reread_own :
  forall e a b,
    err_serialize e = VTuple [a; b] -> er_errors e <> [] ->
    exists e', err_unserialize a b = Ok (VErr e')
      /\ er_cls e' = CStructural
      /\ Forall2 own_form (er_errors e) (er_errors e')
      /\ (Forall (fun x => as_dict x <> None) (er_errors e) -> er_errors e' = er_errors e)
      /\ (b = VNone -> er_structure e' = None) /\ (b <> VNone -> er_structure e' = Some b)
      /\ forall k x, ~ error_at b k x.
Proof. exact error_reread_own. Qed.
Print Assumptions C40_error_reread_own.

Example C40_example :
  let e := Err CValidation [entry $"min"] [$"x"] (Some (VList [VErr (Err CValidation [entry $"max"] [$"y"] None true)])) true in
  err_serialize e = VTuple [VList [entry $"min"]; VList [VList [entry $"max"]]]
  /\ err_unserialize (VList [entry $"min"]) (VList [VList [entry $"max"]])
     = Ok (VErr (Err CStructural [entry $"min"] [$"(unknown)"] (Some (VList [VList [entry $"max"]])) false)).
Proof. split; reflexivity. Qed.

(** C40.  When an error is purely structural, unserialize(serialize(e)) raises TypeError. *)
Theorem C40_error_reread_structural :
  forall e a b,
    err_serialize e = VTuple [a; b] -> er_errors e = [] -> err_unserialize a b = Raise (XPy TypeError).
Proof. exact error_reread_structural. Qed.
Print Assumptions C40_error_reread_structural.

Example C40_structural_example :
  let e := Err CValidation [] [$"x"] (Some (VList [VErr (Err CValidation [entry $"max"] [$"y"] None true)])) true in
  err_serialize e = VTuple [VNone; VList [VList [entry $"max"]]].
Proof. reflexivity. Qed.

(** C41.  After any history, serialize(force=True) returns the serialization of the current
    content: the initial errors followed by those appended and merged, and the structure attached
    last. *)
Theorem C41_serialize_force_current :
  forall e calls v, returns e calls true v <-> v = err_serialize (content e calls).
Proof. exact serialize_force_current. Qed.
Print Assumptions C41_serialize_force_current.

Example C41_example :
  let e := Err CValidation [entry $"min"] [$"x"] None true in
  let calls := [CallSerialize false; CallAppend (entry $"max"); CallAttach (Some (VList [VInt 1]))] in
  returns e calls true (VTuple [VList [entry $"min"; entry $"max"]; VList [VNone]])
  /\ returns e calls false (VTuple [VList [entry $"min"]; VNone]).
Proof. split; reflexivity. Qed.

(** C41.  serialize() returns the result of the latest computation: that of the last forced
    call, or of the first call; later changes do not show. *)
Theorem C41_serialize_latest :
  forall e before f after v,
    f = true \/ Forall (fun c => ~ is_serialize c) before ->
    Forall (fun c => c <> CallSerialize true) after ->
    (returns e (before ++ CallSerialize f :: after) false v <-> v = err_serialize (content e before)).
Proof. exact serialize_latest. Qed.
Print Assumptions C41_serialize_latest.

Example C41_latest_example :
  let e := Err CValidation [] [$"x"] None true in
  returns e ([CallAppend (entry $"min")] ++ CallSerialize true :: [CallAppend (entry $"max"); CallSerialize false]) false
    (VTuple [VList [entry $"min"]; VNone]).
Proof. reflexivity. Qed.

(** C41.  Before any serialize call, serialize() returns the serialization of the current
    content. *)
Theorem C41_serialize_first :
  forall e calls v,
    Forall (fun c => ~ is_serialize c) calls ->
    (returns e calls false v <-> v = err_serialize (content e calls)).
Proof. exact serialize_first. Qed.
Print Assumptions C41_serialize_first.

Example C41_first_example :
  returns (Err CValidation [] [$"x"] None true) [CallAppend (VStr $"odd"); CallMerge [entry $"max"]] false
    (VTuple [VList [VDict false [(VStr $"message", VStr $"odd")]; entry $"max"]; VNone]).
Proof. reflexivity. Qed.

(** C42.  format_errors lists the own errors and then those of every leaf of the structure,
    once and in order, numbered from 1 with at least two digits, continuation lines indented by five
    blanks.  (Errors of a leaf without a field are not listed; own errors of an inner error that has
    a structure are not listed either.) *)
Theorem C42_format_errors_enumerates :
  forall line text e es,
    match er_structure e with
    | Some s => if truthy s then leaves s es else es = []
    | None => es = []
    end ->
    (forall e' x, In e' (e :: es) -> In x (er_errors e') -> line e' x = Ok (text e' x)) ->
    let messages := flat_map (fun e' => if er_hasfield e' then map (text e') (er_errors e') else []) (e :: es) in
    exists out, format_errors line e = Ok out
      /\ length out = length messages
      /\ forall i m, nth_error messages i = Some m ->
           exists num body, nth_error out i = Some ($"[" ++ num ++ $"] " ++ body)
             /\ label (Z.of_nat i + 1) num /\ hanging 5 m body.
Proof. exact format_errors_enumerates. Qed.
Print Assumptions C42_format_errors_enumerates.

Example C42_example :
  let leaf t := VErr (Err CValidation [entry t] [$"x"] None true) in
  let e := Err CValidation [entry $"own"] [$"x"]
             (Some (VDict false [(VStr $"a", leaf $"first"); (VStr $"b", VInt 1);
                (VStr $"c", VErr (Err CValidation [entry $"hidden"] [$"x"] (Some (VList [VInt 2; leaf $"second"])) true))])) true in
  let line (e : err) (x : val) := match x with VDict _ [(_, VStr t)] => Ok (t ++ [10%N] ++ $"more") | _ => Raise (XPy KeyError) end in
  format_errors line e
  = Ok [$"[01] own" ++ [10%N] ++ $"     more"; $"[02] first" ++ [10%N] ++ $"     more";
        $"[03] second" ++ [10%N] ++ $"     more"].
Proof. reflexivity. Qed.
