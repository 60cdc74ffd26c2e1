(** Property theorems proved in InitProofs.v (generated by tools/mkprops.py). *)
From Verif Require Import Spec Demo ConSpec BuildSpec InitSpec InitProofs.
Open Scope Z_scope.

(** C81.  The constructors of all classes but Structure store exactly what they are given.  The
    parameters of the class are stored as they are, or read from the forms the class accepts (texts cut at
    blanks, dates as texts, ...).  The parameters common to all fields are stored in the same way for
    every class, and what remains becomes aspects. *)
Theorem C81_constructors_store :
  forall E cl c kw p k,
    NoDup (map fst kw) -> c <> CStructure -> init E cl c kw = Ok (Fld p k) ->
    stored E c kw k /\ common E c kw p.
Proof. exact constructors_store. Qed.
Print Assumptions C81_constructors_store.

Example C81_example :
  exists p k, init env0 (clone env0 1) CInteger
    [($"minimum", VInt 3); ($"required", VBool true); ($"unit", VStr $"m"); ($"_hidden", VInt 1)] = Ok (Fld p k)
    /\ NoDup (map fst [($"minimum", VInt 3); ($"required", VBool true); ($"unit", VStr $"m"); ($"_hidden", VInt 1)])
    /\ k = KInteger (Some 3%Z) None /\ p_required p = true /\ p_aspects p = [($"unit", VStr $"m")].
Proof.
  do 2 eexists. split; [reflexivity|]. split; [|repeat split].
  repeat constructor; cbn; intuition discriminate.
Qed.

(** C82.  A field is returned as it is.  The name of a class gives a field of that class made without
    arguments.  Any other text, a dict without ['fieldtype'] or with an unknown one, and any other value
    is refused with ValueError. *)
Theorem C82_reconstruct_dispatch :
  forall E n,
    (forall p k, reconstruct E n (VField (Fld p k)) = Ok (Fld p k))
    /\ (forall c, reconstruct E n (VStr (cls_name c)) = init E (clone E n) c [])
    /\ (forall s, (forall c, cls_name c <> s) -> reconstruct E n (VStr s) = py ValueError)
    /\ (forall o l, (forall v, ~ In (VStr $"fieldtype", v) l) -> reconstruct E n (VDict o l) = py ValueError)
    /\ (forall v, (forall p k, v <> VField (Fld p k)) -> (forall s, v <> VStr s) -> (forall o l, v <> VDict o l) ->
         (forall i s ver l, v <> VSurr i s ver l) -> reconstruct E n v = py ValueError).
Proof. exact reconstruct_dispatch. Qed.
Print Assumptions C82_reconstruct_dispatch.

Example C82_example :
  exists p k, reconstruct env0 1 (VStr $"integer") = Ok (Fld p k) /\ k = KInteger None None
    /\ reconstruct env0 1 (VStr $"number") = py ValueError /\ (forall c, cls_name c <> $"number").
Proof. do 2 eexists. repeat split. intros c. destruct c; discriminate. Qed.

(** C82.  A dict with ['fieldtype'] gives a field when, and only when, the entry names a class, the
    other entries, with every specification nested in them replaced by its field, are acceptable
    arguments of the constructor of that class, and then it gives the field that the constructor makes. *)
Theorem C82_reconstruct_exact :
  forall E n o items f,
    reconstruct E n (VDict o (map (fun kv => (VStr (fst kv), snd kv)) items)) = Ok f
    <-> exists c kw,
          aget $"fieldtype" items = Some (VStr (cls_name c))
          /\ ~ In $"cls" (map fst items) /\ ~ In $"self" (map fst items)
          /\ Forall2 (fun a b => fst a = fst b /\ built E n (snd a) (snd b)) (others [$"fieldtype"] items) kw
          /\ init E (clone E n) c kw = Ok f.
Proof. exact reconstruct_exact. Qed.
Print Assumptions C82_reconstruct_exact.

Example C82_nested_example :
  exists p q, reconstruct env0 1 (VDict false
      [(VStr $"fieldtype", VStr $"sequence"); (VStr $"item", VDict false [(VStr $"fieldtype", VStr $"integer"); (VStr $"minimum", VInt 1)])])
    = Ok (Fld p (KSequence (Fld q (KInteger (Some 1%Z) None)) None None false)).
Proof. do 2 eexists. reflexivity. Qed.
