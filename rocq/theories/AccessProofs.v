(** * Access to child fields (C98), and the text of errors (C42). *)
(* @imports Spec Demo ErrSpec AccessSpec *)
From Coq Require Import ZifyBool.
From Verif Require Import PyBaseFacts Spec Demo StructFacts ErrSpec ErrProofs AccessSpec.

Lemma tuple_item_at l z i f : counts_to (length l) z i -> nth_error l i = Some f -> tuple_item l z = Some f.
Proof.
  intros [Hi Hz] Hn. unfold tuple_item. destruct (Z.leb_spec 0 z) as [H|H].
  - assert (z = Z.of_nat i) as -> by lia. rewrite Nat2Z.id. exact Hn.
  - assert (z + Z.of_nat (length l) = Z.of_nat i)%Z as -> by lia.
    destruct (Z.leb_spec 0 (Z.of_nat i)); [|lia]. rewrite Nat2Z.id. exact Hn.
Qed.

Lemma tuple_item_none l z : (forall i, ~ counts_to (length l) z i) -> tuple_item l z = None.
Proof.
  intros H. unfold tuple_item, counts_to in *. destruct (Z.leb_spec 0 z) as [Hz|Hz].
  - apply nth_error_None. destruct (Nat.le_gt_cases (length l) (Z.to_nat z)) as [Hl|Hl]; [exact Hl|].
    exfalso. apply (H (Z.to_nat z)). lia.
  - destruct (Z.leb_spec 0 (z + Z.of_nat (length l))) as [Hy|Hy]; [|reflexivity].
    exfalso. apply (H (Z.to_nat (z + Z.of_nat (length l)))). lia.
Qed.

Lemma dget_fields L k f (l : list (str * field)) : NoDup (map fst l) -> In (k, f) l ->
  dget L (VStr k) (map (fun kf => (VStr (fst kf), VField (snd kf))) l) = Some (VField f).
Proof.
  induction l as [|[k' g] l IH]; intros Hd Hin; [destruct Hin|]. cbn [map fst snd dget veq].
  inversion Hd as [|? ? Hk Hl]; subst. destruct (str_eqb_spec k' k) as [->|Hne].
  - destruct Hin as [Hin|Hin]; [congruence|]. exfalso. apply Hk. change k with (fst (k, f)). apply in_map, Hin.
  - apply IH; [exact Hl|]. destruct Hin as [Hin|Hin]; [congruence|exact Hin].
Qed.

(** @prop C98 get of a Tuple or of a Structure that is not polymorphic returns the child field that the key
    identifies: in a Tuple by its position, counted from the start or by a negative number from the end, in a
    Structure by its name. *)
Lemma get_finds_child :
  forall E f key g default,
    (forall p l strict order, f = Fld p (KStructure (SPlain l) strict order) -> NoDup (map fst l)) ->
    child f key g -> field_get E f key default = Ok (VField g).
Proof.
  intros E f key g default Hd H. destruct H as [p l key z i f Hk Hz Hf|p l strict order k f Hin].
  - destruct Hk as [->|[b [-> Hb]]]; cbn [field_get tuple_get]; [|rewrite <- Hb];
      rewrite (tuple_item_at _ _ _ _ Hz Hf); reflexivity.
  - cbn [field_get]. unfold structure_get. cbn [hashable structure_items].
    rewrite (dget_fields _ _ _ _ (Hd _ _ _ _ eq_refl) Hin). reflexivity.
Qed.

(** @example
Example C98_child_example :
  let l := [Fld p_req KBoolean; Fld p0 (KField)] in
  child (Fld p0 (KTuple l)) (VInt (-2)) (Fld p_req KBoolean)
  /\ field_get env0 (Fld p0 (KTuple l)) (VInt (-2)) VNone = Ok (VField (Fld p_req KBoolean))
  /\ child (Fld p0 (KStructure (SPlain [($"a", Fld p0 KField); ($"b", Fld p_req KBoolean)]) true None)) (VStr $"b")
       (Fld p_req KBoolean).
Proof.
  cbn zeta. split; [|split].
  - apply child_of_tuple with (z := (-2)%Z) (i := 0%nat); [left; reflexivity|split; [cbn; lia|right; reflexivity]|reflexivity].
  - reflexivity.
  - apply child_of_structure. right. left. reflexivity.
Qed.
@end *)

(** @prop C98 For a number or a name that identifies no child get returns the default. *)
Lemma get_default :
  forall E f key default,
    (exists p l z, f = Fld p (KTuple l) /\ integer_key key z) \/
    (exists p l strict order, f = Fld p (KStructure (SPlain l) strict order) /\ hashable key = true) ->
    (forall g, ~ child f key g) -> field_get E f key default = Ok default.
Proof.
  intros E f key default H Hn. destruct H as [[p [l [z [-> Hk]]]]|[p [l [strict [order [-> Hh]]]]]].
  - assert (Ht : tuple_item l z = None).
    { apply tuple_item_none. intros i Hi. destruct (nth_error l i) as [g|] eqn:Hg.
      - apply (Hn g). exact (child_of_tuple _ _ _ _ _ _ Hk Hi Hg).
      - apply nth_error_None in Hg. destruct Hi. lia. }
    destruct Hk as [->|[b [-> Hb]]]; cbn [field_get tuple_get]; [|rewrite <- Hb]; rewrite Ht; reflexivity.
  - cbn [field_get]. unfold structure_get. rewrite Hh. cbn [structure_items].
    destruct (dget (e_local E) key _) as [v|] eqn:Hg; [|reflexivity]. exfalso.
    induction l as [|[k g] l IH]; [discriminate|]. cbn [map fst snd dget] in Hg.
    destruct (veq (e_local E) (VStr k) key) eqn:Hk.
    + assert (key = VStr k) as ->.
      { destruct key; try discriminate. cbn in Hk. destruct (str_eqb_spec k s); [congruence|discriminate]. }
      apply (Hn g). apply child_of_structure. left. reflexivity.
    + apply IH; [|exact Hg]. intros g' Hc. inversion Hc as [|? ? ? ? k0 f0 Hin]; subst.
      apply (Hn g'). apply child_of_structure. right. exact Hin.
Qed.

(** @example
Example C98_default_example :
  field_get env0 (Fld p0 (KTuple [Fld p_req KBoolean])) (VInt (-2)) (VInt 7) = Ok (VInt 7)
  /\ (forall g, ~ child (Fld p0 (KTuple [Fld p_req KBoolean])) (VInt (-2)) g)
  /\ field_get env0 (Fld p0 (KStructure (SPlain [($"a", Fld p0 KField)]) true None)) (VInt 1) VNone = Ok VNone.
Proof.
  split; [reflexivity|]. split; [|reflexivity].
  intros g H. inversion H as [? ? ? z i ? Hk [Hi Hz] Hg|]; subst. cbn in Hi, Hz.
  destruct Hk as [Hk|[b [Hk _]]]; [|discriminate]. injection Hk as <-. lia.
Qed.
@end *)

(** @prop C98 Every other field has no keyed children: get raises TypeError, for every key.  So it does for keys
    that cannot be keys: those of a Tuple that are no integers, those of a Structure that cannot be hashed. *)
Lemma get_refuses :
  forall E p k key default,
    ~ keyed (Fld p k)
    \/ (exists l, k = KTuple l) /\ (forall z, ~ integer_key key z)
    \/ (exists d strict order, k = KStructure d strict order) /\ hashable key = false ->
    field_get E (Fld p k) key default = Raise (XPy TypeError).
Proof.
  intros E p k key default [H|[[[l ->] Hz]|[[d [strict [order ->]]] Hh]]].
  - destruct k; try reflexivity; exfalso; apply H; constructor.
  - cbn [field_get]. destruct key; try reflexivity; exfalso; eapply Hz; [right; eexists; split; reflexivity|left; reflexivity].
  - cbn [field_get]. unfold structure_get. rewrite Hh. reflexivity.
Qed.

(** @example
Example C98_refuses_example :
  let f := Fld p0 (KMap (Fld p0 KField) None None) in
  ~ keyed f /\ field_get env0 f (VStr $"a") VNone = Raise (XPy TypeError)
  /\ field_get env0 (Fld p0 (KTuple [Fld p0 KField])) (VStr $"a") VNone = Raise (XPy TypeError)
  /\ field_get env0 (Fld p0 (KStructure (SPlain []) true None)) (VList []) VNone = Raise (XPy TypeError).
Proof. cbn zeta. split; [intros H; inversion H|]. repeat split. Qed.
@end *)

(** @prop C98 Not so for a polymorphic Structure: its get gives no child field back but the dict of all fields of
    the variant that the key identifies, and for the name of a field the default. *)
Lemma get_polymorphic_refuted :
  exists E f key v, keyed f /\ field_get E f key VNone = Ok v /\ v <> VNone /\ (forall g, v <> VField g).
Proof.
  exists env0, (Fld p0 (KStructure (SPoly (Fld (p_named $"type") (KEnumeration [VStr $"x"] None))
                          [(VStr $"x", [($"a", Fld p0 KField)])]) true None)), (VStr $"x"),
    (VDict false [(VStr $"a", VField (Fld p0 KField))]).
  split; [constructor|]. split; [reflexivity|]. split; [discriminate|]. intros g. discriminate.
Qed.

(** @prop C98 In general the dict of the first variant whose identity equals the key. *)
Lemma get_variant :
  forall E p on before identity l after strict order key default,
    hashable key = true -> veq (e_local E) identity key = true ->
    (forall i, In i (map fst before) -> veq (e_local E) i key = false) ->
    field_get E (Fld p (KStructure (SPoly on (before ++ (identity, l) :: after)) strict order)) key default
    = Ok (VDict false (map (fun kf => (VStr (fst kf), VField (snd kf))) l)).
Proof.
  intros E p on before identity l after strict order key default Hh He Hb.
  cbn [field_get]. unfold structure_get. rewrite Hh. cbn [structure_items]. rewrite map_app.
  rewrite dget_app_none.
  - cbn [map fst snd dget]. rewrite He. reflexivity.
  - apply dget_none. intros k' Hk. rewrite map_map in Hk. cbn [fst] in Hk. apply Hb. exact Hk.
Qed.

(** @example
Example C98_variant_example :
  field_get env0 (Fld p0 (KStructure (SPoly (Fld (p_named $"type") (KEnumeration [VInt 1; VInt 2] None))
     ([(VInt 1, [($"a", Fld p0 KField)])] ++ (VInt 2, [($"b", Fld p_req KBoolean)]) :: [])) true None)) (VInt 2) VNone
  = Ok (VDict false [(VStr $"b", VField (Fld p_req KBoolean))]).
Proof. reflexivity. Qed.
@end *)

(** @prop C42 The text of an error, str of it, is the line ['validation failed'] followed by what format_errors
    lists, each entry on lines of its own. *)
Lemma error_text_lists :
  forall line e,
    (forall entries, format_errors line e = Ok entries ->
       error_text line e = Ok (concat ($"validation failed" :: map (fun s => [10%N] ++ s) entries)))
    /\ (forall x, format_errors line e = Raise x -> error_text line e = Raise x).
Proof.
  intros line e. unfold error_text. split; [|intros x ->; reflexivity].
  intros entries ->. cbn [bind]. f_equal. cbn [concat].
  assert (H : forall first rest, join [10%N] (first :: rest) = first ++ concat (map (fun s => [10%N] ++ s) rest)).
  { intros first rest. revert first. induction rest as [|s rest IH]; intros first.
    - cbn. rewrite app_nil_r. reflexivity.
    - change (join [10%N] (first :: s :: rest)) with (first ++ [10%N] ++ join [10%N] (s :: rest)).
      rewrite IH. cbn [map concat]. rewrite <- !app_assoc. reflexivity. }
  apply H.
Qed.

(** @example
Example C42_text_example :
  let leaf t := VErr (Err CValidation [entry t] [$"x"] None true) in
  let line (e : err) (x : val) := match x with VDict _ [(_, VStr t)] => Ok t | _ => Raise (XPy KeyError) end in
  error_text line (Err CValidation [entry $"own"] [$"x"] (Some (VList [leaf $"first"])) true)
  = Ok ($"validation failed" ++ [10%N] ++ $"[01] own" ++ [10%N] ++ $"[02] first").
Proof. reflexivity. Qed.
@end *)

(** @prop C42 An error is substantive exactly if it has own errors or its structure is not empty, and so exactly
    if its serialization (the structure being a list or a dict, as everywhere in the package) is not a pair of
    nulls. *)
Lemma substantive_exact :
  forall e,
    (truthy (substantive e) = true <->
     er_errors e <> [] \/ exists s, er_structure e = Some s /\ truthy s = true)
    /\ ((forall s, er_structure e = Some s -> (exists l, s = VList l) \/ exists o l, s = VDict o l) ->
        (truthy (substantive e) = true <-> err_serialize e <> VTuple [VNone; VNone])).
Proof.
  intros [c l i s h]. unfold substantive, err_serialize. cbn [er_errors er_structure]. split.
  - destruct l as [|x l]; cbn [truthy].
    + destruct s as [s|]; split.
      * intros H. right. exists s. auto.
      * intros [H|[s' [Hs H]]]; [congruence|]. injection Hs as <-. exact H.
      * discriminate.
      * intros [H|[s' [Hs H]]]; congruence.
    + split; [intros _; left; discriminate|reflexivity].
  - intros Hs. destruct l as [|x l]; cbn [truthy].
    + destruct s as [s|]; [|split; [discriminate|congruence]].
      destruct (Hs s eq_refl) as [[y ->]|[o [y ->]]]; destruct y as [|z y]; cbn; split; intros; congruence.
    + split; [discriminate|reflexivity].
Qed.

(** @example
Example C42_substantive_example :
  truthy (substantive (Err CValidation [] [] (Some (VList [])) false)) = false
  /\ truthy (substantive (Err CValidation [] [] (Some (VList [VInt 1])) false)) = true
  /\ truthy (substantive (Err CValidation [entry $"own"] [] None false)) = true.
Proof. repeat split. Qed.
@end *)
