(** * Structural errors: serialization, histories, formatting (C39 to C42). *)
(* @imports Spec Demo ErrSpec *)
From Coq Require Import ZifyBool ZifyN ZifyNat.
From Verif Require Import PyBaseFacts NumFacts NumProofs Induct Spec Demo ErrSpec.

Scheme mirrors_mut := Induction for mirrors Sort Prop
  with mirrors_list_mut := Induction for mirrors_list Sort Prop
  with mirrors_items_mut := Induction for mirrors_items Sort Prop
  with nested_form_mut := Induction for nested_form Sort Prop.
Combined Scheme mirrors_all from mirrors_mut, mirrors_list_mut, mirrors_items_mut, nested_form_mut.

Definition nested_ser (e : err) : val :=
  match er_structure e with Some s => ser_structure s | None => VList (ser_errors (er_errors e)) end.

Lemma own_form_fun l r : Forall2 own_form l r <-> r = ser_errors l.
Proof.
  revert r. induction l as [|x l IH]; intros r; cbn [ser_errors map].
  - split; [intros H; inversion H; reflexivity|intros ->; constructor].
  - split.
    + intros H. inversion H as [|? y ? r' Hx Hr]; subst. apply IH in Hr. subst r'. f_equal.
      destruct Hx as [[Hd ->]|[Hd ->]]; [destruct (as_dict x); congruence|rewrite Hd; reflexivity].
    + intros ->. constructor; [|apply IH; reflexivity]. unfold own_form.
      destruct (as_dict x) eqn:Hd; [left; split; [discriminate|reflexivity]|right; auto].
Qed.

Definition ser_item (it : val) : val :=
  match it with
  | VErr e => nested_ser e
  | _ => VNone
  end.
Definition ser_entry (kv : val * val) : list (val * val) :=
  match snd kv with VErr e => [(fst kv, nested_ser e)] | _ => [] end.

Lemma ser_structure_list l : ser_structure (VList l) = VList (map ser_item l).
Proof. reflexivity. Qed.
Lemma ser_structure_dict s l : as_dict s = Some l -> ser_structure s = VDict false (flat_map ser_entry l).
Proof. destruct s; try discriminate; intros [= <-]; reflexivity. Qed.
Lemma ser_structure_other s : as_dict s = None -> (forall l, s <> VList l) -> ser_structure s = VNone.
Proof. destruct s; try discriminate; intros _ H; try reflexivity. exfalso. eapply H. reflexivity. Qed.

Lemma not_err_item v : ~ is_err v -> ser_item v = VNone.
Proof. destruct v; try reflexivity. intros H. exfalso. apply H. eexists. reflexivity. Qed.
Lemma not_err_entry k v : ~ is_err v -> ser_entry (k, v) = [].
Proof. destruct v; try reflexivity. intros H. exfalso. apply H. eexists. reflexivity. Qed.

Lemma mirrors_fun_all :
  (forall s r, mirrors s r -> r = ser_structure s)
  /\ (forall l r, mirrors_list l r -> r = map ser_item l)
  /\ (forall l r, mirrors_items l r -> r = flat_map ser_entry l)
  /\ (forall e r, nested_form e r -> r = nested_ser e).
Proof.
  apply mirrors_all.
  - intros l r _ ->. symmetry. apply ser_structure_list.
  - intros s l r Hs _ ->. symmetry. apply ser_structure_dict, Hs.
  - intros s Hd Hl. symmetry. apply ser_structure_other; assumption.
  - reflexivity.
  - intros e x l r _ -> _ ->. reflexivity.
  - intros v l r Hv _ ->. cbn [map]. rewrite not_err_item by exact Hv. reflexivity.
  - reflexivity.
  - intros k e x l r _ -> _ ->. reflexivity.
  - intros k v l r Hv _ ->. cbn [flat_map]. rewrite not_err_entry by exact Hv. reflexivity.
  - intros e r Hs H. apply own_form_fun in H. unfold nested_ser. rewrite Hs, H. reflexivity.
  - intros e s r Hs _ ->. unfold nested_ser. rewrite Hs. reflexivity.
Qed.

Lemma err_dec v : (exists e, v = VErr e) \/ ~ is_err v.
Proof. destruct v; try (right; intros [e He]; discriminate). left. eexists. reflexivity. Qed.

Lemma mirrors_ex s : mirrors s (ser_structure s) /\ (forall e, s = VErr e -> nested_form e (nested_ser e)).
Proof.
  induction s as [s IH] using val_ind'.
  assert (Hnest : forall e, In (VErr e) (subvals s) -> nested_form e (nested_ser e)).
  { intros e He. apply (IH _ He). reflexivity. }
  split.
  - destruct (as_dict s) as [l|] eqn:Hd.
    + rewrite (ser_structure_dict s l Hd). apply mir_dict with l; [exact Hd|].
      assert (Hl : forall k e, In (k, VErr e) l -> nested_form e (nested_ser e)).
      { intros k e Hin. apply Hnest. destruct s; try discriminate Hd; injection Hd as ->; cbn [subvals];
          apply in_flat_map; exists (k, VErr e); (split; [exact Hin|right; left; reflexivity]). }
      clear - Hl. induction l as [|[k v] l IHl]; cbn [flat_map]; [constructor|].
      destruct (err_dec v) as [[e ->]|Hv].
      * constructor; [eapply Hl; left; reflexivity|]. apply IHl. intros k' e' H. eapply Hl. right. exact H.
      * rewrite not_err_entry by exact Hv. constructor; [exact Hv|]. apply IHl. intros k' e' H. eapply Hl. right. exact H.
    + assert (Hl : (exists l, s = VList l) \/ forall l, s <> VList l).
      { destruct s; try (right; discriminate). left. eexists. reflexivity. }
      destruct Hl as [[l ->]|Hl].
      * rewrite ser_structure_list. constructor. cbn [subvals] in Hnest. clear - Hnest.
        induction l as [|v l IHl]; cbn [map]; [constructor|].
        destruct (err_dec v) as [[e ->]|Hv].
        -- constructor; [apply Hnest; left; reflexivity|]. apply IHl. intros e' H. apply Hnest. right. exact H.
        -- rewrite not_err_item by exact Hv. constructor; [exact Hv|]. apply IHl. intros e' H. apply Hnest. right. exact H.
      * rewrite ser_structure_other by assumption. constructor; assumption.
  - intros e ->. unfold nested_ser. destruct (er_structure e) as [s|] eqn:Hs.
    + eapply nf_structure; [exact Hs|]. apply IH. cbn [subvals]. rewrite Hs. apply in_or_app. right. left. reflexivity.
    + apply nf_own; [exact Hs|]. apply own_form_fun. reflexivity.
Qed.

Lemma mirrors_fun s r : mirrors s r <-> r = ser_structure s.
Proof. split; [apply mirrors_fun_all|intros ->; apply mirrors_ex]. Qed.

(** ** C39 *)

(** @prop C39 serialize returns the pair of the own errors (null if there are none) and the
    structure (null if there is none or it is empty), in which exactly the nested errors appear, at
    their places, recursively. *)
Lemma error_serialize_exact :
  forall e a b,
    err_serialize e = VTuple [a; b] <->
    (er_errors e = [] /\ a = VNone
     \/ er_errors e <> [] /\ exists r, a = VList r /\ Forall2 own_form (er_errors e) r)
    /\ ((er_structure e = None \/ exists s, er_structure e = Some s /\ truthy s = false) /\ b = VNone
        \/ exists s, er_structure e = Some s /\ truthy s = true /\ mirrors s b).
Proof.
  intros e a b. unfold err_serialize. split.
  - intros [= <- <-]. split.
    + destruct (er_errors e) as [|x l]; [left; auto|]. right. split; [discriminate|].
      exists (ser_errors (x :: l)). split; [reflexivity|]. apply own_form_fun. reflexivity.
    + destruct (er_structure e) as [s|]; [|left; auto]. destruct (truthy s) eqn:Ht.
      * right. exists s. split; [reflexivity|]. split; [exact Ht|]. apply mirrors_fun. reflexivity.
      * left. split; [right; exists s; auto|reflexivity].
  - intros [Ha Hb]. repeat f_equal.
    + destruct Ha as [[-> ->]|[Hn [r [-> Hr]]]]; [reflexivity|]. apply own_form_fun in Hr. subst r.
      destruct (er_errors e); [congruence|reflexivity].
    + destruct Hb as [[[-> | [s [-> Ht]]] ->]|[s [-> [Ht Hm]]]]; [reflexivity|rewrite Ht; reflexivity|].
      rewrite Ht. symmetry. apply mirrors_fun, Hm.
Qed.

(** @example
Example C39_example :
  let leaf t := VErr (Err CValidation [entry t] [$"x"] None true) in
  let e := Err CValidation [VStr $"odd"] [$"x"]
             (Some (VDict false [(VStr $"a", leaf $"min"); (VStr $"b", VInt 1);
                                 (VStr $"c", VErr (Err CValidation [] [$"x"] (Some (VList [VInt 2; leaf $"max"])) true))])) true in
  err_serialize e = VTuple [VList [VDict false [(VStr $"message", VStr $"odd")]];
                            VDict false [(VStr $"a", VList [entry $"min"]);
                                         (VStr $"c", VList [VNone; VList [entry $"max"]])]].
Proof. reflexivity. Qed.
@end *)

Lemma error_at_reads s k e : error_at s k e -> reads (ser_structure s) [k] (nested_ser e).
Proof.
  intros [l i e' H|s' l k' e' Hd H].
  - rewrite ser_structure_list. eapply rd_list; [|constructor].
    rewrite nth_error_map, H. reflexivity.
  - rewrite (ser_structure_dict _ _ Hd). eapply rd_dict; [|constructor].
    apply in_flat_map. exists (k', VErr e'). split; [exact H|left; reflexivity].
Qed.

Lemma reads_trans r p x q y : reads r p x -> reads x q y -> reads r (p ++ q) y.
Proof. intros H Hq. induction H; cbn [app]; [exact Hq|eapply rd_list; eauto|eapply rd_dict; eauto]. Qed.

(** @prop C39 Every error nested in the structure, at any depth, is found in the serialized
    structure by following the same path, with its own errors. *)
Lemma error_serialize_leaf :
  forall s path e,
    leaf_at s path e ->
    exists r l, mirrors s r /\ reads r path (VList l) /\ Forall2 own_form (er_errors e) l.
Proof.
  intros s path e H. exists (ser_structure s), (ser_errors (er_errors e)).
  split; [apply mirrors_fun; reflexivity|]. split; [|apply own_form_fun; reflexivity].
  induction H as [s k e He Hs|s k e s' path e' He Hs Hl IH].
  - apply error_at_reads in He. unfold nested_ser in He. rewrite Hs in He. exact He.
  - apply error_at_reads in He. unfold nested_ser in He. rewrite Hs in He.
    exact (reads_trans _ [k] _ _ _ He IH).
Qed.

(** @example
Example C39_leaf_example :
  let leaf := Err CValidation [entry $"max"] [$"x"] None true in
  let s := VDict false [(VStr $"c", VErr (Err CValidation [] [$"x"] (Some (VList [VInt 2; VErr leaf])) true))] in
  leaf_at s [VStr $"c"; VInt 1] leaf.
Proof.
  intros leaf s. eapply la_deeper; [eapply ea_dict; [reflexivity|left; reflexivity]|reflexivity|].
  apply la_leaf; [apply (ea_list _ 1%nat); reflexivity|reflexivity].
Qed.
@end *)

(** ** C40 *)

(** Unserialization of what serialization returned. *)
Definition reread (e : err) : res val :=
  match err_serialize e with VTuple [a; b] => err_unserialize a b | _ => Raise (XPy ValueError) end.

Lemma nested_ser_not_err e y : nested_ser e <> VErr y.
Proof. unfold nested_ser. destruct (er_structure e) as [s|]; [|discriminate]. destruct s; discriminate. Qed.

Lemma no_error_left s k y : ~ error_at (ser_structure s) k y.
Proof.
  intros Hy. destruct (as_dict s) as [d|] eqn:Hds.
  - rewrite (ser_structure_dict _ _ Hds) in Hy. inversion Hy as [|s' l' k' y' Hd Hin]; subst.
    cbn in Hd. injection Hd as <-. apply in_flat_map in Hin.
    destruct Hin as [[k0 z] [_ Hz]]. unfold ser_entry in Hz. cbn [fst snd] in Hz. destruct z; try contradiction.
    destruct Hz as [Hz|[]]. injection Hz as _ Hz. exact (nested_ser_not_err _ _ Hz).
  - destruct s; try discriminate Hds; try (inversion Hy; discriminate).
    rewrite ser_structure_list in Hy. inversion Hy as [l' i y' Hnth|s' l' k' y' Hd Hin]; subst; [|discriminate].
    rewrite nth_error_map in Hnth. destruct (nth_error _ i) as [z|]; [|discriminate]. cbn in Hnth. injection Hnth as Hz.
    destruct z; cbn [ser_item] in Hz; try discriminate. exact (nested_ser_not_err _ _ Hz).
Qed.

(** @prop C40 When an error has own errors, unserialize(serialize(e)) is an error with the same own
    errors (those that are not dicts become messages); its structure is the serialized structure, in
    which no error is nested any more. *)
Lemma error_reread_own :
  forall e a b,
    err_serialize e = VTuple [a; b] -> er_errors e <> [] ->
    exists e', err_unserialize a b = Ok (VErr e')
      /\ er_cls e' = CStructural
      /\ Forall2 own_form (er_errors e) (er_errors e')
      /\ (Forall (fun x => as_dict x <> None) (er_errors e) -> er_errors e' = er_errors e)
      /\ (b = VNone -> er_structure e' = None) /\ (b <> VNone -> er_structure e' = Some b)
      /\ forall k x, ~ error_at b k x.
Proof.
  intros e a b H Hne. unfold err_serialize in H. injection H as Ha Hb.
  assert (Hb' : b = VNone \/ exists s, b = ser_structure s).
  { destruct (er_structure e) as [s|]; [|left; congruence]. destruct (truthy s); [right; eauto|left; congruence]. }
  clear Hb. destruct (er_errors e) as [|x l] eqn:He; [congruence|]. subst a.
  eexists. split; [reflexivity|]. split; [reflexivity|]. cbn [er_errors er_structure].
  split; [apply own_form_fun; reflexivity|]. split.
  { change (Forall (fun x0 => as_dict x0 <> None) (x :: l) -> ser_errors (x :: l) = x :: l).
    generalize (x :: l). clear. intros l Hall. induction Hall as [|y l' Hy Hl IH]; [reflexivity|]. cbn [ser_errors map].
    destruct (as_dict y); [|congruence]. f_equal. exact IH. }
  split; [intros ->; reflexivity|]. split; [intros Hn; destruct b; try congruence; reflexivity|].
  intros k y Hy. destruct Hb' as [-> | [s ->]]; [inversion Hy; discriminate|].
  exact (no_error_left s k y Hy).
Qed.

(** @example
Example C40_example :
  let e := Err CValidation [entry $"min"] [$"x"] (Some (VList [VErr (Err CValidation [entry $"max"] [$"y"] None true)])) true in
  err_serialize e = VTuple [VList [entry $"min"]; VList [VList [entry $"max"]]]
  /\ err_unserialize (VList [entry $"min"]) (VList [VList [entry $"max"]])
     = Ok (VErr (Err CStructural [entry $"min"] [$"(unknown)"] (Some (VList [VList [entry $"max"]])) false)).
Proof. split; reflexivity. Qed.
@end *)

(** @prop C40 When an error is purely structural, unserialize(serialize(e)) raises TypeError. *)
Lemma error_reread_structural :
  forall e a b,
    err_serialize e = VTuple [a; b] -> er_errors e = [] -> err_unserialize a b = Raise (XPy TypeError).
Proof. intros e a b H He. unfold err_serialize in H. rewrite He in H. injection H as <- _. reflexivity. Qed.

(** @example
Example C40_structural_example :
  let e := Err CValidation [] [$"x"] (Some (VList [VErr (Err CValidation [entry $"max"] [$"y"] None true)])) true in
  err_serialize e = VTuple [VNone; VList [VList [entry $"max"]]].
Proof. reflexivity. Qed.
@end *)

(** ** C41 *)

Lemma ecalls_app o l m : ecalls o (l ++ m) = ecalls (ecalls o l) m.
Proof. revert o. induction l as [|c l IH]; intros o; cbn [app ecalls]; [reflexivity|]. apply IH. Qed.

Lemma ecalls_content o l : eo_err (ecalls o l) = content (eo_err o) l.
Proof.
  revert o. induction l as [|c l IH]; intros o; cbn [ecalls].
  - unfold content. cbn. rewrite app_nil_r. destruct (eo_err o). reflexivity.
  - rewrite IH. unfold content. destruct c as [x|xs|s|f]; cbn [ecall_step fst eo_err].
    + unfold set_errors. cbn. rewrite <- app_assoc. reflexivity.
    + unfold set_errors. cbn. rewrite <- app_assoc. reflexivity.
    + unfold set_structure. cbn. reflexivity.
    + destruct (if f then None else eo_cache o); cbn [fst eo_err flat_map added app attached]; reflexivity.
Qed.

Lemma ecalls_cache_kept o l v : eo_cache o = Some v -> Forall (fun c => c <> CallSerialize true) l ->
  eo_cache (ecalls o l) = Some v.
Proof.
  intros Hc Hl. revert o Hc. induction Hl as [|c l Hx Hl IH]; intros o Hc; cbn [ecalls]; [exact Hc|].
  apply IH. destruct c as [x|xs|s|[|]]; cbn [ecall_step fst eo_cache]; auto; [congruence|]. rewrite Hc. exact Hc.
Qed.

Lemma ecalls_no_cache o l : eo_cache o = None -> Forall (fun c => ~ is_serialize c) l -> eo_cache (ecalls o l) = None.
Proof.
  intros Hc Hl. revert o Hc. induction Hl as [|c l Hx Hl IH]; intros o Hc; cbn [ecalls]; [exact Hc|].
  apply IH. destruct c as [x|xs|s|f]; cbn [ecall_step fst eo_cache]; auto. exfalso. apply Hx. exists f. reflexivity.
Qed.

(** @prop C41 After any history, serialize(force=True) returns the serialization of the current
    content: the initial errors followed by those appended and merged, and the structure attached
    last. *)
Lemma serialize_force_current :
  forall e calls v, returns e calls true v <-> v = err_serialize (content e calls).
Proof.
  intros e calls v. unfold returns. cbn [ecall_step snd]. rewrite ecalls_content. cbn [eo_err].
  split; [intros [= <-]; reflexivity|intros ->; reflexivity].
Qed.

(** @example
Example C41_example :
  let e := Err CValidation [entry $"min"] [$"x"] None true in
  let calls := [CallSerialize false; CallAppend (entry $"max"); CallAttach (Some (VList [VInt 1]))] in
  returns e calls true (VTuple [VList [entry $"min"; entry $"max"]; VList [VNone]])
  /\ returns e calls false (VTuple [VList [entry $"min"]; VNone]).
Proof. split; reflexivity. Qed.
@end *)

Lemma serialize_cached o v : eo_cache o = Some v -> snd (ecall_step o (CallSerialize false)) = Some v.
Proof. intros H. cbn [ecall_step]. rewrite H. reflexivity. Qed.

(** @prop C41 serialize() returns the result of the latest computation: that of the last forced
    call, or of the first call; later changes do not show. *)
Lemma serialize_latest :
  forall e before f after v,
    f = true \/ Forall (fun c => ~ is_serialize c) before ->
    Forall (fun c => c <> CallSerialize true) after ->
    (returns e (before ++ CallSerialize f :: after) false v <-> v = err_serialize (content e before)).
Proof.
  intros e before f after v Hf Ha. unfold returns. rewrite ecalls_app. cbn [ecalls].
  set (o := ecalls (EObj e None) before).
  assert (Hs : eo_cache (fst (ecall_step o (CallSerialize f))) = Some (err_serialize (content e before))).
  { assert (Hn : (if f then None else eo_cache o) = None).
    { destruct Hf as [-> | Hb]; [reflexivity|]. unfold o. rewrite ecalls_no_cache by auto. destruct f; reflexivity. }
    cbn [ecall_step]. rewrite Hn. cbn [fst eo_cache]. unfold o. rewrite ecalls_content. reflexivity. }
  rewrite (serialize_cached _ _ (ecalls_cache_kept _ _ _ Hs Ha)).
  split; [intros [= <-]; reflexivity|intros ->; reflexivity].
Qed.

(** @example
Example C41_latest_example :
  let e := Err CValidation [] [$"x"] None true in
  returns e ([CallAppend (entry $"min")] ++ CallSerialize true :: [CallAppend (entry $"max"); CallSerialize false]) false
    (VTuple [VList [entry $"min"]; VNone]).
Proof. reflexivity. Qed.
@end *)

(** @prop C41 Before any serialize call, serialize() returns the serialization of the current
    content. *)
Lemma serialize_first :
  forall e calls v,
    Forall (fun c => ~ is_serialize c) calls ->
    (returns e calls false v <-> v = err_serialize (content e calls)).
Proof.
  intros e calls v H. unfold returns. cbn [ecall_step]. rewrite ecalls_no_cache by auto. cbn [snd].
  rewrite ecalls_content. cbn [eo_err]. split; [intros [= <-]; reflexivity|intros ->; reflexivity].
Qed.

(** @example
Example C41_first_example :
  returns (Err CValidation [] [$"x"] None true) [CallAppend (VStr $"odd"); CallMerge [entry $"max"]] false
    (VTuple [VList [VDict false [(VStr $"message", VStr $"odd")]; entry $"max"]; VNone]).
Proof. reflexivity. Qed.
@end *)

(** ** C42 *)

Scheme leaves_mut := Induction for leaves Sort Prop
  with leaves_in_mut := Induction for leaves_in Sort Prop.
Combined Scheme leaves_all from leaves_mut, leaves_in_mut.

Section Fmt.
Variable line : err -> val -> res str.
Variable text : err -> val -> str.

Definition texts (e : err) : list str := if er_hasfield e then map (text e) (er_errors e) else [].
Definition renders (e : err) : Prop := forall x, In x (er_errors e) -> line e x = Ok (text e x).

Lemma fmt_errors_ok e : renders e -> fmt_errors line e = Ok (texts e).
Proof.
  unfold renders, fmt_errors, texts. destruct (er_hasfield e); [|reflexivity].
  intros H. induction (er_errors e) as [|x l IH]; cbn [each map]; [reflexivity|].
  rewrite H by (left; reflexivity). cbn [bind]. rewrite IH by (intros y Hy; apply H; right; exact Hy). reflexivity.
Qed.

Definition fmt_item (x : val) : res (list str) :=
  match x with
  | VErr e => match er_structure e with
              | Some s' => fmt_structure line s'
              | None => fmt_errors line e
              end
  | _ => Ok []
  end.
Fixpoint fmt_items (l : list val) : res (list str) :=
  match l with
  | [] => Ok []
  | x :: l' => do a <- fmt_item x; do b <- fmt_items l'; Ok (a ++ b)
  end.

Lemma fmt_structure_list s l : s = VList l \/ s = VTuple l -> fmt_structure line s = fmt_items l.
Proof.
  intros [-> | ->]; cbn [fmt_structure].
  - induction l as [|x l IH]; [reflexivity|]. cbn [fmt_items]. rewrite IH. reflexivity.
  - induction l as [|x l IH]; [reflexivity|]. cbn [fmt_items]. rewrite IH. reflexivity.
Qed.

Lemma fmt_structure_dict s l : as_dict s = Some l -> fmt_structure line s = fmt_items (map snd l).
Proof.
  intros H. destruct s; try discriminate; injection H as ->; cbn [fmt_structure].
  - induction l as [|[k x] l IH]; [reflexivity|]. cbn [map snd fmt_items]. rewrite IH. reflexivity.
  - induction l as [|[k x] l IH]; [reflexivity|]. cbn [map snd fmt_items]. rewrite IH. reflexivity.
Qed.

Lemma fmt_leaves :
  (forall s es, leaves s es -> Forall renders es -> fmt_structure line s = Ok (flat_map texts es))
  /\ (forall l es, leaves_in l es -> Forall renders es -> fmt_items l = Ok (flat_map texts es)).
Proof.
  apply leaves_all.
  - intros s l es Hs _ IH H. rewrite (fmt_structure_list s l Hs). apply IH, H.
  - intros s l es Hs _ IH H. rewrite (fmt_structure_dict s l Hs). apply IH, H.
  - intros s t [-> | ->] _; reflexivity.
  - reflexivity.
  - intros e l es He _ IH H. inversion H as [|? ? H1 H2]; subst. cbn [fmt_items fmt_item]. rewrite He.
    rewrite fmt_errors_ok by exact H1. cbn [bind]. rewrite IH by exact H2. reflexivity.
  - intros e s l es es' He _ IHs _ IHl H. apply Forall_app in H. destruct H as [H1 H2].
    cbn [fmt_items fmt_item]. rewrite He, IHs by exact H1. cbn [bind]. rewrite IHl by exact H2. cbn [bind].
    rewrite flat_map_app. reflexivity.
  - intros v l es Hv _ IH H. cbn [fmt_items].
    assert (Hi : fmt_item v = Ok []). { destruct v; try reflexivity. exfalso. apply Hv. eexists. reflexivity. }
    rewrite Hi. cbn [bind app]. rewrite IH by exact H. reflexivity.
Qed.

End Fmt.

Lemma two_digits_label n : (1 <= n)%nat -> label (Z.of_nat n) (two_digits n).
Proof.
  intros Hn. unfold two_digits, N_text, render.
  destruct (digits_spec (N.of_nat n)) as [H1 [H2 [H3 H4]]].
  assert (Hv : place_value (digits (N.of_nat n)) = Z.of_nat n) by (rewrite <- place_digits, H1; lia).
  destruct (digits (N.of_nat n)) as [|d [|d' ds]] eqn:Hd; [congruence| |]; cbn [map].
  - exists [0%N; d]. inversion H2; subst. unfold dig in *. cbn [length] in *.
    split; [reflexivity|]. split; [constructor; [lia|constructor; [assumption|constructor]]|]. split.
    + rewrite <- Hv. cbn. lia.
    + split; [lia|]. intros; lia.
  - exists (d :: d' :: ds). split; [reflexivity|]. split; [exact H2|]. split; [exact Hv|]. split; [cbn; lia|].
    intros d0 r [= -> <-] _ ->. specialize (H4 0%N (d' :: ds) eq_refl eq_refl). discriminate.
Qed.

Lemma indent_hanging n m : hanging n m (indent m n false).
Proof.
  unfold indent, hanging. assert (Hp := split_on_pieces 10 m). assert (Hj := join_split 10 m).
  destruct (split_on 10 m) as [|l ls] eqn:Hs; [exfalso; revert Hs; apply split_on_nonempty|].
  exists l, ls. split; [symmetry; exact Hj|]. split; [exact Hp|reflexivity].
Qed.

Lemma numbered_nth i l k : nth_error (numbered i l) k =
  option_map (fun s => $"[" ++ two_digits (i + k) ++ $"] " ++ indent s 5 false) (nth_error l k).
Proof.
  revert i k. induction l as [|s l IH]; intros i [|k]; cbn [numbered nth_error option_map]; auto.
  - rewrite Nat.add_0_r. reflexivity.
  - rewrite IH. replace (S i + k)%nat with (i + S k)%nat by lia. reflexivity.
Qed.

Lemma numbered_length i l : length (numbered i l) = length l.
Proof. revert i. induction l as [|s l IH]; intros i; cbn; auto. Qed.

(** @prop C42 format_errors lists the own errors and then those of every leaf of the structure,
    once and in order, numbered from 1 with at least two digits, continuation lines indented by five
    blanks.  (Errors of a leaf without a field are not listed; own errors of an inner error that has
    a structure are not listed either.) *)
Lemma format_errors_enumerates :
  forall line text e es,
    match er_structure e with
    | Some s => if truthy s then leaves s es else es = []
    | None => es = []
    end ->
    (forall e' x, In e' (e :: es) -> In x (er_errors e') -> line e' x = Ok (text e' x)) ->
    let messages := flat_map (fun e' => if er_hasfield e' then map (text e') (er_errors e') else []) (e :: es) in
    exists out, format_errors line e = Ok out
      /\ length out = length messages
      /\ forall i m, nth_error messages i = Some m ->
           exists num body, nth_error out i = Some ($"[" ++ num ++ $"] " ++ body)
             /\ label (Z.of_nat i + 1) num /\ hanging 5 m body.
Proof.
  intros line text e es Hs Hline messages.
  assert (Hall : Forall (renders line text) (e :: es)).
  { rewrite Forall_forall. intros e' He' x Hx. apply Hline; assumption. }
  inversion Hall as [|? ? He Hes]; subst.
  exists (numbered 1 messages). split.
  - unfold format_errors.
    assert (Ho : match er_errors e with [] => Ok [] | _ => fmt_errors line e end = Ok (texts text e)).
    { rewrite (fmt_errors_ok line text e He). unfold texts. destruct (er_errors e); [|reflexivity].
      destruct (er_hasfield e); reflexivity. }
    rewrite Ho. cbn [bind].
    assert (Hn : match er_structure e with
                 | Some s => if truthy s then fmt_structure line s else Ok []
                 | None => Ok []
                 end = Ok (flat_map (texts text) es)).
    { destruct (er_structure e) as [s|]; [|subst es; reflexivity]. destruct (truthy s); [|subst es; reflexivity].
      apply fmt_leaves; assumption. }
    rewrite Hn. reflexivity.
  - split; [apply numbered_length|]. intros i m Hm.
    exists (two_digits (1 + i)), (indent m 5 false). split; [rewrite numbered_nth, Hm; reflexivity|].
    split; [|apply indent_hanging]. replace (Z.of_nat i + 1)%Z with (Z.of_nat (1 + i)) by lia.
    apply two_digits_label. lia.
Qed.

(** @example
Example C42_example :
  let leaf t := VErr (Err CValidation [entry t] [$"x"] None true) in
  let e := Err CValidation [entry $"own"] [$"x"]
             (Some (VDict false [(VStr $"a", leaf $"first"); (VStr $"b", VInt 1);
                (VStr $"c", VErr (Err CValidation [entry $"hidden"] [$"x"] (Some (VList [VInt 2; leaf $"second"])) true))])) true in
  let line (e : err) (x : val) := match x with VDict _ [(_, VStr t)] => Ok (t ++ [10%N] ++ $"more") | _ => Raise (XPy KeyError) end in
  format_errors line e
  = Ok [$"[01] own" ++ [10%N] ++ $"     more"; $"[02] first" ++ [10%N] ++ $"     more";
        $"[03] second" ++ [10%N] ++ $"     more"].
Proof. reflexivity. Qed.
@end *)
