(** * Texts of elements and surrogates (C97). *)
(* @imports Spec Demo SchemaSpec ElementSpec ObjReprSpec *)
From Verif Require Import PyBaseFacts Spec Demo StructFacts SchemaSpec ElementSpec ElementProofs ObjReprSpec.

Lemma aget_In' {A} s (l : list (str * A)) a : aget s l = Some a -> In s (map fst l).
Proof.
  induction l as [|[k x] l IH]; cbn; [discriminate|]. destruct (str_eqb_spec s k) as [->|Hn]; [left; reflexivity|].
  intros H. right. exact (IH H).
Qed.
Lemma aget_absent {A} s (l : list (str * A)) : aget s l = None -> ~ In s (map fst l).
Proof.
  induction l as [|[k x] l IH]; cbn; [intros _ []|]. destruct (str_eqb_spec s k) as [->|Hn]; [discriminate|].
  intros H [Hx|Hx]; [congruence|exact (IH H Hx)].
Qed.

Lemma aspects_shown repr value names : NoDup names ->
  exists shown : list (str * val),
    aspects repr value names = map (fun sv => fst sv ++ $"=" ++ repr (snd sv)) shown
    /\ sublist (map fst shown) names
    /\ forall name v, In (name, v) shown <-> In name names /\ value name = v /\ v <> VNone.
Proof.
  induction names as [|a names IH]; intros Hn.
  - exists []. split; [reflexivity|]. split; [constructor|]. intros name v. split; [intros []|intros [[] _]].
  - inversion Hn as [|? ? Ha Hn']; subst. destruct (IH Hn') as [shown [H1 [H2 H3]]]. cbn [aspects].
    assert (Hskip : value a = VNone -> exists shown : list (str * val),
      aspects repr value names = map (fun sv => fst sv ++ $"=" ++ repr (snd sv)) shown
      /\ sublist (map fst shown) (a :: names)
      /\ forall name v, In (name, v) shown <-> In name (a :: names) /\ value name = v /\ v <> VNone).
    { intros Hv. exists shown. split; [exact H1|]. split; [apply sublist_skip, H2|]. intros name v. rewrite H3. split.
      - intros [H [H' H'']]. split; [right; exact H|]. auto.
      - intros [[<-|H] [H' H'']]; [congruence|]. auto. }
    assert (Htake : value a <> VNone -> exists shown : list (str * val),
      (a ++ $"=" ++ repr (value a)) :: aspects repr value names = map (fun sv => fst sv ++ $"=" ++ repr (snd sv)) shown
      /\ sublist (map fst shown) (a :: names)
      /\ forall name v, In (name, v) shown <-> In name (a :: names) /\ value name = v /\ v <> VNone).
    { intros Hv. exists ((a, value a) :: shown). split; [cbn [map fst snd]; rewrite H1; reflexivity|].
      split; [apply sublist_take, H2|]. intros name v. cbn [In]. rewrite H3. split.
      - intros [H|[H [H' H'']]]; [assert (name = a) by congruence; assert (v = value a) by congruence; subst; auto|auto].
      - intros [[<-|H] [H' H'']]; [left; congruence|auto]. }
    destruct (value a) eqn:Hv; try (apply Htake; discriminate). apply Hskip. reflexivity.
Qed.

Lemma instance_attr_spec class_attr class attrs name v : v <> VNone ->
  (instance_attr class_attr class attrs name = v <-> has_attribute class_attr class attrs name v).
Proof.
  intros Hv. unfold instance_attr. destruct (aget name attrs) as [w|] eqn:Ha.
  - split; [intros <-; constructor; exact Ha|]. intros [u Hu|u Hu _]; [congruence|]. exfalso. apply Hu. eapply aget_In', Ha.
  - apply aget_absent in Ha as Hb. destruct (class_attr class name) as [w|] eqn:Hc.
    + split; [intros <-; apply attribute_of_class; assumption|]. intros [u Hu|u _ Hu]; congruence.
    + split; [congruence|]. intros [u Hu|u _ Hu]; congruence.
Qed.

Lemma three_names : NoDup [$"id"; $"name"; $"title"].
Proof. repeat constructor; cbn; intros H; repeat (destruct H as [H|H]; [discriminate|]); exact H. Qed.

(** @prop C97 The text of an element names its class and shows exactly those of the attributes id, name
    and title that it or its class has and that are not null, in this order, each once. *)
Lemma element_text_exact :
  forall repr class_name class_attr class attrs,
    exists text,
      element_repr repr class_name class_attr (VObj class attrs) = Ok text
      /\ identifies repr (class_name class) [$"id"; $"name"; $"title"] (has_attribute class_attr class attrs) text.
Proof.
  intros repr class_name class_attr class attrs. eexists. split; [reflexivity|].
  destruct (aspects_shown repr (instance_attr class_attr class attrs) _ three_names) as [shown [H1 [H2 H3]]].
  exists shown. split; [rewrite H1; reflexivity|]. split; [exact H2|]. intros name v. rewrite H3. split.
  - intros [H [H' H'']]. split; [exact H|]. split; [|exact H'']. apply instance_attr_spec; assumption.
  - intros [H [H' H'']]. split; [exact H|]. split; [|exact H'']. apply instance_attr_spec; assumption.
Qed.

(** @example
Example C97_example :
  element_repr (fun v => match v with VInt 7 => $"7" | VStr s => $"'" ++ s ++ $"'" | _ => $"?" end)
    (fun _ => $"Project") (fun _ s => if str_eqb s $"title" then Some (VStr $"none yet") else None)
    (VObj 3 [($"name", VNone); ($"owner", VStr $"me"); ($"id", VInt 7)])
  = Ok $"Project(id=7, title='none yet')".
Proof. reflexivity. Qed.
@end *)

(** @prop C97 An element made from a value of a plain structure, its class having no such attributes of its
    own, shows of id, name and title what the value has under these keys, or else the default or constant
    of the key, unless it is null. *)
Lemma instance_text_exact :
  forall E repr class_name class_attr class p l strict ko impl key_attr el ordered items key w,
    define_element E class (Fld p (KStructure (SPlain l) strict ko)) impl key_attr = Ok el ->
    NoDup (map fst l) -> ~ In key_attr [$"id"; $"name"; $"title"] ->
    (forall s, In s [$"id"; $"name"; $"title"] -> class_attr class s = None) ->
    element_instantiate E el (VDict ordered items) key = Ok w ->
    exists text,
      element_repr repr class_name class_attr w = Ok text
      /\ identifies repr (class_name class) [$"id"; $"name"; $"title"]
           (fun s v => exists g q, In (s, g) l /\ defined_as E g q
              /\ v = match sget s items with Some v => v | None => fallback q end) text.
Proof.
  intros E repr class_name class_attr class p l strict ko impl key_attr el ordered items key w Hel Hnd Hk Hc Hw.
  destruct (plain_instance_exact _ _ _ _ _ _ _ _ _ _ _ _ _ Hel Hnd Hw) as [attrs [-> [H1 [H2 _]]]].
  destruct (element_text_exact repr class_name class_attr class attrs) as [text [Ht [shown [Hs [Hsub Hin]]]]].
  exists text. split; [exact Ht|]. exists shown. split; [exact Hs|]. split; [exact Hsub|].
  assert (Hone : forall s, In s [$"id"; $"name"; $"title"] -> forall v,
            has_attribute class_attr class attrs s v <->
            exists g q, In (s, g) l /\ defined_as E g q /\ v = match sget s items with Some v => v | None => fallback q end).
  { intros s Hin' v. assert (Hsk : s <> key_attr) by (intros ->; exact (Hk Hin')). split.
    - intros [u Hu|u _ Hu]; [|rewrite Hc in Hu by exact Hin'; discriminate].
      destruct (H2 s (aget_In' _ _ _ Hu)) as [Hx|Hx]; [|congruence].
      apply in_map_iff in Hx. destruct Hx as [[s' g] [Hx Hg]]. cbn [fst] in Hx. subst s'.
      destruct (H1 s g Hg Hsk) as [q [Hq Ha]]. exists g, q. split; [exact Hg|]. split; [exact Hq|]. congruence.
    - intros [g [q [Hg [Hq ->]]]]. destruct (H1 s g Hg Hsk) as [q' [Hq' Ha]].
      assert (q' = q) by (destruct g as [i|pp kk]; cbn [defined_as] in Hq, Hq'; [destruct Hq as [? Hq], Hq' as [? Hq']|]; congruence). subst q'. constructor. exact Ha. }
  intros name v. rewrite Hin. split; intros [H [H' H'']]; (split; [exact H|split; [apply (Hone name H v), H'|exact H'']]).
Qed.

(** @example
Example C97_instance_example :
  let f := Fld p0 (KStructure (SPlain [($"name", Fld p_req (KText None None None true)); ($"id", Fld (p_def (VInt 7)) (KInteger None None))]) true None) in
  exists el w,
    define_element env0 4 f [] [] = Ok el
    /\ element_instantiate env0 el (VDict false [(VStr $"name", VStr $"me")]) VNone = Ok w
    /\ element_repr (fun v => match v with VInt 7 => $"7" | VStr s => $"'" ++ s ++ $"'" | _ => $"?" end)
         (fun _ => $"Project") (fun _ _ => None) w = Ok $"Project(id=7, name='me')".
Proof. do 2 eexists. split; [reflexivity|]. split; reflexivity. Qed.
@end *)

(** @prop C97 The text of a surrogate is the token of its class around its contents; without the attribute
    [surrogate], which a class has under Python 3 only if it defines it, there is no text but an
    AttributeError. *)
Lemma surrogate_text_partial :
  forall E dict_repr impl schema version items,
    (forall token, e_surrogate E impl = Some token ->
       surrogate_repr E dict_repr (VSurr impl schema version items) = Ok (token ++ $"(" ++ dict_repr items ++ $")"))
    /\ (e_surrogate E impl = None <->
        surrogate_repr E dict_repr (VSurr impl schema version items) = py AttributeError).
Proof.
  intros E dict_repr impl schema version items. unfold surrogate_repr. split.
  - intros token ->. reflexivity.
  - destruct (e_surrogate E impl); split; (discriminate || reflexivity).
Qed.

(** @example
Example C97_surrogate_example :
  surrogate_repr env0 (fun _ => $"{}") (VSurr 5 None None []) = py AttributeError.
Proof. reflexivity. Qed.
@end *)

(** @prop C97 REFUTED for surrogates: the surrogates of some classes cannot be shown. *)
Lemma surrogate_text_refuted :
  exists E, forall dict_repr schema version items,
    surrogate_repr E dict_repr (VSurr 5 schema version items) = py AttributeError.
Proof. exists env0. reflexivity. Qed.

(** @example
Example C97_refuted_example :
  run0 (Fld p0 (KSurrogate None)) Inbound false (VSurr 5 None None []) = Ok (VSurr 5 None None [])
  /\ surrogate_repr env0 (fun _ => $"{}") (VSurr 5 None None []) = py AttributeError.
Proof. split; reflexivity. Qed.
@end *)
