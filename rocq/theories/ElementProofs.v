(** * Elements (C71). *)
(* @imports Spec Demo RtSpec ExtractSpec SchemaSpec ElementSpec *)
From Verif Require Import PyBaseFacts Induct Spec Demo ProcessFacts NumFacts StructFacts StructProofs ConfProofs RtSpec RtProofs ExtractSpec ExtractProofs ConFacts SchemaSpec ElementSpec YamlProofs.

Lemma fparams_defined E g q : fparams E g = Some q <-> defined_as E g q.
Proof.
  unfold fparams, defined_as. destruct g as [i|p k]; [|cbn; split; [intros [= ->]|intros ->]; reflexivity].
  destruct (e_undef E i) as [[j|p k]|]; split; try (intros H; discriminate H); try (intros [k' H]; discriminate H).
  - intros [= ->]. eauto.
  - intros [k' [= ->]]. reflexivity.
Qed.

Lemma default_values_all E l items : default_values E false l = Ok items ->
  Forall2 (fun sg kv => fst kv = VStr (fst sg)
             /\ exists q, defined_as E (snd sg) q /\ snd kv = if is_none (p_default q) then p_constant q else p_default q) l items.
Proof.
  revert items. induction l as [|[s g] l IH]; intros items H; cbn [default_values] in H.
  - apply ok_inj in H. subst. constructor.
  - destruct (fparams E g) as [q|] eqn:Hq; [|discriminate]. destruct (default_values E false l) as [r|x]; [|discriminate].
    cbn [bind negb orb] in H. apply ok_inj in H. subst items. constructor; [|apply IH; reflexivity].
    split; [reflexivity|]. exists q. split; [apply fparams_defined, Hq|reflexivity].
Qed.

(** What [__init__] sets. *)
Lemma attributes_get value l s : NoDup (map fst l) ->
  aget s (attributes value l) = option_map (fun d => value d s) (sget s l).
Proof.
  induction l as [|[k d] l IH]; intros Hnd; [reflexivity|]. inversion Hnd as [|? ? Hk Hnd']; subst.
  change (attributes value ((k, d) :: l)) with (match k with VStr t => [(t, value d t)] | _ => [] end ++ attributes value l).
  destruct k as [| | | |t| | | | | | | | | | | |]; cbn [app]; try (cbn [sget]; apply IH; exact Hnd').
  cbn [aget sget]. destruct (str_eqb_spec s t) as [->|Hne]; [reflexivity|]. apply IH. exact Hnd'.
Qed.

Lemma sget_strs s (l : list (str * val)) : sget s (strs l) = aget s l.
Proof. induction l as [|[t v] l IH]; [reflexivity|]. cbn. destruct (str_eqb s t); [reflexivity|exact IH]. Qed.

Lemma defaults_keys E l items : default_values E false l = Ok items -> map fst items = map VStr (map fst l).
Proof.
  intros H. apply default_values_all in H. induction H as [|[s g] [k v] l m [H _] _ IH]; [reflexivity|]. cbn [map fst] in *. rewrite H, IH. reflexivity.
Qed.

Lemma NoDup_VStr l : NoDup l -> NoDup (map VStr l).
Proof.
  induction 1 as [|s l Hs _ IH]; cbn [map]; constructor; [|exact IH]. intros Hin. apply in_map_iff in Hin.
  destruct Hin as [t [[= ->] Ht]]. contradiction.
Qed.

(** The dict of an instance reads like the parameters, for the attributes of the element. *)
Lemma init_reads_like E l defaults params s class key el :
  NoDup (map fst l) -> default_values E false l = Ok defaults -> In s (map fst l) -> ~ In (el_key_attr el) (map fst l) ->
  (forall s g, In (s, g) l -> sget s params = None -> exists q, defined_as E g q /\ p_default q = VNone /\ p_constant q = VNone) ->
  exists attrs, set_key el key
      (VObj class (attributes (fun default s => match sget s params with Some v => v | None => default end) defaults))
    = VObj class attrs
  /\ (sget s (strs attrs) = sget s params \/ sget s params = None /\ sget s (strs attrs) = Some VNone).
Proof.
  intros Hnd Hd Hs Hka Habs.
  set (f := fun default s => match sget s params with Some v => v | None => default end).
  assert (Hget : aget s (attributes f defaults) = sget s params \/ sget s params = None /\ aget s (attributes f defaults) = Some VNone).
  { assert (Hk := defaults_keys E l defaults Hd). rewrite attributes_get by (rewrite Hk; apply NoDup_VStr, Hnd).
    assert (Hall := default_values_all E l defaults Hd).
    assert (Hex : exists g d, In (s, g) l /\ sget s defaults = Some d /\ exists q, defined_as E g q /\ d = if is_none (p_default q) then p_constant q else p_default q).
    { clear - Hall Hs. induction Hall as [|[t g] [k d] l m [H1 [q [H2 H3]]] _ IH]; [destruct Hs|]. cbn [fst snd] in *. subst k. cbn [map fst] in Hs. cbn [sget].
      destruct (str_eqb_spec s t) as [->|Hne].
      - exists g, d. split; [left; reflexivity|]. split; [reflexivity|]. eauto.
      - destruct Hs as [Hs|Hs]; [congruence|]. destruct (IH Hs) as [g' [d' [I1 [I2 I3]]]]. exists g', d'. split; [right; exact I1|]. auto. }
    destruct Hex as [g [d [Hin [Hsd [q [Hq Hdq]]]]]]. rewrite Hsd. cbn [option_map]. unfold f.
    destruct (sget s params) as [v|] eqn:Hp; [left; reflexivity|]. right. split; [reflexivity|].
    destruct (Habs s g Hin Hp) as [q' [Hq' [H1 H2]]]. assert (q' = q).
    { apply fparams_defined in Hq, Hq'. congruence. }
    subst q'. rewrite H1, H2 in Hdq. cbn in Hdq. congruence. }
  assert (Hka' : forall k' (a : list (str * val)), aget s (aset (el_key_attr el) k' a) = aget s a).
  { intros k' a. apply aset_get_other. intros ->. contradiction. }
  assert (Hset : forall a, exists a', set_key el key (VObj class a) = VObj class a' /\ aget s a' = aget s a).
  { intros a. unfold set_key.
    destruct key, (el_key_attr el) as [|c key_attr] eqn:Hk; eexists; (split; [reflexivity|]); try reflexivity; apply Hka'. }
  destruct (Hset (attributes f defaults)) as [a' [H1 H2]]. exists a'. split; [exact H1|]. rewrite sget_strs, H2. exact Hget.
Qed.

(** What the class statement computes from a polymorphic schema. *)
Lemma variants_find E vs l y i defn :
  each (fun vd => do items <- default_values E false (snd vd); Ok (fst vd, VDict false items)) vs = Ok l ->
  find (fun vd => veq (e_local E) (fst vd) y) vs = Some (i, defn) ->
  exists items, default_values E false defn = Ok items /\ dget (e_local E) y l = Some (VDict false items).
Proof.
  revert l. induction vs as [|[j dj] vs IH]; intros l H Hf; [discriminate|]. cbn [each fst snd] in H. cbn [find fst] in Hf.
  destruct (default_values E false dj) as [items|x] eqn:Hd; [|discriminate]. cbn [bind] in H.
  destruct (each _ vs) as [m|x] eqn:He; [|discriminate]. cbn [bind] in H. apply ok_inj in H. subst l. cbn [dget].
  destruct (veq (e_local E) j y) eqn:Hj.
  - injection Hf as -> ->. eauto.
  - apply (IH m eq_refl Hf).
Qed.

Lemma absent_sget (l : list (val * val)) s : sget s l = None -> ~ In (VStr s) (map fst l).
Proof.
  induction l as [|[k v] l IH]; cbn [sget map fst In]; [tauto|]. intros H.
  destruct k; try (intros [Hk|Hk]; [discriminate|]; revert Hk; apply IH, H).
  destruct (str_eqb_spec s s0) as [->|Hne]; [discriminate|]. intros [Hk|Hk]; [congruence|]. revert Hk. apply IH, H.
Qed.

Lemma element_reverts E p k el : well_keyed p k -> belongs E p k el -> null_when_absent E k ->
  match k with KStructure (SPoly (Fld q _) _) _ _ => p_instantiator q = None /\ p_name q <> Some [] | _ => True end ->
  reverts E p k.
Proof.
  intros Hwk [[class [impl [key_attr Hdef]]] [[i [Hi Hinst]] [[e [He Hext]] Hka]]] Habs Hon.
  unfold define_element in Hdef. destruct (element_attrs E (Fld p k)) as [[on attrs]|x] eqn:Ha; [|discriminate].
  cbn [bind fst snd] in Hdef. apply ok_inj in Hdef.
  split.
  2: { destruct k; try exact I. destruct d as [|[u|q kd] vs]; try exact I; [|apply Hon].
       destruct Hwk as [_ [q [kd [name [H _]]]]]. discriminate. }
  rewrite Hi. exists e. split; [exact He|]. intros v key w Hv Hp Hw. rewrite Hinst in Hw. rewrite Hext.
  assert (Hscal : (forall d b o, k <> KStructure d b o) -> w <> VNone /\ exists v', element_extract el w = Ok v' /\ reads_like E k v v').
  { intros Hns.
    assert (Hname : exists name, p_name p = Some name /\ on = None /\ attrs = [(VStr name, p_default p)]).
    { unfold element_attrs in Ha. destruct k; try (exfalso; eapply Hns; reflexivity);
        (destruct (p_name p) as [[|c name]|]; [discriminate| |discriminate]; injection Ha as <- <-; eauto). }
    destruct Hname as [name [Hn [-> ->]]].
    assert (Hw' : (do instance <- element_init E el (el_class el) [(VStr name, v)]; Ok (set_key el key instance)) = Ok w).
    { unfold element_instantiate in Hw. subst el. cbn [el_schema] in Hw. destruct k; try (exfalso; eapply Hns; reflexivity);
        rewrite Hn in Hw; exact Hw. }
    clear Hw. unfold element_init in Hw'. destruct (sget _ _); [discriminate|]. subst el. cbn [el_on el_attrs el_class bind] in Hw'.
    apply ok_inj in Hw'. cbn [attributes flat_map fst snd sget app] in Hw'. rewrite str_eqb_refl in Hw'.
    assert (Hka' : key_attr <> name).
    { intros ->. apply Hka. cbn [el_key_attr]. destruct k; try (exfalso; eapply Hns; reflexivity); exact Hn. }
    assert (Hset : exists a', w = VObj class a' /\ aget name a' = Some v).
    { subst w. unfold set_key. cbn [el_key_attr].
      assert (Hg : forall c r, key_attr = c :: r -> aget name (aset (c :: r) key [(name, v)]) = Some v).
      { intros c r Hc. rewrite aset_get_other by congruence. cbn. rewrite str_eqb_refl. reflexivity. }
      destruct key_attr as [|c r].
      - destruct key; eexists; (split; [reflexivity|]); cbn; rewrite str_eqb_refl; reflexivity.
      - specialize (Hg c r eq_refl). destruct key; eexists; (split; [reflexivity|]); try exact Hg; cbn; rewrite str_eqb_refl; reflexivity. }
    destruct Hset as [a' [-> Hg]]. split; [discriminate|]. exists v. split.
    - unfold element_extract. cbn [el_schema]. destruct k; try (exfalso; eapply Hns; reflexivity); rewrite Hn, Hg; reflexivity.
    - destruct k; try (exfalso; eapply Hns; reflexivity); reflexivity. }
  destruct k; try (apply Hscal; discriminate). clear Hscal.
  destruct Hp as [items [defn [-> [Hnd [Huse [Hkeys Hmiss]]]]]].
  assert (Hinit : exists cl defaults, default_values E false defn = Ok defaults
            /\ w = set_key el key (VObj cl (attributes (fun default s => match sget s items with Some v => v | None => default end) defaults))
            /\ NoDup (map fst defn) /\ definition_of d defn /\ (forall s, discriminator d s -> sget s items <> None)).
  { unfold element_instantiate in Hw. rewrite <- Hdef in Hw. cbn [el_schema as_dict el_on] in Hw.
    unfold element_attrs in Ha. destruct Huse as [-> |[q [kd [vs [name [y [j [-> [Hq [Hy [Hty [Hhy Hf]]]]]]]]]]]].
    - cbn [generate_defaults is_none] in Ha. destruct (default_values E false defn) as [defaults|x] eqn:Hd; [|discriminate].
      cbn [bind] in Ha. apply ok_inj in Ha. injection Ha as <- <-. unfold element_init in Hw.
      destruct (sget _ items); [discriminate|]. cbn [el_on el_attrs bind] in Hw. apply ok_inj in Hw. rewrite Hdef in Hw. subst w.
      eexists _, defaults. split; [reflexivity|]. split; [reflexivity|]. split; [apply Hwk|]. split; [reflexivity|].
      intros s [].
    - cbn [generate_defaults is_none] in Ha. destruct (each _ vs) as [l|x] eqn:Hl; [|discriminate].
      cbn [bind fparams] in Ha. rewrite Hq in Ha. apply ok_inj in Ha. injection Ha as <- <-.
      destruct name as [|c name]; [exfalso; apply (proj2 Hon), Hq|]. rewrite Hy, Hhy in Hw. unfold element_init in Hw.
      destruct (sget $"self" items); [discriminate|]. cbn [el_on el_attrs bind] in Hw. rewrite Hy, Hhy in Hw.
      destruct (variants_find E vs l y j defn Hl Hf) as [defaults [Hd Hg]]. rewrite Hg in Hw. cbn [bind] in Hw. apply ok_inj in Hw.
      rewrite Hdef in Hw. subst w.
      eexists _, defaults. split; [exact Hd|]. split; [reflexivity|]. apply find_some in Hf. destruct Hf as [Hin _].
      split; [|split; [exists j; exact Hin|]].
      + destruct Hwk as [_ [q' [kd' [name' [_ [_ [_ [_ Hall]]]]]]]]. rewrite Forall_forall in Hall. apply (Hall _ Hin).
      + intros s Hs. cbn in Hs. rewrite Hq in Hs. injection Hs as <-. rewrite Hy. discriminate. }
  destruct Hinit as [cl [defaults [Hd [-> [Hnd' [Hdo Hdisc]]]]]].
  assert (Hlike : forall s, In s (map fst defn) -> exists attrs,
      set_key el key (VObj cl (attributes (fun default s => match sget s items with Some v => v | None => default end) defaults)) = VObj cl attrs
      /\ (sget s (strs attrs) = sget s items \/ sget s items = None /\ sget s (strs attrs) = Some VNone)).
  { intros s Hs. apply (init_reads_like E defn defaults items s cl key el Hnd' Hd Hs).
    - intros Hin. apply Hka. cbn [attribute]. exists defn. split; [exact Hdo|exact Hin].
    - intros t g Hin Ht. destruct (Hmiss t g Hin (absent_sget items t Ht)) as [q [Hq Hor]]. exists q. split; [exact Hq|].
      apply (Habs defn t g q Hdo Hin); [|exact Hq|exact Hor]. intros Hdi. exact (Hdisc t Hdi Ht). }
  assert (Hobj : exists attrs, set_key el key (VObj cl (attributes (fun default s => match sget s items with Some v => v | None => default end) defaults)) = VObj cl attrs).
  { unfold set_key. destruct key, (el_key_attr el); eexists; reflexivity. }
  destruct Hobj as [attrs' Hobj]. rewrite Hobj. split; [discriminate|]. exists (VDict false (strs attrs')). split.
  - unfold element_extract. rewrite <- Hdef. cbn [el_schema]. reflexivity.
  - exists items, (strs attrs'). split; [reflexivity|]. split; [reflexivity|]. intros defn' s Huse' Hs.
    assert (defn' = defn).
    { destruct Huse as [-> |[q [kd [vs [name [y [j [-> [Hq [Hy [_ [_ Hf]]]]]]]]]]]];
        destruct Huse' as [H |[q' [kd' [vs' [name' [y' [j' [H [Hq' [Hy' [_ [_ Hf']]]]]]]]]]]]; try discriminate H.
      - congruence.
      - injection H as <- <- <-. assert (name' = name) by congruence. subst name'. assert (y' = y) by congruence. subst y'. congruence. }
    subst defn'. destruct (Hlike s Hs) as [attrs'' [H1 H2]]. assert (attrs'' = attrs') by congruence. subst attrs''. exact H2.
Qed.

Lemma everywhere_both (P Q : params -> kind -> Prop) f : everywhere P f -> everywhere Q f -> everywhere (fun p k => P p k /\ Q p k) f.
Proof.
  induction f as [i|p k IH] using field_ind'; intros Hp Hq; [constructor|].
  constructor; [split; [exact (everywhere_top _ _ _ Hp)|exact (everywhere_top _ _ _ Hq)]|].
  intros g Hg. apply (IH g Hg); eapply everywhere_sub; eauto.
Qed.

Lemma elements_revert E f : throughout E well_keyed f -> throughout E (element_or_undone E) f -> throughout E (reverts E) f.
Proof.
  intros [Hf Hu] [Hx Hxu].
  assert (H : forall p k, well_keyed p k /\ element_or_undone E p k -> reverts E p k).
  { intros p k [Hwk [[H1 H2]|[[el Hel] [Hna Hon]]]]; [|eapply element_reverts; eauto].
    split; [|exact H2]. destruct (p_instantiator p) as [i|]; [|exact H1]. destruct H1 as [e [He H1]].
    exists e. split; [exact He|]. intros x key' y Hn Hp Hi. destruct (H1 x key' y Hn Hi) as [H3 H4]. split; [exact H3|].
    exists x. split; [exact H4|]. destruct k; try reflexivity. destruct Hp as [items [defn [-> _]]]. exists items, items. auto. }
  split; [eapply everywhere_impl; [exact H|apply everywhere_both; assumption]|].
  intros i g Hi. eapply everywhere_impl; [exact H|apply everywhere_both; eauto].
Qed.

(** @prop C71 An element that was unserialized serializes, in every format, to exactly what the
    processed value serializes to: nothing of the value is lost or altered in the object.  The schema
    may contain elements at any depth, plain and polymorphic.  Missing: values with null entries, and
    schemas with a key that may be absent though it has a default or a constant (both refuted below),
    and unions. *)
Lemma element_round_trip_partial :
  forall E desc recon n reg el value v w format,
    throughout E well_keyed (el_schema el) -> throughout E (null_free E) (el_schema el) ->
    throughout E straight (el_schema el) -> throughout E no_union (el_schema el) ->
    throughout E (element_or_undone E) (el_schema el) ->
    process_gen E desc recon n (el_schema el) false Inbound true [] value = Ok v -> no_null_entries v ->
    element_unserialize E desc recon n el value = Ok w ->
    element_serialize E desc recon n reg el w format = field_serialize E desc recon n reg (el_schema el) v format.
Proof.
  intros E desc recon n reg el value v w format H1 H2 H3 H4 H5 Hv Hnn Hw.
  unfold element_unserialize in Hw. rewrite Hv in Hw. cbn [bind] in Hw.
  assert (Hc := process_sound E desc recon n _ _ _ _ _ H1 H2 Hv).
  assert (Hx := extract_instantiate_reverts E n true _ v VNone w H1 H3 H4 (elements_revert E _ H1 H5) Hc Hnn Hw).
  unfold element_serialize. rewrite Hx. reflexivity.
Qed.

(** @example
(* A document with an author, itself an element, and a polymorphic attachment. *)
Definition named71 (s : str) (i : nat) : params :=
  {| p_name := Some s; p_nonnull := false; p_required := false; p_ignore_null := false;
     p_default := VNone; p_constant := VNone; p_preprocessor := None; p_extractor := Some i;
     p_instantiator := Some i; p_title := VNone; p_description := VNone; p_notes := VNone;
     p_aspects := [] |}.
Definition text71 : field := Fld p0 (KText None None None true).
Definition author71 : field := Fld (named71 $"author" 1) (KStructure (SPlain [($"id", text71); ($"age", Fld p0 (KInteger None None))]) true None).
Definition on71 : params := p_named $"type".
Definition types71 : kind := KEnumeration [VStr $"link"; VStr $"file"] None.
Definition attachment71 : field := Fld (named71 $"attachment" 2)
  (KStructure (SPoly (Fld on71 types71)
     [(VStr $"link", [($"url", text71); ($"type", Fld (with_constant on71 (VStr $"link")) types71)]);
      (VStr $"file", [($"size", Fld p0 (KInteger None None)); ($"type", Fld (with_constant on71 (VStr $"file")) types71)])]) true None).
Definition document71 : field := Fld (named71 $"document" 3) (KStructure (SPlain [($"title", text71); ($"author", author71); ($"attachment", attachment71)]) true None).
Definition element71 (class : nat) (f : field) (impl : list (val * nat)) : element :=
  match define_element env0 class f impl $"key" with Ok el => el
  | Raise _ => {| el_class := 0; el_schema := f; el_on := None; el_attrs := []; el_impl := []; el_key_attr := [] |} end.
Definition author_el := element71 11 author71 [].
Definition attachment_el := element71 12 attachment71 [(VStr $"file", 14%nat)].
Definition document_el := element71 13 document71 [].
Definition env71 : env := {|
  e_pre := e_pre env0;
  e_ext := fun i v => element_extract (match i with 1%nat => author_el | 2%nat => attachment_el | _ => document_el end) v;
  e_inst := fun i v key => element_instantiate env0 (match i with 1%nat => author_el | 2%nat => attachment_el | _ => document_el end) v key;
  e_pattern := e_pattern env0; e_local := e_local env0; e_pad := true; e_udigit := e_udigit env0; e_uword := e_uword env0;
  e_ulower := e_ulower env0; e_import := e_import env0; e_identify := e_identify env0; e_undef := e_undef env0;
  e_str := e_str env0; e_impl := e_impl env0; e_schemas := e_schemas env0; e_compile := e_compile env0; e_repr := e_repr env0;
     e_surrogate := e_surrogate env0; e_identity := e_identity env0 |}.
(* The author is of class 11, the attachment, of the subclass for files, of class 14; both carry the
   key they were found under; the author's age is null. *)
Example C71_example :
  let value := VDict false [(VStr $"title", VStr $"A"); (VStr $"author", VDict false [(VStr $"id", VStr $"x")]);
                            (VStr $"attachment", VDict false [(VStr $"type", VStr $"file"); (VStr $"size", VInt 3)])] in
  let w := VObj 13 [($"title", VStr $"A");
                    ($"author", VObj 11 [($"id", VStr $"x"); ($"age", VNone); ($"key", VStr $"author")]);
                    ($"attachment", VObj 14 [($"size", VInt 3); ($"type", VStr $"file"); ($"key", VStr $"attachment")])] in
  element_unserialize env71 nodesc norecon 0 document_el value = Ok w
  /\ element_serialize env71 nodesc norecon 0 [] document_el w None
     = Ok (VDict false [(VStr $"title", VStr $"A"); (VStr $"author", VDict false [(VStr $"id", VStr $"x")]);
                        (VStr $"attachment", VDict false [(VStr $"size", VInt 3); (VStr $"type", VStr $"file")])]).
Proof. vm_compute. auto. Qed.
(* The hypotheses on the schema hold. *)
Lemma undefined71 (P : params -> kind -> Prop) f : everywhere P f -> throughout env71 P f.
Proof. intros H. split; [exact H|]. intros i g Hi. discriminate Hi. Qed.
Ltac everywhere71 :=
  apply undefined71; unfold document71, author71, attachment71, text71;
  repeat match goal with
  | |- everywhere _ (Fld _ _) => constructor
  | |- forall g, In g (subfields _) -> _ =>
      let g := fresh in let H := fresh in intros g H; vm_compute in H;
      repeat (destruct H as [H|H]; [subst g|]); [..|contradiction H]
  end.
Example C71_hypotheses :
  let f := el_schema document_el in
  throughout env71 well_keyed f /\ throughout env71 (null_free env71) f /\ throughout env71 straight f
  /\ throughout env71 no_union f /\ throughout env71 (element_or_undone env71) f.
Proof.
  cbn zeta. change (el_schema document_el) with document71. split; [|split; [|split; [|split]]].
  - everywhere71; try exact I.
    all: try (split; [|exact I]; repeat constructor; cbn; intuition discriminate).
    split; [reflexivity|]. exists on71, types71, $"type". repeat split.
    repeat constructor; cbn; intuition discriminate.
  - everywhere71; (split; [intros i w H; discriminate H|intros H; discriminate H]).
  - everywhere71; try exact I; try (split; [reflexivity|exact I]).
    split; [reflexivity|]. intros vd [<- |[<- |[]]]; reflexivity.
  - everywhere71; exact I.
  - everywhere71; try (left; split; [reflexivity|exact I]).
    all: right; split; [|split].
    all: try exact I; try (split; [reflexivity|discriminate]).
    1: exists document_el. 3: exists author_el. 5: exists attachment_el.
    all: try (split; [eexists _, _, _; reflexivity|]; split; [eexists; split; [reflexivity|]; intros; reflexivity|];
      split; [eexists; split; [reflexivity|]; intros; reflexivity|]).
    all: try (intros [defn [-> H]]; cbn in H; intuition discriminate).
    all: try (intros defn s g q Hd H _ Hq _; cbn in Hd; subst defn; cbn in H;
      repeat (destruct H as [H|H]; [injection H as <- <-; cbn in Hq; subst q; split; reflexivity|]); contradiction).
    + intros [defn [Hd H]]. cbn in Hd. destruct Hd as [i [[= <- <-] |[[= <- <-] |[]]]]; cbn in H; intuition discriminate.
    + intros defn s g q [i Hi] H Hd Hq _. cbn in Hi, Hd.
      assert (Hs : s <> $"type") by (intros ->; apply Hd; reflexivity).
      destruct Hi as [[= <- <-] |[[= <- <-] |[]]]; cbn in H; destruct H as [[= <- <-]|[[= <- <-]|[]]]; try congruence;
        cbn in Hq; subst q; split; reflexivity.
Qed.
@end *)

(** @prop C71 Conversely, the serialized form of such an element is unserialized to an equal element:
    the same classes with the same attributes. *)
Lemma element_serialized_round_trip_partial :
  forall E desc recon n reg el value v w,
    throughout E well_keyed (el_schema el) -> throughout E (null_free E) (el_schema el) ->
    throughout E straight (el_schema el) -> throughout E no_union (el_schema el) ->
    throughout E (element_or_undone E) (el_schema el) ->
    throughout E (tidy E) (el_schema el) -> throughout E (portable E) (el_schema el) ->
    (forall k x, meets E (el_schema el) v k x -> faithful E desc recon k x) ->
    process_gen E desc recon n (el_schema el) false Inbound true [] value = Ok v -> no_null_entries v ->
    element_unserialize E desc recon n el value = Ok w ->
    exists s, element_serialize E desc recon n reg el w None = Ok s
           /\ element_unserialize E desc recon n el s = Ok w.
Proof.
  intros E desc recon n reg el value v w H1 H2 H3 H4 H5 H6 H7 H8 Hv Hnn Hw.
  assert (Hc := process_sound E desc recon n _ _ _ _ _ H1 H2 Hv).
  destruct (serialization_round_trip_partial E desc recon n _ v H1 H6 H7 Hc H8) as [s [Ho Hi]].
  exists s. split.
  - rewrite (element_round_trip_partial E desc recon n reg el value v w None H1 H2 H3 H4 H5 Hv Hnn Hw).
    unfold field_serialize. rewrite Ho. reflexivity.
  - unfold element_unserialize in *. rewrite Hi. rewrite Hv in Hw. exact Hw.
Qed.

(** @example
(* The document of the previous example, from its serialized form. *)
Example C71_again :
  let w := VObj 13 [($"title", VStr $"A");
                    ($"author", VObj 11 [($"id", VStr $"x"); ($"age", VNone); ($"key", VStr $"author")]);
                    ($"attachment", VObj 14 [($"size", VInt 3); ($"type", VStr $"file"); ($"key", VStr $"attachment")])] in
  (do s <- element_serialize env71 nodesc norecon 0 [] document_el w None;
   element_unserialize env71 nodesc norecon 0 document_el s) = Ok w.
Proof. vm_compute. auto. Qed.
Example C71_portable :
  throughout env71 (tidy env71) document71 /\ throughout env71 (portable env71) document71.
Proof.
  split.
  - everywhere71; repeat split; try discriminate; intros x [[<- |[<- |[]]]|[]]; reflexivity.
  - everywhere71; try exact I. eexists _, _. split; reflexivity.
Qed.
@end *)

Lemma attributes_keys value l s : In s (map fst (attributes value l)) -> In (VStr s) (map fst l).
Proof.
  induction l as [|[k d] l IH]; [intros []|].
  change (attributes value ((k, d) :: l)) with (match k with VStr t => [(t, value d t)] | _ => [] end ++ attributes value l).
  rewrite map_app, in_app_iff. intros [H|H]; [|right; apply IH, H]. destruct k; cbn in H; try contradiction.
  destruct H as [-> |[]]. left. reflexivity.
Qed.

Lemma set_key_spec el key class a : exists a', set_key el key (VObj class a) = VObj class a'
  /\ (forall s, s <> el_key_attr el -> aget s a' = aget s a)
  /\ (forall s, In s (map fst a') -> In s (map fst a) \/ s = el_key_attr el /\ el_key_attr el <> [] /\ key <> VNone)
  /\ (el_key_attr el <> [] -> key <> VNone -> aget (el_key_attr el) a' = Some key).
Proof.
  unfold set_key. destruct (el_key_attr el) as [|c r] eqn:Hk.
  - exists a. split; [destruct key; reflexivity|]. repeat split; auto; congruence.
  - destruct (is_none key) eqn:Hn.
    + destruct key; try discriminate. exists a. repeat split; auto; congruence.
    + exists (aset (c :: r) key a). split; [destruct key; try discriminate; reflexivity|]. split; [|split].
      * intros s Hs. apply aset_get_other. exact Hs.
      * intros s Hs. apply aset_keys in Hs. destruct Hs as [-> |Hs]; [right|left; exact Hs].
        split; [reflexivity|]. split; [discriminate|]. intros ->. discriminate.
      * intros _ _. apply aset_get_same.
Qed.

Lemma defaults_get E l defaults s g : NoDup (map fst l) -> default_values E false l = Ok defaults -> In (s, g) l ->
  exists q, defined_as E g q /\ sget s defaults = Some (fallback q).
Proof.
  intros Hnd Hd. apply default_values_all in Hd. revert Hnd.
  induction Hd as [|[t h] [k d] l m [H1 [q [H2 H3]]] _ IH]; [intros _ []|]. intros Hnd Hin. inversion Hnd as [|? ? Ht Hnd']; subst.
  cbn [fst snd] in *. subst k. cbn [sget]. destruct Hin as [[= -> ->]|Hin].
  - rewrite str_eqb_refl. exists q. split; [exact H2|]. rewrite H3. unfold fallback. destruct (p_default q); reflexivity.
  - destruct (str_eqb_spec s t) as [->|Hne]; [|apply IH; assumption].
    exfalso. apply Ht. apply in_map_iff. exists (t, g). auto.
Qed.

Lemma init_spec E el class defaults defn items key w :
  NoDup (map fst defn) -> default_values E false defn = Ok defaults ->
  w = set_key el key (VObj class (attributes (fun default s => match sget s items with Some v => v | None => default end) defaults)) ->
  exists attrs, w = VObj class attrs
    /\ (forall s g, In (s, g) defn -> s <> el_key_attr el -> exists q, defined_as E g q
          /\ aget s attrs = Some match sget s items with Some v => v | None => fallback q end)
    /\ (forall s, In s (map fst attrs) -> In s (map fst defn) \/ s = el_key_attr el)
    /\ (el_key_attr el <> [] -> key <> VNone -> aget (el_key_attr el) attrs = Some key).
Proof.
  intros Hnd Hd ->. destruct (set_key_spec el key class (attributes (fun default s => match sget s items with Some v => v | None => default end) defaults))
    as [attrs [H1 [H2 [H3 H4]]]].
  assert (Hkeys := defaults_keys E defn defaults Hd).
  exists attrs. split; [exact H1|]. split; [|split; [|exact H4]].
  - intros s g Hin Hs. destruct (defaults_get E defn defaults s g Hnd Hd Hin) as [q [Hq Hg]]. exists q. split; [exact Hq|].
    rewrite H2 by exact Hs. rewrite attributes_get by (rewrite Hkeys; apply NoDup_VStr, Hnd). rewrite Hg. reflexivity.
  - intros s Hs. destruct (H3 s Hs) as [Hs'|[Hs' _]]; [left|right; exact Hs'].
    apply attributes_keys in Hs'. rewrite Hkeys in Hs'. apply in_map_iff in Hs'. destruct Hs' as [t [[= ->] Ht]]. exact Ht.
Qed.

(** @prop C71 An element of a plain structure has one attribute for each key of the structure, the
    value given or else the default or constant of the field, and besides these only the attribute of
    the key, which is the key it was instantiated with. *)
Lemma plain_instance_exact :
  forall E class p l strict ko impl key_attr el ordered items key w,
    define_element E class (Fld p (KStructure (SPlain l) strict ko)) impl key_attr = Ok el ->
    NoDup (map fst l) ->
    element_instantiate E el (VDict ordered items) key = Ok w ->
    exists attrs, w = VObj class attrs
      /\ (forall s g, In (s, g) l -> s <> key_attr -> exists q, defined_as E g q
            /\ aget s attrs = Some match sget s items with Some v => v | None => fallback q end)
      /\ (forall s, In s (map fst attrs) -> In s (map fst l) \/ s = key_attr)
      /\ (key_attr <> [] -> key <> VNone -> aget key_attr attrs = Some key).
Proof.
  intros E class p l strict ko impl key_attr el ordered items key w Hel Hnd Hw.
  unfold define_element, element_attrs in Hel. cbn [generate_defaults is_none] in Hel.
  destruct (default_values E false l) as [defaults|x] eqn:Hd; [|discriminate]. cbn [bind fst snd] in Hel. apply ok_inj in Hel.
  unfold element_instantiate, element_init in Hw. rewrite <- Hel in Hw. cbn [el_schema as_dict el_on el_class el_attrs bind] in Hw.
  destruct (sget _ items); [discriminate|]. cbn [bind] in Hw. apply ok_inj in Hw. rewrite Hel in Hw.
  assert (Hk : el_key_attr el = key_attr) by (rewrite <- Hel; reflexivity). rewrite <- Hk.
  apply (init_spec E el class defaults l items key w Hnd Hd). symmetry. exact Hw.
Qed.

(** @example
Example C71_plain :
  element_instantiate env0 author_el (VDict false [(VStr $"id", VStr $"x"); (VStr $"other", VInt 1)]) (VInt 5)
  = Ok (VObj 11 [($"id", VStr $"x"); ($"age", VNone); ($"key", VInt 5)]).
Proof. vm_compute. reflexivity. Qed.
@end *)

(** @prop C71 An element of a polymorphic structure is of the subclass declared for the identity in its
    value, of the class itself when there is none, and has the attributes of that variant; an identity
    without variant is a KeyError. *)
Lemma polymorphic_instance_exact :
  forall E class p q kd vs strict ko impl key_attr el on ordered items ident key,
    define_element E class (Fld p (KStructure (SPoly (Fld q kd) vs) strict ko)) impl key_attr = Ok el ->
    p_name q = Some on -> on <> [] -> sget on items = Some ident -> hashable ident = true -> sget $"self" items = None ->
    match find (fun vd => veq (e_local E) (fst vd) ident) vs with
    | None => element_instantiate E el (VDict ordered items) key = py KeyError
    | Some (_, defn) => NoDup (map fst defn) ->
        exists attrs,
          element_instantiate E el (VDict ordered items) key
            = Ok (VObj match find (fun ic => veq (e_local E) (fst ic) ident) impl with Some (_, c) => c | None => class end attrs)
          /\ (forall s g, In (s, g) defn -> s <> key_attr -> exists q', defined_as E g q'
                /\ aget s attrs = Some match sget s items with Some v => v | None => fallback q' end)
          /\ (forall s, In s (map fst attrs) -> In s (map fst defn) \/ s = key_attr)
          /\ (key_attr <> [] -> key <> VNone -> aget key_attr attrs = Some key)
    end.
Proof.
  intros E class p q kd vs strict ko impl key_attr el on ordered items ident key Hel Hq Hon Hid Hh Hself.
  unfold define_element, element_attrs in Hel. cbn [generate_defaults is_none] in Hel.
  destruct (each _ vs) as [l|x] eqn:Hl; [|discriminate]. cbn [bind fst snd fparams] in Hel. rewrite Hq in Hel. apply ok_inj in Hel.
  cbn [fst snd] in Hel. destruct on as [|c on]; [congruence|].
  assert (Hgen : element_instantiate E el (VDict ordered items) key =
    do defaults <- match dget (e_local E) ident l with Some (VDict _ l) => Ok l | Some _ => outside | None => py KeyError end;
    Ok (set_key el key (VObj (class_of E el ident) (attributes (fun default s => match sget s items with Some v => v | None => default end) defaults)))).
  { unfold element_instantiate, element_init. rewrite <- Hel at 1. cbn [el_schema as_dict]. rewrite <- Hel at 1. cbn [el_on].
    rewrite Hid, Hh, Hself. rewrite <- Hel at 1. cbn [el_on]. rewrite Hid, Hh. rewrite <- Hel at 1. cbn [el_attrs].
    destruct (dget (e_local E) ident l) as [[]|]; reflexivity. }
  rewrite Hgen. clear Hgen.
  destruct (find _ vs) as [[i defn]|] eqn:Hf.
  - intros Hnd. destruct (variants_find E vs l ident i defn Hl Hf) as [defaults [Hd Hg]]. rewrite Hg. cbn [bind].
    destruct (init_spec E el (class_of E el ident) defaults defn items key _ Hnd Hd eq_refl) as [attrs [H1 H2]].
    exists attrs. rewrite H1. split.
    + unfold class_of. rewrite <- Hel. cbn [el_impl el_class]. reflexivity.
    + assert (Hk : el_key_attr el = key_attr) by (rewrite <- Hel; reflexivity). rewrite <- Hk. exact H2.
  - assert (Hn : dget (e_local E) ident l = None); [|rewrite Hn; reflexivity].
    clear - Hl Hf. revert l Hl. induction vs as [|[j dj] vs IH]; intros l Hl; cbn [each fst snd] in Hl; [apply ok_inj in Hl; subst; reflexivity|].
    cbn [find fst] in Hf. destruct (default_values E false dj) as [items|x] eqn:Hd; [|discriminate]. cbn [bind] in Hl.
    destruct (each _ vs) as [m|x] eqn:He; [|discriminate]. cbn [bind] in Hl. apply ok_inj in Hl. subst l. cbn [dget].
    destruct (veq (e_local E) j ident); [discriminate|]. apply IH; [exact Hf|reflexivity].
Qed.

(** @example
(* The subclass for files; the class itself for links; no variant. *)
Example C71_polymorphic :
  element_instantiate env0 attachment_el (VDict false [(VStr $"type", VStr $"file"); (VStr $"size", VInt 3)]) VNone
  = Ok (VObj 14 [($"size", VInt 3); ($"type", VStr $"file")])
  /\ element_instantiate env0 attachment_el (VDict false [(VStr $"type", VStr $"link")]) VNone
  = Ok (VObj 12 [($"url", VNone); ($"type", VStr $"link")])
  /\ element_instantiate env0 attachment_el (VDict false [(VStr $"type", VStr $"dir")]) VNone = py KeyError.
Proof. vm_compute. auto. Qed.
@end *)

(** @prop C71 An element of any other field holds the value as the attribute with the name of the
    field and gives it back; a field without name makes no element (ValueError), nor does anything
    that is not a field (TypeError). *)
Lemma scalar_element_exact :
  forall E class p k impl key_attr,
    (forall d strict ko, k <> KStructure d strict ko) ->
    match p_name p with
    | None | Some [] => define_element E class (Fld p k) impl key_attr = py ValueError
    | Some name => name <> $"self" -> name <> key_attr -> exists el,
        define_element E class (Fld p k) impl key_attr = Ok el
        /\ forall v key, exists attrs,
             element_instantiate E el v key = Ok (VObj class attrs)
             /\ aget name attrs = Some v
             /\ (forall s, In s (map fst attrs) -> s = name \/ s = key_attr)
             /\ (key_attr <> [] -> key <> VNone -> aget key_attr attrs = Some key)
             /\ element_extract el (VObj class attrs) = Ok v
    end
    /\ forall i, define_element E class (FUndef i) impl key_attr = py TypeError.
Proof.
  intros E class p k impl key_attr Hk. split; [|reflexivity].
  assert (Ha : element_attrs E (Fld p k) = match p_name p with Some (c :: name) => Ok (None, [(VStr (c :: name), p_default p)]) | _ => py ValueError end).
  { destruct k; try reflexivity. exfalso. eapply Hk. reflexivity. }
  unfold define_element. rewrite Ha. destruct (p_name p) as [[|c name]|] eqn:Hn; try reflexivity. intros Hself Hka.
  eexists. split; [reflexivity|]. intros v key. cbn [fst snd].
  set (el := {| el_class := class; el_schema := Fld p k; el_on := None; el_attrs := [(VStr (c :: name), p_default p)]; el_impl := impl; el_key_attr := key_attr |}).
  assert (Hi : element_instantiate E el v key = Ok (set_key el key (VObj class [(c :: name, v)]))).
  { unfold element_instantiate. cbn [el el_schema]. 
    assert (H : element_init E el (el_class el) [(VStr (c :: name), v)] = Ok (VObj class [(c :: name, v)])).
    { unfold element_init, el. cbn [el_on el_attrs el_class bind]. cbn [attributes flat_map fst snd app sget].
      destruct (str_eqb_spec $"self" (c :: name)) as [H|H]; [congruence|]. rewrite str_eqb_refl. reflexivity. }
    destruct k; try (rewrite Hn, H; reflexivity). exfalso. eapply Hk. reflexivity. }
  destruct (set_key_spec el key class [(c :: name, v)]) as [attrs [H1 [H2 [H3 H4]]]]. exists attrs. rewrite Hi, H1.
  change (el_key_attr el) with key_attr in *.
  assert (Hg : aget (c :: name) attrs = Some v).
  { rewrite H2 by exact Hka. cbn [aget]. rewrite str_eqb_refl. reflexivity. }
  split; [reflexivity|]. split; [exact Hg|]. split; [|split; [exact H4|]].
  - intros s Hs. destruct (H3 s Hs) as [[<- |[]]|[-> _]]; auto.
  - unfold element_extract. cbn [el el_schema]. destruct k; try (rewrite Hn, Hg; reflexivity). exfalso. eapply Hk. reflexivity.
Qed.

(** @example
Example C71_scalar :
  (do el <- define_element env0 3 (Fld (p_named $"size") (KInteger None None)) [] []; element_instantiate env0 el (VInt 7) VNone)
  = Ok (VObj 3 [($"size", VInt 7)])
  /\ define_element env0 3 (Fld p0 (KInteger None None)) [] [] = py ValueError.
Proof. vm_compute. auto. Qed.
@end *)

(** @prop C71 Only an element with a polymorphic schema has subclasses with an identity; the last one
    declared for an identity is the one used. *)
Lemma variant_exact :
  forall E base ident class,
    hashable ident = true ->
    match el_on base with
    | Some (_ :: _) => exists el, define_variant base ident class = Ok el
        /\ el_schema el = el_schema base /\ el_on el = el_on base /\ el_attrs el = el_attrs base
        /\ forall i, class_of E el i = if veq (e_local E) ident i then class else class_of E base i
    | _ => define_variant base ident class = py ValueError
    end.
Proof.
  intros E base ident class Hh. unfold define_variant. destruct (el_on base) as [[|c on]|]; try reflexivity. rewrite Hh.
  eexists. split; [reflexivity|]. repeat split. intros i. unfold class_of. cbn [el_impl find fst]. destruct (veq (e_local E) ident i); reflexivity.
Qed.

(** @example
Example C71_variant :
  option_map (fun el => class_of env0 el (VStr $"link"))
    (match define_variant attachment_el (VStr $"link") 15%nat with Ok el => Some el | Raise _ => None end) = Some 15%nat
  /\ class_of env0 attachment_el (VStr $"link") = 12%nat
  /\ define_variant author_el (VStr $"link") 15%nat = py ValueError.
Proof. vm_compute. auto. Qed.
@end *)

(** @prop C71 REFUTED for null entries: an entry that is null is dropped when the element is
    serialized. *)
Lemma element_round_trip_refuted :
  exists E el value v w s,
    process_gen E nodesc norecon 0 (el_schema el) false Inbound true [] value = Ok v
    /\ element_unserialize E nodesc norecon 0 el value = Ok w
    /\ element_serialize E nodesc norecon 0 [] el w None = Ok s /\ v = value /\ s <> value.
Proof.
  set (p := {| p_name := None; p_nonnull := false; p_required := false; p_ignore_null := false;
     p_default := VNone; p_constant := VNone; p_preprocessor := None; p_extractor := Some 0%nat;
     p_instantiator := Some 0%nat; p_title := VNone; p_description := VNone; p_notes := VNone; p_aspects := [] |}).
  set (el := {| el_class := 1; el_schema := Fld p (KStructure (SPlain [($"a", Fld p0 KBoolean)]) true None); el_on := None;
                el_attrs := [(VStr $"a", VNone)]; el_impl := []; el_key_attr := [] |}).
  exists {| e_pre := e_pre env0; e_ext := fun _ => element_extract el; e_inst := fun _ => element_instantiate env0 el;
     e_pattern := e_pattern env0; e_local := e_local env0; e_pad := true; e_udigit := e_udigit env0; e_uword := e_uword env0;
     e_ulower := e_ulower env0; e_import := e_import env0; e_identify := e_identify env0; e_undef := e_undef env0;
     e_str := e_str env0; e_impl := e_impl env0; e_schemas := e_schemas env0; e_compile := e_compile env0; e_repr := e_repr env0;
     e_surrogate := e_surrogate env0; e_identity := e_identity env0 |}, el,
     (VDict false [(VStr $"a", VNone)]), (VDict false [(VStr $"a", VNone)]), (VObj 1 [($"a", VNone)]), (VDict false []).
  vm_compute. repeat split; try reflexivity. discriminate.
Qed.

(** @prop C71 REFUTED for absent keys with a constant: the constant appears in the serialized form. *)
Lemma element_absent_constant_refuted :
  exists E el value w s,
    process_gen E nodesc norecon 0 (el_schema el) false Inbound true [] value = Ok value
    /\ element_unserialize E nodesc norecon 0 el value = Ok w
    /\ element_serialize E nodesc norecon 0 [] el w None = Ok s
    /\ value = VDict false [] /\ s = VDict false [(VStr $"a", VInt 1)].
Proof.
  set (p := {| p_name := None; p_nonnull := false; p_required := false; p_ignore_null := false;
     p_default := VNone; p_constant := VNone; p_preprocessor := None; p_extractor := Some 0%nat;
     p_instantiator := Some 0%nat; p_title := VNone; p_description := VNone; p_notes := VNone; p_aspects := [] |}).
  set (el := {| el_class := 1; el_schema := Fld p (KStructure (SPlain [($"a", Fld (p_const (VInt 1)) (KInteger None None))]) true None); el_on := None;
                el_attrs := [(VStr $"a", VInt 1)]; el_impl := []; el_key_attr := [] |}).
  exists {| e_pre := e_pre env0; e_ext := fun _ => element_extract el; e_inst := fun _ => element_instantiate env0 el;
     e_pattern := e_pattern env0; e_local := e_local env0; e_pad := true; e_udigit := e_udigit env0; e_uword := e_uword env0;
     e_ulower := e_ulower env0; e_import := e_import env0; e_identify := e_identify env0; e_undef := e_undef env0;
     e_str := e_str env0; e_impl := e_impl env0; e_schemas := e_schemas env0; e_compile := e_compile env0; e_repr := e_repr env0;
     e_surrogate := e_surrogate env0; e_identity := e_identity env0 |}, el,
     (VDict false []), (VObj 1 [($"a", VInt 1)]), (VDict false [(VStr $"a", VInt 1)]).
  vm_compute. repeat split; reflexivity.
Qed.

(** The value given to the instantiator at the top. *)
Lemma instantiate_top E n p k v key w :
  instantiate E n (Fld p k) v key = Ok w ->
  w = VNone \/ exists x, run_instantiator E p x key = Ok w.
Proof.
  rewrite instantiate_Fld. intros H.
  destruct k as [| | | | | | | | | | | |vf kf rk| |it mn mx u|[d|on vs] st ko| | | | |fs|fs|]; cbn [kmap sdef_map instantiate_body] in H;
    try (right; eexists; exact H).
  - destruct (is_none v); [left; apply ok_inj in H; congruence|]. destruct v; try discriminate H;
      (destruct (as_dict _) as [items|] in H; [|discriminate H]);
      destruct (make_all _ items) in H; try discriminate H; right; eexists; exact H.
  - destruct (is_none v); [left; apply ok_inj in H; congruence|]. destruct v; try discriminate H;
      (destruct (py_iter _) as [items|] in H; [|discriminate H]);
      destruct (make_all _ items) in H; try discriminate H; right; eexists; exact H.
  - destruct (is_none v); [left; apply ok_inj in H; congruence|]. destruct v; try discriminate H;
      (destruct (as_dict _) as [items|] in H; [|discriminate H]);
      destruct (make_all _ items) in H; try discriminate H; right; eexists; exact H.
  - destruct (is_none v); [left; apply ok_inj in H; congruence|]. cbn [fst] in H.
    assert (Hx : match fparams E on with
              | None => py AttributeError
              | Some q =>
                  match p_name q, as_dict v with
                  | None, _ => py (OtherError 0)
                  | _, None => py TypeError
                  | Some nm, Some items =>
                      match sget nm items with
                      | None => py KeyError
                      | Some ident =>
                          if truthy ident then
                            do defn <- variant E (map (fun vl => (fst vl, map (fun kf => (fst kf, (snd kf, instantiate E n (snd kf)))) (snd vl))) vs) ident;
                            do r <- make_all (make_entry E defn) items;
                            run_instantiator E p (VDict false r) key
                          else
                            match items with
                            | [] => run_instantiator E p (VDict false []) key
                            | (k0, _) :: _ =>
                                match find (fun vd => veq (e_local E) (fst vd) k0) (map (fun vl => (fst vl, map (fun kf => (fst kf, (snd kf, instantiate E n (snd kf)))) (snd vl))) vs) with
                                | Some _ => py AttributeError
                                | None => py KeyError
                                end
                            end
                      end
                  end
              end = Ok w) by (destruct v; try discriminate H; exact H).
    clear H. destruct (fparams E on) as [q|]; [|discriminate]. destruct (p_name q) as [nm|]; [|discriminate].
    destruct (as_dict v) as [items|]; [|discriminate]. destruct (sget nm items) as [ident|]; [|discriminate].
    destruct (truthy ident).
    + destruct (variant _ _ ident) as [defn|]; [|discriminate]. cbn [bind] in Hx.
      destruct (make_all _ items) as [r|]; [|discriminate]. right. eexists. exact Hx.
    + destruct items as [|[k0 ?] ?]; [right; eexists; exact Hx|]. destruct (find _ _); discriminate.
  - destruct (is_none v); [left; apply ok_inj in H; congruence|]. destruct v; try discriminate H;
      destruct (make_tuple _ _ _) in H; try discriminate H; right; eexists; exact H.
  - destruct key; discriminate.
Qed.

(** @prop C71 What an element class returns from unserialize, of a value or of a text, is null or an
    instance of the class or of one of its registered subclasses. *)
Lemma unserialized_instance :
  forall E desc recon n class p k impl key_attr el i w,
    define_element E class (Fld p k) impl key_attr = Ok el ->
    p_instantiator p = Some i -> (forall v key, e_inst E i v key = element_instantiate E el v key) ->
    (exists value, element_unserialize E desc recon n el value = Ok w)
    \/ (exists reg text format, element_unserialize_text E desc recon n reg el text format = Ok w) ->
    w = VNone \/ exists c attrs, w = VObj c attrs /\ (c = class \/ In c (map snd impl)).
Proof.
  intros E desc recon n class p k impl key_attr el i w Hel Hi He Hw.
  assert (Hs : el_schema el = Fld p k /\ el_class el = class /\ el_impl el = impl).
  { unfold define_element in Hel. destruct (element_attrs E (Fld p k)); [|discriminate]. apply ok_inj in Hel. subst el. auto. }
  destruct Hs as [Hs [Hc Him]].
  assert (Hv : exists v, instantiate E n (Fld p k) v VNone = Ok w).
  { destruct Hw as [[value Hw]|[reg [text [format Hw]]]].
    - unfold element_unserialize in Hw. rewrite Hs in Hw. destruct (process_gen _ _ _ _ _ _ _ _ _ _) as [v|]; [|discriminate]. exists v. exact Hw.
    - unfold element_unserialize_text in Hw. rewrite Hs in Hw. destruct (field_unserialize _ _ _ _ _ _ _ _) as [v|]; [|discriminate]. exists v. exact Hw. }
  destruct Hv as [v Hv]. apply instantiate_top in Hv. destruct Hv as [Hv|[x Hx]]; [left; exact Hv|].
  unfold run_instantiator in Hx. rewrite Hi in Hx. destruct (is_none x) eqn:Hn.
  { destruct x; try discriminate. apply ok_inj in Hx. left. congruence. }
  right. rewrite He in Hx. unfold element_instantiate in Hx.
  assert (Hinit : forall c items y, element_init E el c items = Ok y -> exists attrs, y = VObj c attrs).
  { intros c items y. unfold element_init. destruct (sget $"self" items); [discriminate|].
    match goal with |- (do defaults <- ?m; _) = _ -> _ => destruct m end; [|discriminate]. intros H. apply ok_inj in H. eexists. symmetry. exact H. }
  assert (Hcls : forall ident, class_of E el ident = class \/ In (class_of E el ident) (map snd impl)).
  { intros ident. unfold class_of. rewrite Him, Hc. destruct (find _ impl) as [[j c]|] eqn:Hf; [|left; reflexivity].
    apply find_some in Hf. right. exact (in_map snd _ _ (proj1 Hf)). }
  match type of Hx with (do instance <- ?m; _) = _ => destruct m as [y|] eqn:Hy; [|discriminate] end.
  cbn [bind] in Hx. apply ok_inj in Hx.
  assert (Hfin : exists c attrs, y = VObj c attrs /\ (c = class \/ In c (map snd impl))).
  { rewrite Hs in Hy. destruct k; try (destruct (p_name p); [|discriminate]; destruct (Hinit _ _ _ Hy) as [attrs ->]; exists (el_class el), attrs; auto).
    destruct (as_dict x) as [items|]; [|discriminate]. destruct (el_on el) as [[|c on]|].
    - destruct (Hinit _ _ _ Hy) as [attrs ->]. exists (el_class el), attrs. auto.
    - destruct (sget (c :: on) items) as [ident|]; [|discriminate]. destruct (hashable ident); [|discriminate].
      destruct (Hinit _ _ _ Hy) as [attrs ->]. exists (class_of E el ident), attrs. auto.
    - destruct (Hinit _ _ _ Hy) as [attrs ->]. exists (el_class el), attrs. auto. }
  destruct Hfin as [c [attrs [-> Hin]]]. destruct (set_key_spec el VNone c attrs) as [a' [H _]].
  exists c, a'. split; [congruence|exact Hin].
Qed.

(** @example
Example C71_unserialized_instance_example :
  let p := {| p_name := None; p_nonnull := false; p_required := false; p_ignore_null := false;
     p_default := VNone; p_constant := VNone; p_preprocessor := None; p_extractor := Some 0%nat;
     p_instantiator := Some 0%nat; p_title := VNone; p_description := VNone; p_notes := VNone; p_aspects := [] |} in
  let schema := Fld p (KStructure (SPlain [($"a", Fld p0 KBoolean)]) true None) in
  let el := {| el_class := 4; el_schema := schema; el_on := None;
               el_attrs := [(VStr $"a", VNone)]; el_impl := []; el_key_attr := [] |} in
  let E := {| e_pre := e_pre env0; e_ext := fun _ => element_extract el; e_inst := fun _ => element_instantiate env0 el;
     e_pattern := e_pattern env0; e_local := e_local env0; e_pad := true; e_udigit := e_udigit env0; e_uword := e_uword env0;
     e_ulower := e_ulower env0; e_import := e_import env0; e_identify := e_identify env0; e_undef := e_undef env0;
     e_str := e_str env0; e_impl := e_impl env0; e_schemas := e_schemas env0; e_compile := e_compile env0; e_repr := e_repr env0;
     e_surrogate := e_surrogate env0; e_identity := e_identity env0 |} in
  define_element E 4 schema [] [] = Ok el
  /\ (forall v key, e_inst E 0 v key = element_instantiate E el v key)
  /\ element_unserialize E nodesc norecon 0 el (VDict false [(VStr $"a", VBool true)]) = Ok (VObj 4 [($"a", VBool true)]).
Proof. split; [vm_compute; reflexivity|]. split; [reflexivity|vm_compute; reflexivity]. Qed.
@end *)

(** @prop C71 An element of a polymorphic schema cannot be constructed nor instantiated without an
    identity: KeyError. *)
Lemma polymorphic_without_identity :
  forall E class p q kd vs strict ko impl key_attr el on params c ordered key,
    define_element E class (Fld p (KStructure (SPoly (Fld q kd) vs) strict ko)) impl key_attr = Ok el ->
    p_name q = Some on -> on <> [] -> sget $"self" params = None -> sget on params = None ->
    element_init E el c params = py KeyError
    /\ element_instantiate E el (VDict ordered params) key = py KeyError.
Proof.
  intros E class p q kd vs strict ko impl key_attr el on params c ordered key Hel Hq Hon Hself Hnone.
  assert (Ho : el_on el = Some on /\ el_schema el = Fld p (KStructure (SPoly (Fld q kd) vs) strict ko)).
  { unfold define_element in Hel. destruct (element_attrs _ _) as [a|] eqn:Ha; [|discriminate]. apply ok_inj in Hel. subst el.
    cbn [el_on el_schema]. split; [|reflexivity]. unfold element_attrs in Ha.
    destruct (generate_defaults _ _ _ _) as [x|]; [|discriminate]. cbn [bind fparams] in Ha. rewrite Hq in Ha.
    destruct x; try discriminate. apply ok_inj in Ha. subst a. reflexivity. }
  destruct Ho as [Ho Hs]. unfold element_init, element_instantiate. rewrite Ho, Hs. destruct on as [|ch on]; [congruence|].
  cbn [as_dict]. rewrite Hself, Hnone. split; reflexivity.
Qed.

(** @example
Example C71_without_identity_example :
  (do el <- define_element env0 1 (Fld p0 (KStructure (SPoly (Fld (p_named $"kind") (KText None None None true))
               [(VStr $"x", [($"kind", Fld p0 (KText None None None true))])]) true None)) [] [];
   element_init env0 el 1 [(VStr $"a", VInt 1)]) = py KeyError.
Proof. vm_compute. reflexivity. Qed.
@end *)
