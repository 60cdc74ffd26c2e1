(** * Descriptions of fields (C43). *)
(* @imports Spec Demo ConSpec DescSpec *)
From Verif Require Import PyBaseFacts Induct Demo ProcessFacts StructFacts ConFacts CloneFacts ConProofs DescFacts ScalarProofs.

Lemma reconstruct_dict E n items g : cp E n (VDict false (strs items)) = Ok (VField g) -> reconstruct E n (VDict false (strs items)) = Ok g.
Proof.
  unfold reconstruct, reconstruct_st, cp. intros H.
  destruct (sget $"fieldtype" (strs items)) as [t|] eqn:Ht.
  - destruct (construct_parameter E n (VDict false (strs items))) as [s r]. cbn [snd] in H. subst r. reflexivity.
  - rewrite cp_unfold, Ht in H. destruct (crun E n false (strs items)) as [l [ys|e]]; discriminate.
Qed.

(** @prop C43 The description of a describable field is made of plain data, and the field
    reconstructed from it is well formed, equals the original apart from documentation and from what
    a description drops, and processes every value, in both directions, exactly as the original
    without the dropped parameters.  Describable excludes what the refutations below use: bounds
    of DateTime fields in local time, dates before the year 1000 where strftime does not pad,
    microseconds in bounds, fields named 'fieldtype', documentation clashing with parameters. *)
Lemma describe_reconstruct_partial :
  forall E f, sound E f -> describable E f ->
  exists N, forall n, (N <= n)%nat ->
  exists spec g,
    describe E n false f = Ok spec /\ plainv spec = true
    /\ reconstruct E n spec = Ok g /\ sound E g /\ alike g (undescribed f)
    /\ forall desc recon m partial ph ser anc v,
         process_gen E desc recon m g partial ph ser anc v
         = process_gen E desc recon m (undescribed f) partial ph ser anc v.
Proof.
  intros E f Hs Hd. destruct (within_exists f) as [N HN]. exists N. intros n Hn.
  destruct (describe_ok E n n f (le_n n) (within_mono N n f Hn HN) Hs Hd) as [items [g [H1 [H2 [H3 [H4 H5]]]]]].
  exists (VDict false (strs items)), g. split; [exact H1|]. split; [exact H2|]. split; [apply reconstruct_dict, H3|].
  split; [exact H5|]. split; [exact H4|]. intros. apply alike_process, H4.
Qed.

Lemma fields_same (g : field -> field) l : (forall f, In f (map snd l) -> g f = f) ->
  map (fun kf : str * field => (fst kf, g (snd kf))) l = l.
Proof.
  induction l as [|[s f] l IH]; intros H; [reflexivity|]. cbn. rewrite H by (left; reflexivity). rewrite IH by (intros; apply H; right; assumption). reflexivity.
Qed.
Lemma kmap_same (g : field -> field) (k : kind) : (forall f, In f (subfields k) -> g f = f) -> kmap g k = k.
Proof.
  intros H. assert (Hl : forall l, (forall f, In f l -> g f = f) -> map g l = l).
  { clear. induction l as [|f l IH]; intros H; [reflexivity|]. cbn. rewrite H by (left; reflexivity). rewrite IH by (intros; apply H; right; assumption). reflexivity. }
  destruct k as [ | | | | | | | | | | | |value [key|] rk| |item a b u|d s o| | | | |l|l| ]; cbn in *; try reflexivity;
    try (rewrite ?H by auto; reflexivity); try (rewrite Hl by exact H; reflexivity).
  destruct d as [l|on vs]; cbn in *; [rewrite fields_same by exact H; reflexivity|].
  rewrite H by auto. f_equal. f_equal. assert (Hv : forall f, In f (flat_map (fun vl => map snd (snd vl)) vs) -> g f = f) by auto. clear -Hv.
  induction vs as [|[i l] vs IH]; [reflexivity|]. cbn in *. rewrite fields_same by (intros; apply Hv, in_or_app; auto).
  rewrite IH; [reflexivity|]. intros; apply Hv, in_or_app; auto.
Qed.

Lemma undescribed_id f : everywhere fully_described f -> undescribed f = f.
Proof.
  induction f as [i|p k IH] using field_ind'; intros H; [reflexivity|].
  inversion H as [|? ? [H1 [H2 [H3 [H4 [H5 H6]]]]] Hs]; subst. cbn [undescribed].
  assert (Hk : kmap undescribed k = k).
  { apply kmap_same. intros g Hg. apply IH; auto. }
  rewrite Hk. f_equal.
  - unfold undescribed_params. destruct p; cbn in *. subst. unfold kept. rewrite H4. f_equal.
    destruct (own_default k); [|rewrite H5; reflexivity]. destruct H5 as [-> | ->]; reflexivity.
  - destruct k; try reflexivity; cbn; subst; reflexivity.
Qed.

(** @prop C43 If the description drops nothing, the reconstructed field processes every value exactly
    as the original. *)
Lemma describe_reconstruct_faithful :
  forall E f, sound E f -> describable E f -> everywhere fully_described f ->
  exists N, forall n, (N <= n)%nat ->
  exists spec g,
    describe E n false f = Ok spec /\ plainv spec = true
    /\ reconstruct E n spec = Ok g /\ alike g f
    /\ forall desc recon m partial ph ser anc v,
         process_gen E desc recon m g partial ph ser anc v = process_gen E desc recon m f partial ph ser anc v.
Proof.
  intros E f Hs Hd Hf. destruct (describe_reconstruct_partial E f Hs Hd) as [N HN]. exists N. intros n Hn.
  destruct (HN n Hn) as [spec [g [H1 [H2 [H3 [_ [H4 H5]]]]]]]. rewrite (undescribed_id f Hf) in *. exists spec, g. auto.
Qed.

(** @example
Definition order43 : field :=
  let tag := Fld (p_named $"tag") (KText None (Some 1) (Some 10) false) in
  let kind := Fld {| p_name := Some $"kind"; p_nonnull := false; p_required := true; p_ignore_null := false;
                     p_default := VNone; p_constant := VNone; p_preprocessor := None; p_extractor := None;
                     p_instantiator := None; p_title := VStr $"the kind"; p_description := VNone; p_notes := VNone;
                     p_aspects := [($"indexed", VBool true)] |} (KText None None None true) in
  let amount := Fld (p_named $"amount") (KDecimal (Some (DFin false 125 (-2))) None) in
  let variant i := (VStr i, [($"kind", Fld {| p_name := Some $"kind"; p_nonnull := false; p_required := true;
                     p_ignore_null := false; p_default := VNone; p_constant := VStr i; p_preprocessor := None;
                     p_extractor := None; p_instantiator := None; p_title := VNone; p_description := VNone;
                     p_notes := VNone; p_aspects := [] |} (KText None None None true)); ($"amount", amount)]) in
  Fld p0 (KStructure (SPlain
    [($"due", Fld (p_named $"due") (KDate (Some (Date 2020 1 1)) None));
     ($"at", Fld (p_named $"at") (KDateTime None (Some (DateTime (Date 2030 1 1) (Tod 0 0 0 0) (Some TzUTC))) true));
     ($"tags", Fld {| p_name := Some $"tags"; p_nonnull := false; p_required := false; p_ignore_null := false;
                      p_default := VList [VStr $"new"]; p_constant := VNone; p_preprocessor := None; p_extractor := None;
                      p_instantiator := None; p_title := VNone; p_description := VNone; p_notes := VNone; p_aspects := [] |}
                 (KSequence tag None (Some 5) true));
     ($"payment", Fld (p_named $"payment") (KStructure (SPoly kind [variant $"cash"; variant $"card"]) true None))]) true None).
Ltac everywhere43 :=
  repeat match goal with
  | |- everywhere _ (Fld _ _) => constructor
  | |- forall g, In g (subfields _) -> _ =>
      let g := fresh in let H := fresh in intros g H; vm_compute in H;
      repeat (destruct H as [H|H]; [subst g|]); [..|contradiction H]
  end.
Example C43_describable_example :
  sound env0 order43 /\ describable env0 order43 /\ everywhere fully_described order43.
Proof.
  unfold order43. split; [split|split].
  - repeat match goal with
    | |- complete (Fld _ _) => constructor
    | |- forall g, In g (subfields _) -> _ =>
        let g := fresh in let H := fresh in intros g H; vm_compute in H;
        repeat (destruct H as [H|H]; [subst g|]); [..|contradiction H]
    end.
  - everywhere43; (split; [repeat split|]); try exact I; cbn [constructed_kind natural in_zone inhabited_list];
      try (split; first [exact I|discriminate|reflexivity|split; reflexivity]).
    + split; [discriminate|]. repeat (apply Forall_cons; [split; discriminate|]). constructor.
    + split; [discriminate|]. eexists _, _, _. repeat (split; [reflexivity|]).
      repeat (apply Forall_cons; [split; [discriminate|]; split; [reflexivity|]; split;
        [repeat (apply Forall_cons; [split; discriminate|]); constructor|eexists; split; reflexivity]|]). constructor.
  - unfold describable. everywhere43; (split; [split; [left; reflexivity|split; [left; reflexivity|split; [left; reflexivity|split; [left; reflexivity|split]]]]|]);
      try exact I; try (left; reflexivity); try (solve [intros ? ? []]).
    all: cbn [describable_kind].
    + intros s f [H|[H|[H|[H|[]]]]]; injection H as <- <-; discriminate.
    + intros d [[= <-]|[=]]. repeat (split; try reflexivity); cbn; first [lia|left; reflexivity|exists 31; split; [constructor; cbn; auto|lia]].
    + intros d [[=]|[= <-]]. repeat (split; try reflexivity); cbn; first [lia|left; reflexivity|exists 31; split; [constructor; cbn; auto|lia]].
    + right. split; [reflexivity|]. eexists. split; [reflexivity|]. intros x [<-|[]] desc recon n. destruct n; reflexivity.
    + split; [|repeat constructor].
      intros vd [<-|[<-|[]]]; (split; [reflexivity|]; split; [discriminate|]; split;
        [intros s f [H|[H|[]]]; injection H as <- <-; discriminate|]); eexists _, _; split; reflexivity.
    + intros key v [H|[]]. injection H as <- <-. split; [left; reflexivity|]. intros H.
      repeat (destruct H as [H|H]; [discriminate|]). contradiction.
  - everywhere43; repeat (split; [reflexivity|]); try (split; [first [right; reflexivity|left; reflexivity]|]); first [reflexivity|exact I].
Qed.
@end *)

(** @example
Example C43_spec_example :
  describe env0 3 false (Fld p0 (KSequence (Fld p0 (KInteger (Some 1) None)) (Some 2) None true))
  = Ok (VDict false (strs [($"fieldtype", VStr $"sequence"); ($"structural", VBool true); ($"min_length", VInt 2); ($"unique", VBool true);
                           ($"item", VDict false (strs [($"fieldtype", VStr $"integer"); ($"minimum", VInt 1)]))])).
Proof. reflexivity. Qed.
@end *)

(** @prop C43 Without the restriction to UTC the claim is false: the bounds of a DateTime field in local
    time are described by their local wall clock marked as UTC, so the reconstructed field
    refuses values that the original accepts. *)
Lemma describe_local_bound_refuted :
  exists E f spec g v w,
    sound E f /\ describe E 1 false f = Ok spec /\ reconstruct E 1 spec = Ok g
    /\ process_gen E (describe E 1 false) (reconstruct E 1) 1 f false Inbound false [] v = Ok w
    /\ forall w', process_gen E (describe E 1 false) (reconstruct E 1) 1 g false Inbound false [] v <> Ok w'.
Proof.
  pose (at_ h mi := DateTime (Date 2020 1 1) (Tod h mi 0 0) (Some TzLocal)).
  exists env0, (Fld p0 (KDateTime (Some (at_ 12 0)) None false)). eexists _, _, (VDateTime (at_ 12 30)), _.
  split; [|split; [vm_compute; reflexivity|split; [vm_compute; reflexivity|split; [vm_compute; reflexivity|]]]].
  - apply sound_Fld. split; [repeat split|]. split; [|intros g []]. split; [split; reflexivity|exact I].
  - intros w'. vm_compute. discriminate.
Qed.

(** @prop C43 An empty default of a structural field is dropped: a missing list is no longer filled in. *)
Lemma describe_empty_default_refuted :
  exists E f spec g v w w',
    sound E f /\ describe E 3 false f = Ok spec /\ reconstruct E 3 spec = Ok g
    /\ process_gen E (describe E 3 false) (reconstruct E 3) 3 f false Inbound false [] v = Ok w
    /\ process_gen E (describe E 3 false) (reconstruct E 3) 3 g false Inbound false [] v = Ok w'
    /\ w <> w'.
Proof.
  pose (q := {| p_name := Some $"tags"; p_nonnull := false; p_required := false; p_ignore_null := false;
                p_default := VList []; p_constant := VNone; p_preprocessor := None; p_extractor := None;
                p_instantiator := None; p_title := VNone; p_description := VNone; p_notes := VNone; p_aspects := [] |}).
  pose (tags := Fld q (KSequence (Fld p0 KBoolean) None None false)).
  exists env0, (Fld p0 (KStructure (SPlain [($"tags", tags)]) true None)). eexists _, _, (VDict false []), _, _.
  split; [|split; [vm_compute; reflexivity|split; [vm_compute; reflexivity|split; [vm_compute; reflexivity|split; [vm_compute; reflexivity|]]]]].
  - apply sound_Fld. split; [repeat split|]. split; [split; [discriminate|repeat constructor; discriminate]|].
    intros g [<-|[]]. apply sound_Fld. split; [repeat split|]. split; [split; exact I|].
    intros g [<-|[]]. apply sound_Fld. split; [repeat split|]. split; [exact I|]. intros g [].
  - vm_compute. discriminate.
Qed.

(** @prop C43 A structure with a field named 'fieldtype' is described, but not reconstructed: the description
    of its fields is taken for the description of a field. *)
Lemma describe_fieldtype_refuted :
  exists E f spec,
    sound E f /\ (forall n, describe E (S (S n)) false f = Ok spec) /\ forall n g, reconstruct E n spec <> Ok g.
Proof.
  exists env0, (Fld p0 (KStructure (SPlain [($"fieldtype", Fld (p_named $"fieldtype") KBoolean)]) true None)). eexists.
  split; [|split; [intros n; reflexivity|]].
  - apply sound_Fld. split; [repeat split|]. split; [split; [discriminate|repeat constructor; discriminate]|].
    intros g [<-|[]]. apply sound_Fld. split; [repeat split|]. split; [exact I|]. intros g [].
  - intros n g. vm_compute. discriminate.
Qed.

(** @prop C43 Where strftime does not pad years, a bound before the year 1000 is described by a text that the
    constructor refuses. *)
Lemma describe_early_bound_refuted :
  exists E f spec,
    sound E f /\ (forall n, describe E (S n) false f = Ok spec) /\ forall n g, reconstruct E n spec <> Ok g.
Proof.
  pose (E := {| e_pre := e_pre env0; e_ext := e_ext env0; e_inst := e_inst env0; e_pattern := e_pattern env0; e_local := e_local env0;
     e_pad := false; e_udigit := e_udigit env0; e_uword := e_uword env0; e_ulower := e_ulower env0; e_import := e_import env0;
     e_identify := e_identify env0; e_undef := e_undef env0; e_str := e_str env0; e_impl := e_impl env0; e_schemas := e_schemas env0;
     e_compile := e_compile env0; e_surrogate := e_surrogate env0; e_identity := e_identity env0; e_repr := e_repr env0 |}).
  exists E, (Fld p0 (KDate (Some (Date 987 6 5)) None)). eexists.
  split; [|split; [intros n; reflexivity|]].
  - apply sound_Fld. split; [repeat split|]. split; [exact I|]. intros g [].
  - intros n g. vm_compute. discriminate.
Qed.

(** ** What every description contains *)

Lemma each_Forall2 {A B} (g : A -> res B) l : forall l', each g l = Ok l' -> Forall2 (fun a b => g a = Ok b) l l'.
Proof.
  induction l as [|a l IH]; intros l' H; cbn in H.
  - apply Ok_inj in H. subst l'. constructor.
  - destruct (g a) as [b|e] eqn:Hg; [|discriminate]. cbn in H. destruct (each g l) as [bs|e]; [|discriminate]. cbn in H.
    apply Ok_inj in H. subst l'. constructor; [exact Hg|]. apply IH. reflexivity.
Qed.

Lemma Forall2_plain {A} (R : A -> val -> Prop) l l' : Forall2 R l l' -> (forall a b, In a l -> R a b -> plainv b = true) -> forallb plainv l' = true.
Proof.
  induction 1 as [|a b l l' Hab H IH]; intros Hp; [reflexivity|]. cbn. rewrite (Hp a b (or_introl eq_refl) Hab). cbn. apply IH.
  intros x y Hx. apply Hp. right. exact Hx.
Qed.

Lemma dp_makes_plain desc v : (forall f d, desc f = Ok d -> plainv d = true) ->
  forall w, describe_parameter desc v = Ok w -> plainv w = true.
Proof.
  intros Hd. induction v as [v IH] using val_ind'. intros w H.
  destruct v as [ | | | | | | | | | |l|l|o l|i l|i s u l|e|f]; try (apply Ok_inj in H; subst w; reflexivity); try discriminate H.
  - rewrite dp_list in H. destruct (each _ l) as [l'|e] eqn:He; [|discriminate]. apply Ok_inj in H. subst w.
    apply each_Forall2 in He. apply (Forall2_plain _ _ _ He). intros a b Ha. apply IH. exact Ha.
  - rewrite dp_tuple in H. destruct (each _ l) as [l'|e] eqn:He; [|discriminate]. apply Ok_inj in H. subst w.
    apply each_Forall2 in He. apply (Forall2_plain _ _ _ He). intros a b Ha. apply IH. exact Ha.
  - rewrite dp_dict in H. destruct (each _ l) as [l'|e] eqn:He; [|discriminate]. apply Ok_inj in H. subst w.
    apply each_Forall2 in He. cbn [plainv negb andb]. revert He. clear - IH. cbn [subvals] in IH.
    intros He. apply forallb_forall. intros x Hx.
    apply In_nth_error in Hx. destruct Hx as [i Hi].
    revert i Hi. induction He as [|[a y] b l l' Hab H IHl]; intros [|i] Hi; try discriminate Hi.
    + injection Hi as <-. cbn in Hab. destruct (describe_parameter desc y) as [z|] eqn:Hz; [|discriminate]. apply Ok_inj in Hab. subst b.
      cbn. apply (IH y); [|exact Hz]. cbn. auto.
    + apply (IHl (fun x Hx => IH x ltac:(cbn; auto)) i Hi).
  - change (describe_parameter desc (VDict false l) = Ok w) in H. rewrite dp_dict in H.
    destruct (each _ l) as [l'|e] eqn:He; [|discriminate]. apply Ok_inj in H. subst w.
    apply each_Forall2 in He. cbn [plainv negb andb]. revert He. clear - IH. cbn [subvals] in IH.
    intros He. apply forallb_forall. intros x Hx.
    apply In_nth_error in Hx. destruct Hx as [j Hj].
    revert j Hj. induction He as [|[a y] b l l' Hab H IHl]; intros [|j] Hj; try discriminate Hj.
    + injection Hj as <-. cbn in Hab. destruct (describe_parameter desc y) as [z|] eqn:Hz; [|discriminate]. apply Ok_inj in Hab. subst b.
      cbn. apply (IH y); [|exact Hz]. cbn. auto.
    + apply (IHl (fun x Hx => IH x ltac:(cbn; auto)) j Hj).
  - cbn in H. destruct f as [i|p k]; [discriminate|]. apply (Hd _ _ H).
Qed.

Lemma put_all_plain desc l : (forall f d, desc f = Ok d -> plainv d = true) -> forall acc r, put_all desc l acc = Ok r ->
  (forall k w, In (k, w) acc -> plainv w = true) -> forall k w, In (k, w) r -> plainv w = true.
Proof.
  intros Hd. induction l as [|[a v] l IH]; intros acc r H Ha; [apply Ok_inj in H; subst r; exact Ha|]. cbn in H.
  destruct (describe_parameter desc v) as [w|[e|x]] eqn:Hv.
  - apply (IH _ _ H). intros k u Hi. apply aset_In' in Hi. destruct Hi as [Hi|[_ ->]]; [apply (Ha k u Hi)|]. apply (dp_makes_plain desc v Hd _ Hv).
  - discriminate.
  - destruct x; try discriminate. apply (IH _ _ H Ha).
Qed.

Lemma put_all_keeps desc l : forall acc r, put_all desc l acc = Ok r -> forall key, ~ In key (map fst l) -> aget key r = aget key acc.
Proof.
  induction l as [|[a v] l IH]; intros acc r H key Hk; [apply Ok_inj in H; subst r; reflexivity|]. cbn in H, Hk.
  assert (Hn : key <> a) by (intros ->; tauto).
  destruct (describe_parameter desc v) as [w|[e|x]].
  - rewrite (IH _ _ H) by tauto. apply aset_get_other, Hn.
  - discriminate.
  - destruct x; try discriminate. apply (IH _ _ H). tauto.
Qed.

Lemma put_all_puts desc l : forall acc r, put_all desc l acc = Ok r -> NoDup (map fst l) ->
  forall key v, aget key l = Some v -> plainv v = true -> aget key r = Some v.
Proof.
  induction l as [|[a v] l IH]; intros acc r H Hn key x Hg Hp; [discriminate|]. cbn in H, Hg. inversion Hn as [|? ? Ha Hn']; subst.
  destruct (str_eqb_spec key a) as [->|Hne].
  - injection Hg as ->. rewrite (dp_plain desc x Hp) in H. rewrite (put_all_keeps _ _ _ _ H a Ha). apply aset_get_same.
  - destruct (describe_parameter desc v) as [w|[e|y]]; [|discriminate|destruct y; try discriminate]; exact (IH _ _ H Hn' key x Hg Hp).
Qed.

Lemma describe_unfold E m verbose p k d : describe E (S m) verbose (Fld p k) = Ok d ->
  exists given items,
    describe_given E (describe E m false) (describe E m verbose)
      (fun g v => process_gen E (describe E m false) (reconstruct E m) m g false Outbound true [] v) p k = Ok given
    /\ describe_items E (describe E m false) verbose p k given = Ok items /\ d = VDict false (strs items).
Proof.
  intros H. cbn [describe] in H. destruct (describe_given _ _ _ _ p k) as [given|]; [|discriminate]. cbn [bind] in H.
  destruct (describe_items _ _ verbose p k given) as [items|] eqn:Hi; [|discriminate]. cbn [bind] in H. apply Ok_inj in H.
  exists given, items. auto.
Qed.

(** @prop C43 Every description, verbose or not, of any field, is made of plain data. *)
Lemma descriptions_plain :
  forall E n verbose f d,
    describe E n verbose f = Ok d -> plainv d = true /\ exists l, d = VDict false (strs l).
Proof.
  intros E. induction n as [|m IH]; intros verbose f d H; [discriminate|].
  assert (Hf : forall p k d, describe E (S m) verbose (Fld p k) = Ok d -> plainv d = true /\ exists l, d = VDict false (strs l)).
  { clear f d H. intros p k d H. apply describe_unfold in H. destruct H as [given [items [_ [H ->]]]]. split; [|eexists; reflexivity].
    cbn [plainv negb andb]. unfold strs. rewrite forallb_forall. intros x Hx. apply in_map_iff in Hx. destruct Hx as [[a w] [<- Hi]]. cbn.
    unfold describe_items in H. apply (put_all_plain _ _ (fun f d Hd => proj1 (IH false f d Hd)) _ _ H) with (k := a); [|exact Hi].
    intros s u [Hs|[]]. injection Hs as <- <-. reflexivity. }
  destruct f as [i|p k]; [|apply (Hf p k d H)]. cbn [describe] in H. destruct (e_undef E i) as [[j|p k]|]; try discriminate.
  apply (Hf p k d). exact H.
Qed.

(** @example
Example C43_plain_example :
  describe env0 2 true (Fld (p_def (VDate (Date 2020 1 1))) (KDate (Some (Date 2020 1 2)) None))
  = Ok (VDict false (strs [($"fieldtype", VStr $"date"); ($"nonnull", VBool false); ($"ignore_null", VBool false);
                           ($"required", VBool false); ($"structural", VBool false); ($"minimum", VStr $"2020-01-02")])).
Proof. vm_compute. reflexivity. Qed.
@end *)

Lemma given_keys E desc dsc proc p k given : describe_given E desc dsc proc p k = Ok given ->
  NoDup (map fst given) /\ forall s, In s (map fst given) -> In s
    [$"maximum"; $"minimum"; $"value"; $"default"; $"key"; $"item"; $"values"; $"fields"; $"polymorphic_on"; $"structure"].
Proof.
  assert (Hb : forall A (t : A -> str) o (u : A -> str) o', let g := bound $"maximum" t o ++ bound $"minimum" u o' in
    NoDup (map fst g) /\ forall s, In s (map fst g) -> In s
    [$"maximum"; $"minimum"; $"value"; $"default"; $"key"; $"item"; $"values"; $"fields"; $"polymorphic_on"; $"structure"]).
  { intros A t [a|] u [b|]; (split; [apply nodupb_NoDup; reflexivity|]); intros s Hs; cbn [map app bound fst In] in Hs; cbn [In]; tauto. }
  intros H. destruct k as [ | | | | | | | | | | | |value key rk| |item a b u|[l|on vs] strict o| | | | |fs|fs| ]; cbn [describe_given] in H;
    try (apply Ok_inj in H; subst given; first [split; [constructor|intros s []]|apply Hb]);
    repeat match type of H with
    | bind ?x _ = Ok _ => let Hx := fresh "Hx" in destruct x eqn:Hx; [cbn [bind] in H|discriminate H]
    end; apply Ok_inj in H; subst given;
    try match goal with Hx : match key with _ => _ end = Ok _ |- _ => destruct key as [kf|];
      [destruct (dsc kf); [|discriminate Hx]|]; apply Ok_inj in Hx; subst end;
    (split; [apply nodupb_NoDup; reflexivity|]); intros s Hs; cbn [map app fst In] in Hs; cbn [In]; tauto.
Qed.

Lemma flagged_given p k name b dflt : flagged p k name b dflt -> ~ In name
    [$"maximum"; $"minimum"; $"value"; $"default"; $"key"; $"item"; $"values"; $"fields"; $"polymorphic_on"; $"structure"].
Proof. intros H. destruct H; intros Hi; repeat (destruct Hi as [Hi|Hi]; [discriminate Hi|]); contradiction. Qed.

Lemma flagged_declared E p k name b dflt : flagged p k name b dflt ->
  aget name (base_parameters ++ class_parameters (cls_of k)) = Some (VBool dflt) /\ parameter_value E p k name = VBool b.
Proof.
  intros H. destruct H; (split; [try reflexivity|]).
  all: try (destruct k; reflexivity).
  all: unfold parameter_value, attrs; destruct (p_preprocessor p); reflexivity.
Qed.

Lemma flat_aget (g : str * val -> option val) decl name d : NoDup (map fst decl) -> aget name decl = Some d ->
  aget name (flat_map (fun nd => match g nd with Some v => [(fst nd, v)] | None => [] end) decl) = g (name, d).
Proof.
  induction decl as [|[s e] l IH]; intros Hn H; [discriminate|]. inversion Hn as [|? ? Hs Hn']; subst. cbn [aget] in H. cbn [flat_map fst].
  destruct (str_eqb_spec name s) as [->|Hne].
  - injection H as ->. destruct (g (s, d)) as [v|]; cbn; [rewrite str_eqb_refl; reflexivity|].
    apply aget_None. intros Hi. apply in_map_iff in Hi. destruct Hi as [[a x] [Ha Hi]]. cbn in Ha. subst a.
    apply in_flat_map in Hi. destruct Hi as [[a y] [Hi Hx]]. cbn in Hx. destruct (g (a, y)); [|contradiction]. destruct Hx as [Hx|[]]. injection Hx as -> _.
    apply Hs. apply (in_map fst) in Hi. exact Hi.
  - rewrite <- (IH Hn' H). destruct (g (s, e)); [|reflexivity]. cbn. destruct (str_eqb_spec name s); [contradiction|reflexivity].
Qed.

Lemma flat_NoDup (g : str * val -> option val) decl : NoDup (map fst decl) ->
  NoDup (map fst (flat_map (fun nd => match g nd with Some v => [(fst nd, v)] | None => [] end) decl)).
Proof.
  induction decl as [|[s e] l IH]; intros Hn; [constructor|]. inversion Hn as [|? ? Hs Hn']; subst. cbn [flat_map fst].
  destruct (g (s, e)); [|apply IH, Hn']. cbn [app map fst]. constructor; [|apply IH, Hn'].
  intros Hi. apply in_map_iff in Hi. destruct Hi as [[a x] [Ha Hi]]. cbn in Ha. subst a.
  apply in_flat_map in Hi. destruct Hi as [[a y] [Hi Hx]]. cbn in Hx. destruct (g (a, y)); [|contradiction]. destruct Hx as [Hx|[]]. injection Hx as -> _.
  apply Hs. apply (in_map fst) in Hi. exact Hi.
Qed.

Definition picked E verbose p k (given : list (str * val)) (nd : str * val) : option val :=
  let v := parameter_value E p k (fst nd) in
  if smem (fst nd) (map fst given) then None else if negb (is_none v) && (verbose || negb (is_same v (snd nd))) then Some v else None.

Lemma items_unfold E desc verbose p k given :
  describe_items E desc verbose p k given
  = put_all desc (filter (fun kv => negb (is_none (snd kv))) (p_aspects p)
                  ++ flat_map (fun nd => match picked E verbose p k given nd with Some v => [(fst nd, v)] | None => [] end)
                              (base_parameters ++ class_parameters (cls_of k))
                  ++ filter (fun kv => verbose || negb (is_none (snd kv))) given) [($"fieldtype", VStr (kind_type k))].
Proof.
  unfold describe_items. f_equal. f_equal. f_equal. apply flat_map_ext. intros [s d]. unfold picked. cbn [fst snd].
  destruct (smem s (map fst given)); [reflexivity|]. destruct (negb _ && _); reflexivity.
Qed.

Lemma in_keys_filter {A} (t : str * A -> bool) l s : In s (map fst (filter t l)) -> In s (map fst l).
Proof. rewrite !in_map_iff. intros [x [Hx Hi]]. apply filter_In in Hi. exists x. tauto. Qed.

(** @prop C43 A description tells the type of the field and its boolean parameters: a verbose one
    all of them, any other those that differ from the value a constructor takes by default. *)
Lemma description_flags :
  forall E n verbose p k l name b dflt,
    describe E n verbose (Fld p k) = Ok (VDict false l) ->
    ~ In name (map fst (p_aspects p)) -> flagged p k name b dflt ->
    sget name l = (if verbose || negb (Bool.eqb b dflt) then Some (VBool b) else None)
    /\ (~ In $"fieldtype" (map fst (p_aspects p)) -> sget $"fieldtype" l = Some (VStr (kind_type k))).
Proof.
  intros E [|m] verbose p k l name b dflt H Ha Hf; [discriminate|]. apply describe_unfold in H.
  destruct H as [given [items [Hg [Hi Hd]]]]. injection Hd as ->. rewrite !sget_strs.
  destruct (given_keys _ _ _ _ _ _ _ Hg) as [Hnd Hkeys]. rewrite items_unfold, put_all_app in Hi.
  destruct (put_all _ (filter _ (p_aspects p)) _) as [r1|] eqn:H1; [|discriminate]. cbn [bind] in Hi. rewrite put_all_app in Hi.
  destruct (put_all _ (flat_map _ _) r1) as [r2|] eqn:H2; [|discriminate]. cbn [bind] in Hi.
  assert (Hgiven : forall s, ~ In s [$"maximum"; $"minimum"; $"value"; $"default"; $"key"; $"item"; $"values"; $"fields"; $"polymorphic_on"; $"structure"] -> aget s items = aget s r2).
  { intros s Hs. apply (put_all_keeps _ _ _ _ Hi). intros Hx. apply in_keys_filter in Hx. apply Hs, Hkeys, Hx. }
  assert (Hasp : forall s, ~ In s (map fst (p_aspects p)) -> aget s r1 = aget s [($"fieldtype", VStr (kind_type k))]).
  { intros s Hs. apply (put_all_keeps _ _ _ _ H1). intros Hx. apply in_keys_filter in Hx. contradiction. }
  assert (Hng := flagged_given _ _ _ _ _ Hf). destruct (flagged_declared E _ _ _ _ _ Hf) as [Hdecl Hval].
  split.
  - rewrite (Hgiven name Hng).
    assert (Hp := flat_aget (picked E verbose p k given) _ name _ (declared_NoDup (cls_of k)) Hdecl).
    unfold picked in Hp at 2. cbn [fst snd] in Hp.
    assert (Hsm : smem name (map fst given) = false) by (apply smem_false; intros Hx; apply Hng, Hkeys, Hx).
    rewrite Hsm, Hval in Hp. cbn [is_none is_same negb andb] in Hp.
    destruct (verbose || negb (Bool.eqb b dflt)).
    + apply (put_all_puts _ _ _ _ H2); [apply flat_NoDup, declared_NoDup|exact Hp|reflexivity].
    + rewrite (put_all_keeps _ _ _ _ H2); [|apply aget_None, Hp]. rewrite (Hasp name Ha).
      destruct Hf; reflexivity.
  - intros Ht. rewrite Hgiven.
    + rewrite (put_all_keeps _ _ _ _ H2).
      * rewrite (Hasp _ Ht). reflexivity.
      * intros Hx. apply in_map_iff in Hx. destruct Hx as [[a x] [Hx Hi']]. cbn in Hx. subst a.
        apply in_flat_map in Hi'. destruct Hi' as [[a y] [Hi' Hx]]. cbn in Hx. destruct (picked _ _ _ _ _ _); [|contradiction].
        destruct Hx as [Hx|[]]. injection Hx as -> _. apply (in_map fst) in Hi'.
        apply (declared_special (cls_of k) $"fieldtype"); [exact Hi'|]. vm_compute. tauto.
    + intros Hx. repeat (destruct Hx as [Hx|Hx]; [discriminate Hx|]). contradiction.
Qed.

(** @example
Example C43_flags_example :
  let f := Fld p_req (KStructure (SPlain []) false None) in
  exists l m, describe env0 2 true f = Ok (VDict false l) /\ describe env0 2 false f = Ok (VDict false m)
  /\ sget $"required" l = Some (VBool true) /\ sget $"nonnull" l = Some (VBool false) /\ sget $"strict" l = Some (VBool false)
  /\ sget $"required" m = Some (VBool true) /\ sget $"nonnull" m = None /\ sget $"strict" m = Some (VBool false)
  /\ flagged p_req (KStructure (SPlain []) false None) $"strict" false true.
Proof.
  eexists _, _. split; [vm_compute; reflexivity|]. split; [vm_compute; reflexivity|].
  repeat (split; [vm_compute; reflexivity|]). constructor.
Qed.
@end *)

(** @prop C43 The description of a structural field holds the description of every nested field,
    verbose if and only if it is itself. *)
Lemma description_nested :
  forall E n verbose p k l name d,
    describe E (S n) verbose (Fld p k) = Ok (VDict false l) ->
    nested_entry (fun g x => describe E n verbose g = Ok x) k name d ->
    sget name l = Some d.
Proof.
  intros E n verbose p k l name d H Hn. apply describe_unfold in H.
  destruct H as [given [items [Hg [Hi Hd]]]]. injection Hd as ->. rewrite sget_strs.
  destruct (given_keys _ _ _ _ _ _ _ Hg) as [Hnd _]. unfold describe_items in Hi. rewrite put_all_app in Hi.
  destruct (put_all _ (filter _ (p_aspects p)) _) as [r1|]; [|discriminate]. cbn [bind] in Hi. rewrite put_all_app in Hi.
  destruct (put_all _ (flat_map _ _) r1) as [r2|]; [|discriminate]. cbn [bind] in Hi.
  assert (Hsub : forall fs ds, Forall2 (fun g x => describe E n verbose g = Ok x) fs ds ->
     each (describe E n verbose) fs = Ok ds /\ forallb plainv ds = true).
  { intros fs ds Hf. split.
    - induction Hf as [|f x fs ds Hx Hf IH]; [reflexivity|]. cbn. rewrite Hx. cbn. rewrite IH. reflexivity.
    - apply (Forall2_plain _ _ _ Hf). intros a x _ Hx. apply (descriptions_plain _ _ _ _ _ Hx). }
  assert (Hd : aget name given = Some d /\ plainv d = true).
  { destruct Hn as [item mn mx u d Hx|value key req d Hx|value key req d Hx|fs ds Hx|fs ds Hx|fs ds strict order Hx|on vs strict order d Hx];
      cbn [describe_given] in Hg.
    - split; [|apply (descriptions_plain _ _ _ _ _ Hx)].
      match type of Hg with bind ?x _ = _ => destruct x; [cbn [bind] in Hg|discriminate Hg] end. rewrite Hx in Hg. cbn [bind] in Hg.
      apply Ok_inj in Hg. subst given. reflexivity.
    - split; [|apply (descriptions_plain _ _ _ _ _ Hx)].
      match type of Hg with bind ?x _ = _ => destruct x; [cbn [bind] in Hg|discriminate Hg] end. rewrite Hx in Hg. cbn [bind] in Hg.
      match type of Hg with bind ?x _ = _ => destruct x; [cbn [bind] in Hg|discriminate Hg] end.
      apply Ok_inj in Hg. subst given. reflexivity.
    - split; [|apply (descriptions_plain _ _ _ _ _ Hx)].
      match type of Hg with bind ?x _ = _ => destruct x; [cbn [bind] in Hg|discriminate Hg] end. rewrite Hx in Hg. cbn [bind] in Hg.
      match type of Hg with bind ?x _ = _ => destruct x; [cbn [bind] in Hg|discriminate Hg] end.
      apply Ok_inj in Hg. subst given. reflexivity.
    - destruct (Hsub _ _ Hx) as [He Hp]. split; [|exact Hp]. rewrite He in Hg. cbn [bind] in Hg.
      match type of Hg with bind ?x _ = _ => destruct x; [cbn [bind] in Hg|discriminate Hg] end.
      apply Ok_inj in Hg. subst given. reflexivity.
    - destruct (Hsub _ _ Hx) as [He Hp]. split; [|exact Hp]. rewrite He in Hg. cbn [bind] in Hg.
      apply Ok_inj in Hg. subst given. reflexivity.
    - assert (He : describe_structure (describe E n verbose) fs = Ok (VDict false ds) /\ forallb (fun kv => plainv (snd kv)) ds = true).
      { clear Hg Hi. induction Hx as [|[s f] [a x] fs ds [Ha Hx] Hf [IH IHp]]; [split; reflexivity|]. cbn in Ha, Hx. subst a.
        unfold describe_structure in *. cbn [each fst snd]. rewrite Hx. cbn [bind].
        destruct (each _ fs) as [l'|]; [|discriminate]. cbn [bind] in *. injection IH as ->. split; [reflexivity|]. cbn [forallb snd].
        rewrite (proj1 (descriptions_plain _ _ _ _ _ Hx)). exact IHp. }
      destruct He as [He Hp]. split; [|exact Hp]. rewrite He in Hg. cbn [bind] in Hg.
      match type of Hg with bind ?x _ = _ => destruct x; [cbn [bind] in Hg|discriminate Hg] end.
      apply Ok_inj in Hg. subst given. reflexivity.
    - split; [|apply (descriptions_plain _ _ _ _ _ Hx)].
      match type of Hg with bind ?x _ = _ => destruct x; [cbn [bind] in Hg|discriminate Hg] end.
      match type of Hg with bind ?x _ = _ => destruct x; [cbn [bind] in Hg|discriminate Hg] end. rewrite Hx in Hg. cbn [bind] in Hg.
      match type of Hg with bind ?x _ = _ => destruct x; [cbn [bind] in Hg|discriminate Hg] end.
      apply Ok_inj in Hg. subst given. reflexivity. }
  destruct Hd as [Hd Hp].
  assert (Hnone : is_none d = false).
  { destruct Hn; try reflexivity; match goal with Hx : describe _ _ _ _ = Ok _ |- _ => destruct (descriptions_plain _ _ _ _ _ Hx) as [_ [? ->]]; reflexivity end. }
  apply (put_all_puts _ _ _ _ Hi); [|clear Hi|exact Hp].
  - clear - Hnd. induction given as [|[s x] g IH]; [constructor|]. inversion Hnd as [|? ? Hs Hg]; subst. cbn [filter].
    destruct (verbose || _); [|apply IH, Hg]. cbn. constructor; [|apply IH, Hg]. intros Hx. apply Hs, (in_keys_filter _ _ _ Hx).
  - clear - Hd Hnone. induction given as [|[s x] g IH]; [discriminate|]. cbn [filter snd]. cbn [aget] in Hd.
    destruct (str_eqb_spec name s) as [->|Hne].
    + injection Hd as ->. rewrite Hnone. rewrite Bool.orb_true_r. cbn. rewrite str_eqb_refl. reflexivity.
    + destruct (verbose || negb (is_none x)); [|apply IH, Hd]. cbn. destruct (str_eqb_spec name s); [contradiction|]. apply IH, Hd.
Qed.

(** @example
Example C43_nested_example :
  let item := Fld p0 KBoolean in
  exists l d, describe env0 3 true (Fld p0 (KSequence item None None false)) = Ok (VDict false l)
  /\ nested_entry (fun g x => describe env0 2 true g = Ok x) (KSequence item None None false) $"item" d
  /\ d = VDict false (strs [($"fieldtype", VStr $"boolean"); ($"nonnull", VBool false); ($"ignore_null", VBool false);
                            ($"required", VBool false); ($"structural", VBool false)])
  /\ sget $"item" l = Some d.
Proof.
  eexists _, _. split; [vm_compute; reflexivity|]. split; [apply nested_item; reflexivity|]. split; vm_compute; reflexivity.
Qed.
@end *)

(** @prop C43 A placeholder whose field has not been defined cannot be described, and no field that has it
    as first nested field (without a default): an AttributeError. *)
Lemma undefined_not_described :
  forall E n verbose i, e_undef E i = None ->
    let refused f := describe E (S (S n)) verbose f = py AttributeError in
    refused (FUndef i)
    /\ forall p, truthy (p_default p) = false ->
       (forall mn mx u, refused (Fld p (KSequence (FUndef i) mn mx u)))
       /\ (forall key req, refused (Fld p (KMap (FUndef i) key req)))
       /\ (forall fs, refused (Fld p (KTuple (FUndef i :: fs))))
       /\ (forall fs, refused (Fld p (KUnion (FUndef i :: fs))))
       /\ (forall name fs strict order, refused (Fld p (KStructure (SPlain ((name, FUndef i) :: fs)) strict order)))
       /\ (forall vs strict order, refused (Fld p (KStructure (SPoly (FUndef i) vs) strict order))).
Proof.
  intros E n verbose i Hi refused.
  assert (Hu : forall verbose, describe E (S n) verbose (FUndef i) = py AttributeError) by (intros vb; cbn [describe]; rewrite Hi; reflexivity).
  assert (Hf : forall p k, describe E (S (S n)) verbose (Fld p k)
     = do given <- describe_given E (describe E (S n) false) (describe E (S n) verbose)
         (fun g v => process_gen E (describe E (S n) false) (reconstruct E (S n)) (S n) g false Outbound true [] v) p k;
       do items <- describe_items E (describe E (S n) false) verbose p k given;
       Ok (VDict false (strs items))) by reflexivity.
  split; [unfold refused; cbn [describe]; rewrite Hi; reflexivity|]. intros p Hp. unfold refused.
  repeat split; intros; rewrite Hf; cbn [describe_given]; rewrite ?Hp; unfold describe_structure; cbn [bind each snd]; rewrite ?Hu;
    try reflexivity.
  destruct vs as [|[i0 d] vs]; cbn [each fst snd slot_serialize]; rewrite ?Hi; reflexivity.
Qed.

(** @example
Example C43_undefined_example :
  e_undef env0 7%nat = None /\ truthy (p_default p0) = false
  /\ describe env0 2 true (Fld p0 (KStructure (SPoly (FUndef 7%nat) [(VStr $"a", [])]) true None)) = py AttributeError.
Proof. repeat split; reflexivity. Qed.
@end *)

(** @prop C34 A field that its description says everything of, as the value of a Definition field:
    serialized as its description, it comes back as a field like it, apart from documentation, that
    processes every value in the same way. *)
Lemma definition_round_trip :
  forall E p q k valid, let f := Fld q k in sound E f -> describable E f -> everywhere fully_described f ->
  p_preprocessor p = None -> p_constant p = VNone ->
  match valid with Some (t :: ts) => In (kind_type k) (t :: ts) | _ => True end ->
  exists N, forall n, (N <= n)%nat ->
  let desc := describe E n false in
  let recon := reconstruct E n in
  exists spec g, plainv spec = true /\ alike g f
    /\ (forall m partial anc, process_gen E desc recon m (Fld p (KDefinition valid)) partial Outbound true anc (VField f) = Ok spec)
    /\ (forall m partial anc, process_gen E desc recon m (Fld p (KDefinition valid)) partial Inbound true anc spec = Ok (VField g))
    /\ forall desc recon m partial ph ser anc v,
         process_gen E desc recon m g partial ph ser anc v = process_gen E desc recon m f partial ph ser anc v.
Proof.
  intros E p q k valid f Hs Hd Hf Hp Hc Hv. destruct (describe_reconstruct_faithful E f Hs Hd Hf) as [N HN]. exists N. intros n Hn desc recon.
  destruct (HN n Hn) as [spec [g [H1 [H2 [H3 [H4 H5]]]]]]. exists spec, g. split; [exact H2|]. split; [exact H4|].
  apply alike_inv in H4 as H6. destruct H6 as [q' [k' [-> [_ Hk]]]].
  assert (Ht : kind_type k' = kind_type k).
  { apply (f_equal kind_type) in Hk. rewrite !kind_type_kmap in Hk. exact Hk. }
  assert (Hval : forall anc r j, kind_type j = kind_type k ->
             validate_value (F := child) E (KDefinition valid) anc (VField (Fld r j)) = Ok (VField (Fld r j))).
  { intros anc r j Hj. cbn [validate_value]. destruct valid as [[|t ts]|]; try reflexivity.
    cbn [as_field]. rewrite Hj, (proj2 (smem_In _ _) Hv). reflexivity. }
  assert (Hspec : spec <> VNone).
  { intros ->. vm_compute in H3. discriminate. }
  split; [|split; [|exact H5]]; intros m partial anc; rewrite process_Fld; cbn [kmap process_body]; unfold process_scalar;
    rewrite is_null_some by first [discriminate|exact Hspec]; cbn [phase_eqb andb bind kind_ignored unserialize_value serialize_value].
  - unfold preprocess. rewrite Hp, Hc. cbn [bind is_none negb]. change (VField f) with (VField (Fld q k)). rewrite Hval by reflexivity. cbn [bind]. unfold desc. fold f. rewrite H1. reflexivity.
  - unfold recon. rewrite H3. cbn [bind]. unfold preprocess. rewrite Hp, Hc. cbn [bind is_none negb]. rewrite Hval by exact Ht. reflexivity.
Qed.

(** @example
(* A sequence of dates, described and reconstructed by a Definition field. *)
Example C34_definition_example :
  let f := Fld p0 (KSequence (Fld p0 (KDate (Some (Date 2020 1 1)) None)) None (Some 5%Z) true) in
  let desc := describe env0 6 false in
  let recon := reconstruct env0 6 in
  let field := Fld p0 (KDefinition (Some [$"sequence"; $"text"])) in
  match process_gen env0 desc recon 5 field false Outbound true [] (VField f) with
  | Ok spec => spec <> VField f /\ exists g, process_gen env0 desc recon 5 field false Inbound true [] spec = Ok (VField g) /\ alike g f
  | _ => False
  end.
Proof. vm_compute. split; [discriminate|]. eexists. split; reflexivity. Qed.
@end *)
