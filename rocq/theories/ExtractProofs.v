(** * Extraction and instantiation (C53 to C55). *)
(* @imports Spec Demo ExtractSpec *)
From Coq Require Import ZifyBool ZifyN ZifyNat FinFun QArith.
From Verif Require Import PyBaseFacts Induct Spec Demo ProcessFacts StructFacts StructProofs ConfProofs
  ExtractSpec.

(** ** Unfolding *)

Lemma extract_Fld E n strict tests p k :
  extract E n strict tests (Fld p k)
  = extract_body E strict tests p k (kmap (fun g => (g, extract E n strict tests g)) k).
Proof. destruct n; reflexivity. Qed.

Lemma extract_FUndef E n strict tests i v :
  extract E n strict tests (FUndef i) v =
  match e_undef E i with
  | Some (Fld p k) => match n with O => py RecursionError | S m => extract E m strict tests (Fld p k) v end
  | _ => py AttributeError
  end.
Proof. destruct n; reflexivity. Qed.

Lemma instantiate_Fld E n p k :
  instantiate E n (Fld p k) = instantiate_body E p (kmap (fun g => (g, instantiate E n g)) k).
Proof. destruct n; reflexivity. Qed.

Lemma instantiate_FUndef E n i v key :
  instantiate E n (FUndef i) v key =
  match e_undef E i with
  | Some (Fld p k) => match n with O => py RecursionError | S m => instantiate E m (Fld p k) v key end
  | _ => py AttributeError
  end.
Proof. destruct n; reflexivity. Qed.

(** ** Loops *)

Lemma unless_excluded_ok r o : unless_excluded r = Ok o <-> outcome FieldExcludedError r o.
Proof.
  unfold unless_excluded. split.
  - destruct r as [w|[e|x]]; [intros [= <-]; constructor; reflexivity|discriminate|].
    destruct x; intros H; try discriminate H. injection H as <-. apply outcome_left. reflexivity.
  - intros [w ->| ->]; reflexivity.
Qed.

Lemma unless_missing_ok r o : unless_missing r = Ok o <-> outcome UndefinedParameterError r o.
Proof.
  unfold unless_missing. split.
  - destruct r as [w|[e|x]]; [intros [= <-]; constructor; reflexivity|discriminate|].
    destruct x; intros H; try discriminate H. injection H as <-. apply outcome_left. reflexivity.
  - intros [w ->| ->]; reflexivity.
Qed.

(** The wrapping of AttributeError matters neither to success nor to the caught exceptions. *)
Lemma outcome_wrap E f x r o : x = FieldExcludedError \/ x = UndefinedParameterError ->
  outcome x (wrap_undef E f r) o <-> outcome x r o.
Proof.
  intros Hx. assert (Hw : forall w, wrap_undef E f r = Ok w <-> r = Ok w) by (intros; apply wrap_Ok).
  assert (Hl : wrap_undef E f r = py x <-> r = py x).
  { unfold wrap_undef, py. destruct r as [w|[e|y]]; try reflexivity. destruct y; try reflexivity.
    destruct (undefined E f); [|reflexivity]. destruct Hx as [-> | ->]; split; discriminate. }
  split; intros [w H|H]; constructor; try (apply Hw; exact H); apply Hl; exact H.
Qed.

Lemma gather_ok {A B} (f : A -> res (option B)) l m :
  gather f l = Ok m <-> elements_made (fun a o => f a = Ok o) l m.
Proof.
  revert m. induction l as [|a l IH]; intros m; cbn [gather].
  - split; [intros [= <-]; constructor|intros H; inversion H; reflexivity].
  - split.
    + intros H. apply bind_Ok in H. destruct H as [b [Hb H]]. apply bind_Ok in H. destruct H as [bs [Hbs H]].
      injection H as <-. apply IH in Hbs. destruct b as [b|]; constructor; assumption.
    + intros H. inversion H as [|? ? ? Ha Hl|? b ? m' Ha Hl]; subst; rewrite Ha; cbn [bind]; apply IH in Hl; rewrite Hl; reflexivity.
Qed.

Lemma elements_made_iff {A B} (R S : A -> option B -> Prop) l m :
  (forall a o, R a o <-> S a o) -> elements_made R l m <-> elements_made S l m.
Proof.
  intros H. split; intros K; induction K; constructor; auto; apply H; assumption.
Qed.

Lemma make_all_ok {A B} (f : A -> res B) l m :
  make_all f l = Ok m <-> Forall2 (fun a b => f a = Ok b) l m.
Proof.
  revert m. induction l as [|a l IH]; intros m; cbn [make_all].
  - split; [intros [= <-]; constructor|intros H; inversion H; reflexivity].
  - split.
    + intros H. apply bind_Ok in H. destruct H as [b [Hb H]]. apply bind_Ok in H. destruct H as [bs [Hbs H]].
      injection H as <-. apply IH in Hbs. constructor; assumption.
    + intros H. inversion H as [|? b ? m' Ha Hl]; subst. rewrite Ha. cbn [bind]. apply IH in Hl. rewrite Hl. reflexivity.
Qed.

Lemma takes_part_test E tests p k :
  takes_part E tests p k -> match tests with [] => true | _ => screen E p k tests end = true.
Proof. intros [-> | H]; [reflexivity|]. destruct tests; [reflexivity|exact H]. Qed.

(** ** C53: one level *)

Definition gets (g : getter) (look : str -> option val) : Prop :=
  forall k, get_name g k = Ok (look k).

Lemma reads_getter strict s look :
  reads strict s look ->
  exists g, match as_dict s with
            | Some items => Ok (GetItem items)
            | None => if strict then py CannotExtractError else Ok (GetAttr s)
            end = Ok g /\ gets g look.
Proof.
  intros [[items [Hd Hl]]|[-> [i [attrs [-> Hl]]]]].
  - rewrite Hd. eexists. split; [reflexivity|]. intros k. cbn. rewrite Hl. reflexivity.
  - cbn. eexists. split; [reflexivity|]. intros k. cbn. rewrite Hl. reflexivity.
Qed.

Lemma extract_entries_ok E g look (run : field -> val -> res val) defn m :
  gets g look ->
  gather (extract_entry E g) (map (fun kf => (fst kf, (snd kf, run (snd kf)))) defn) = Ok m
  <-> entries_made FieldExcludedError false look run defn m.
Proof.
  intros Hg. rewrite gather_ok. revert m. induction defn as [|[k f] defn IH]; intros m; cbn [map fst snd].
  - split; intros H; inversion H; constructor.
  - assert (Hentry : forall o, extract_entry E g (k, (f, run f)) = Ok o <->
      match look k with
      | None | Some VNone => o = None
      | Some v => match o with
                  | None => run f v = py FieldExcludedError
                  | Some (k', w) => k' = VStr k /\ run f v = Ok w
                  end
      end).
    { intros o. unfold extract_entry. cbn [fst snd]. rewrite Hg. cbn [bind].
      assert (Hmain : forall v, (do r <- unless_excluded (work E (f, run f) v);
                 Ok (match r with Some w => Some (VStr k, w) | None => None end)) = Ok o <->
                 match o with
                 | None => run f v = py FieldExcludedError
                 | Some (k', w) => k' = VStr k /\ run f v = Ok w
                 end).
      { intros v. assert (Hu := unless_excluded_ok (work E (f, run f) v)).
        assert (Hw := fun q => outcome_wrap E f FieldExcludedError (run f v) q (or_introl eq_refl)).
        change (wrap_undef E f (run f v)) with (work E (f, run f) v) in Hw.
        split.
        - intros H. apply bind_Ok in H. destruct H as [r [Hr H]]. apply Hu, Hw in Hr. destruct Hr as [w Hr|Hr]; injection H as <-; auto.
        - intros H. destruct o as [[k' w]|].
          + destruct H as [-> H]. assert (Hr : unless_excluded (work E (f, run f) v) = Ok (Some w)).
            { apply Hu, Hw. constructor. exact H. }
            rewrite Hr. reflexivity.
          + assert (Hr : unless_excluded (work E (f, run f) v) = Ok None).
            { apply Hu, Hw. constructor. exact H. }
            rewrite Hr. reflexivity. }
      destruct (look k) as [v|].
      2: { split; [intros [= <-]; reflexivity|intros ->; reflexivity]. }
      destruct v; try apply Hmain. split; [intros [= <-]; reflexivity|intros ->; reflexivity]. }
    split; intros H.
    + inversion H as [|? ? ? Ha Hl|? b ? m' Ha Hl]; subst; apply Hentry in Ha; apply IH in Hl.
      * destruct (look k) as [v|] eqn:Hk; [|apply made_absent; [left; exact Hk|exact Hl]].
        destruct v; try (eapply made_left; [exact Hk|right; discriminate|exact Ha|exact Hl]).
        apply made_absent; [right; split; [reflexivity|exact Hk]|exact Hl].
      * destruct (look k) as [v|] eqn:Hk; [|discriminate].
        destruct v; try discriminate; destruct b as [k' w]; destruct Ha as [-> Ha];
          (eapply made_kept; [exact Hk|right; discriminate|exact Ha|exact Hl]).
    + inversion H as [|? ? ? ? Ha Hl|? ? ? v ? Hk Hv Ha Hl|? ? ? v w ? Hk Hv Ha Hl]; subst; apply IH in Hl.
      * apply elements_left; [|exact Hl]. apply Hentry. destruct Ha as [-> |[_ ->]]; reflexivity.
      * apply elements_left; [|exact Hl]. apply Hentry. rewrite Hk. destruct Hv as [Hv|Hv]; [discriminate|].
        destruct v; try congruence; exact Ha.
      * apply elements_kept; [|exact Hl]. apply Hentry. rewrite Hk. destruct Hv as [Hv|Hv]; [discriminate|].
        destruct v; try congruence; auto.
Qed.

(** @prop C53 Structure.extract, read from a dict by key or, when not strict, from an object by
    attribute: the result is a dict with exactly those keys of the definition for which the subject
    has a value that is not null and whose field is not excluded, in the order of the definition,
    each with the value extracted by its field. *)
Lemma structure_extract_exact :
  forall E n strict tests p defn st ko subject look r,
    let f := Fld p (KStructure (SPlain defn) st ko) in
    takes_part E tests p (KStructure (SPlain defn) st ko) -> p_extractor p = None ->
    reads strict subject look -> subject <> VNone ->
    (extract E n strict tests f subject = Ok r <->
     exists es, r = VDict false es
       /\ entries_made FieldExcludedError false look (fun g v => extract E n strict tests g v) defn es).
Proof.
  intros E n strict tests p defn st ko subject look r f Ht Hp Hr Hn. unfold f.
  rewrite extract_Fld. unfold extract_body. rewrite (takes_part_test _ _ _ _ Ht).
  destruct (is_none subject) eqn:Hnone; [destruct subject; discriminate || congruence|].
  cbn [kmap sdef_map]. unfold run_extractor. rewrite Hp. cbn [bind]. unfold extract_structure.
  destruct (reads_getter _ _ _ Hr) as [g [-> Hg]]. cbn [bind].
  assert (He := fun m => extract_entries_ok E g look (fun g' => extract E n strict tests g') defn m Hg).
  split.
  - intros H. apply bind_Ok in H. destruct H as [m [Hm H]]. injection H as <-. apply He in Hm. exists m. auto.
  - intros [es [-> Hes]]. apply He in Hes. rewrite Hes. reflexivity.
Qed.

(** @example
(* One key absent, one null, one excluded by the test, one kept; the unknown key "z" is ignored.  The
   same from an object that is not a dict. *)
Example C53_example :
  let f := Fld p0 (KStructure (SPlain [($"a", Fld p0 (KInteger None None)); ($"b", Fld p0 KBoolean);
                                       ($"c", Fld p0 KBoolean); ($"d", Fld p_req KBoolean)]) true None) in
  let v := VDict false [(VStr $"z", VInt 0); (VStr $"a", VInt 7); (VStr $"c", VNone); (VStr $"d", VBool true)] in
  extract env0 0 true [($"required", VBool false)] f v = Ok (VDict false [(VStr $"a", VInt 7)])
  /\ extract env0 0 false [] f (VObj 4 [($"d", VBool true); ($"q", VInt 1)])
     = Ok (VDict false [(VStr $"d", VBool true)])
  /\ extract env0 0 true [] f (VObj 4 [($"d", VBool true)]) = py CannotExtractError
  /\ reads false (VObj 4 [($"d", VBool true); ($"q", VInt 1)])
           (fun k => aget k [($"d", VBool true); ($"q", VInt 1)]).
Proof.
  cbn zeta. split; [vm_compute; reflexivity|]. split; [vm_compute; reflexivity|]. split; [vm_compute; reflexivity|].
  right. split; [reflexivity|]. eexists. eexists. split; reflexivity.
Qed.
@end *)

(** @prop C53 A polymorphic structure does the same with the definition of the variant that the
    subject's own discriminator names. *)
Lemma polymorphic_extract_exact :
  forall E n strict tests p q kd name vs st ko subject look ident i defn r,
    let k := KStructure (SPoly (Fld q kd) vs) st ko in
    takes_part E tests p k -> p_extractor p = None -> p_name q = Some name ->
    reads strict subject look -> subject <> VNone ->
    look name = Some ident -> truthy ident = true -> hashable ident = true ->
    find (fun vd => veq (e_local E) (fst vd) ident) vs = Some (i, defn) ->
    (extract E n strict tests (Fld p k) subject = Ok r <->
     exists es, r = VDict false es
       /\ entries_made FieldExcludedError false look (fun g v => extract E n strict tests g v) defn es).
Proof.
  intros E n strict tests p q kd name vs st ko subject look ident i defn r k Ht Hp Hname Hr Hn Hid Htr Hh Hfind.
  unfold k in *. rewrite extract_Fld. unfold extract_body. rewrite (takes_part_test _ _ _ _ Ht).
  destruct (is_none subject) eqn:Hnone; [destruct subject; discriminate || congruence|].
  cbn [kmap sdef_map]. unfold run_extractor. rewrite Hp. cbn [bind]. unfold extract_structure.
  destruct (reads_getter _ _ _ Hr) as [g [-> Hg]]. cbn [bind fst fparams]. rewrite Hname, Hg. cbn [bind].
  rewrite Hid, Htr. unfold variant. rewrite Hh. rewrite (find_map_snd (fun a => veq (e_local E) a ident)), Hfind.
  cbn [option_map fst snd bind].
  assert (He := fun m => extract_entries_ok E g look (fun g' => extract E n strict tests g') defn m Hg).
  split.
  - intros H. apply bind_Ok in H. destruct H as [m [Hm H]]. injection H as <-. apply He in Hm. exists m. auto.
  - intros [es [-> Hes]]. apply He in Hes. rewrite Hes. reflexivity.
Qed.

(** @example
Example C53_polymorphic :
  let on := Fld (p_named $"type") (KText None None None true) in
  let f := Fld p0 (KStructure (SPoly on [(VStr $"x", [($"type", on); ($"a", Fld p0 KBoolean)]);
                                         (VStr $"y", [($"type", on); ($"b", Fld p0 KBoolean)])]) true None) in
  extract env0 0 true [] f (VDict false [(VStr $"a", VBool true); (VStr $"b", VBool false); (VStr $"type", VStr $"y")])
  = Ok (VDict false [(VStr $"type", VStr $"y"); (VStr $"b", VBool false)])
  /\ extract env0 0 true [] f (VDict false [(VStr $"a", VBool true)]) = py KeyError.
Proof. vm_compute. auto. Qed.
@end *)

(** @prop C53 With a falsy discriminator the variants themselves are taken for the fields, under their
    identities as keys: nothing is extracted if the subject has none of these, and otherwise an exception
    is raised; from an object, by an identity that is no text at the latest. *)
Lemma polymorphic_extract_falsy :
  forall E n strict tests p q kd name vs st ko subject ident,
    let k := KStructure (SPoly (Fld q kd) vs) st ko in
    takes_part E tests p k -> p_extractor p = None -> p_name q = Some name -> truthy ident = false ->
    let out := extract E n strict tests (Fld p k) subject in
    (forall items, as_dict subject = Some items -> sget name items = Some ident ->
       ((forall i d, In (i, d) vs -> dget (e_local E) i items = None \/ dget (e_local E) i items = Some VNone) ->
          out = Ok (VDict false []))
       /\ (forall i d x, In (i, d) vs -> dget (e_local E) i items = Some x -> x <> VNone -> out = py AttributeError))
    /\ (forall cls attrs, subject = VObj cls attrs -> strict = false -> aget name attrs = Some ident ->
       ((forall i d, In (i, d) vs -> exists s, i = VStr s /\ (aget s attrs = None \/ aget s attrs = Some VNone)) ->
          out = Ok (VDict false []))
       /\ (forall before i d after, vs = before ++ (i, d) :: after ->
             (forall j d', In (j, d') before -> exists s, j = VStr s /\ (aget s attrs = None \/ aget s attrs = Some VNone)) ->
             (forall s x, i = VStr s -> aget s attrs = Some x -> x <> VNone -> out = py AttributeError)
             /\ ((forall s, i <> VStr s) -> out = py TypeError))).
Proof.
  intros E n strict tests p q kd name vs st ko subject ident k Ht Hp Hname Htr out.
  assert (Hout : subject <> VNone -> out = extract_structure E strict (sdef_map (fun g => (g, extract E n strict tests g)) (SPoly (Fld q kd) vs)) subject).
  { intros Hn. unfold out, k in *. rewrite extract_Fld. unfold extract_body. rewrite (takes_part_test _ _ _ _ Ht).
    destruct (is_none subject) eqn:Hnone; [destruct subject; discriminate || congruence|].
    cbn [kmap sdef_map]. unfold run_extractor. rewrite Hp. reflexivity. }
  clearbody out. split.
  - intros items Hd Hg. rewrite Hout by (intros ->; discriminate). cbn [sdef_map]. unfold extract_structure. rewrite Hd. cbn [bind fst fparams]. rewrite Hname.
    cbn [get_name bind]. rewrite Hg, Htr. clear Hout Ht k. split.
    + intros H. induction vs as [|[i d] vs IH]; [reflexivity|]. cbn [map extract_variants fst snd bind].
      destruct (H i d (or_introl eq_refl)) as [-> | ->]; (apply IH; intros j d' Hj; apply (H j d'); right; exact Hj).
    + intros i d x Hin Hx Hne. induction vs as [|[i' d'] vs IH]; [destruct Hin|]. cbn [map extract_variants fst snd bind].
      destruct Hin as [[= -> ->]|Hin]; [rewrite Hx; destruct x; congruence|].
      destruct (dget (e_local E) i' items) as [[]|]; try reflexivity; apply IH, Hin.
  - intros cls attrs -> -> Hg. rewrite Hout by discriminate. cbn [sdef_map]. unfold extract_structure. cbn [as_dict bind fst fparams]. rewrite Hname.
    cbn [get_name bind]. rewrite Hg, Htr. clear Hout Ht k. split.
    + intros H. induction vs as [|[i d] vs IH]; [reflexivity|]. cbn [map extract_variants fst snd].
      destruct (H i d (or_introl eq_refl)) as [s [-> [Hs|Hs]]]; cbn [get_name bind]; rewrite Hs; (apply IH; intros j d' Hj; apply (H j d'); right; exact Hj).
    + intros before i d after -> H. induction before as [|[j d'] before IH]; cbn [app map extract_variants fst snd].
      * split; [intros s x -> Hx Hne; cbn [get_name bind]; rewrite Hx; destruct x; congruence|].
        intros Hs. destruct i; try reflexivity. exfalso. eapply Hs. reflexivity.
      * destruct (H j d' (or_introl eq_refl)) as [s [-> [Hs|Hs]]]; cbn [get_name bind]; rewrite Hs; (apply IH; intros j' d'' Hj; apply (H j' d''); right; exact Hj).
Qed.

(** @example
Example C53_falsy_example :
  let on := Fld (p_named $"type") (KInteger None None) in
  let f := Fld p0 (KStructure (SPoly on [(VInt 0, [($"type", on)]); (VInt 1, [($"type", on); ($"b", Fld p0 KBoolean)])]) true None) in
  extract env0 0 true [] f (VDict false [(VStr $"type", VInt 0); (VStr $"b", VBool false)]) = Ok (VDict false [])
  /\ extract env0 0 true [] f (VDict false [(VStr $"type", VInt 0); (VInt 1, VBool false)]) = py AttributeError
  /\ extract env0 0 false [] f (VObj 4 [($"type", VInt 0)]) = py TypeError.
Proof. vm_compute. repeat split. Qed.
@end *)

(** @prop C53 Maps keep their keys, each with the value extracted by the value field, except those
    whose value is excluded. *)
Lemma map_extract_exact :
  forall E n strict tests p vf kf req subject items r,
    let k := KMap vf kf req in
    takes_part E tests p k -> p_extractor p = None -> as_dict subject = Some items ->
    (extract E n strict tests (Fld p k) subject = Ok r <->
     exists es, r = VDict false es
       /\ elements_made (same_key (fun v => outcome FieldExcludedError (extract E n strict tests vf v))) items es).
Proof.
  intros E n strict tests p vf kf req subject items r k Ht Hp Hd. unfold k in *.
  rewrite extract_Fld. unfold extract_body. rewrite (takes_part_test _ _ _ _ Ht).
  destruct (is_none subject) eqn:Hnone; [destruct subject; discriminate|].
  cbn [kmap]. unfold run_extractor. rewrite Hp. cbn [bind]. rewrite Hd.
  set (f := fun kv : val * val => _).
  assert (He : forall m, gather f items = Ok m <->
     elements_made (same_key (fun v => outcome FieldExcludedError (extract E n strict tests vf v))) items m).
  { intros m. rewrite gather_ok. apply elements_made_iff. intros [key v] o. unfold f, same_key. cbn [fst snd].
    assert (Hu := unless_excluded_ok (work E (vf, extract E n strict tests vf) v)).
    assert (Hw := fun q => outcome_wrap E vf FieldExcludedError (extract E n strict tests vf v) q (or_introl eq_refl)).
    change (wrap_undef E vf (extract E n strict tests vf v)) with (work E (vf, extract E n strict tests vf) v) in Hw.
    split.
    - intros H. apply bind_Ok in H. destruct H as [x [Hx H]]. apply Hu, Hw in Hx. destruct x as [w|]; injection H as <-; auto.
    - intros H. destruct o as [[k' w]|].
      + cbn in H. destruct H as [-> H]. apply Hw, Hu in H. rewrite H. reflexivity.
      + apply Hw, Hu in H. rewrite H. reflexivity. }
  split.
  - intros H. apply bind_Ok in H. destruct H as [m [Hm H]]. injection H as <-. apply He in Hm. exists m. auto.
  - intros [es [-> Hes]]. apply He in Hes. rewrite Hes. reflexivity.
Qed.

(** @example
Example C53_map :
  extract env0 0 true [] (Fld p0 (KMap (Fld p0 (KStructure (SPlain [($"a", Fld p0 KBoolean)]) true None)) None None))
    (VDict false [(VStr $"x", VDict false [(VStr $"a", VBool true); (VStr $"b", VNone)]); (VStr $"y", VNone)])
  = Ok (VDict false [(VStr $"x", VDict false [(VStr $"a", VBool true)]); (VStr $"y", VNone)]).
Proof. vm_compute. reflexivity. Qed.
@end *)

(** @prop C53 Sequences become lists of the items extracted, in order, without the excluded ones. *)
Lemma sequence_extract_exact :
  forall E n strict tests p it a b u subject l r,
    let k := KSequence it a b u in
    takes_part E tests p k -> p_extractor p = None -> elements subject l ->
    (extract E n strict tests (Fld p k) subject = Ok r <->
     exists m, r = VList m
       /\ elements_made (fun v => outcome FieldExcludedError (extract E n strict tests it v)) l m).
Proof.
  intros E n strict tests p it a b u subject l r k Ht Hp Hl. unfold k in *.
  rewrite extract_Fld. unfold extract_body. rewrite (takes_part_test _ _ _ _ Ht).
  assert (He : forall m, gather (fun x => unless_excluded (work E (it, extract E n strict tests it) x)) l = Ok m <->
     elements_made (fun v => outcome FieldExcludedError (extract E n strict tests it v)) l m).
  { intros m. rewrite gather_ok. apply elements_made_iff. intros v o. rewrite unless_excluded_ok.
    apply outcome_wrap. left. reflexivity. }
  assert (Hgoal : (do r <- gather (fun x => unless_excluded (work E (it, extract E n strict tests it) x)) l;
                   Ok (VList r)) = Ok r <->
     exists m, r = VList m
       /\ elements_made (fun v => outcome FieldExcludedError (extract E n strict tests it v)) l m).
  { split.
    - intros H. apply bind_Ok in H. destruct H as [m [Hm H]]. injection H as <-. apply He in Hm. exists m. auto.
    - intros [es [-> Hes]]. apply He in Hes. rewrite Hes. reflexivity. }
  destruct Hl as [-> | ->]; cbn [is_none kmap]; unfold run_extractor; rewrite Hp; cbn [bind]; exact Hgoal.
Qed.

(** @example
Example C53_sequence :
  extract env0 0 true [] (Fld p0 (KSequence (Fld p0 (KInteger None None)) None None false))
    (VTuple [VInt 1; VNone; VInt 3]) = Ok (VList [VInt 1; VNone; VInt 3]).
Proof. vm_compute. reflexivity. Qed.
@end *)

Lemma extract_tuple_ok E (run : field -> val -> res val) fs l m :
  length fs = length l ->
  extract_tuple E (map (fun g => (g, run g)) fs) l = Ok m <->
  elements_made (fun fv => outcome FieldExcludedError (run (fst fv) (snd fv))) (combine fs l) m.
Proof.
  revert l m. induction fs as [|g fs IH]; intros [|v l] m Hlen; try discriminate; cbn [map extract_tuple combine].
  - split; [intros [= <-]; constructor|intros H; inversion H; reflexivity].
  - injection Hlen as Hlen.
    assert (Hu := unless_excluded_ok (work E (g, run g) v)).
    assert (Hw := fun q => outcome_wrap E g FieldExcludedError (run g v) q (or_introl eq_refl)).
    change (wrap_undef E g (run g v)) with (work E (g, run g) v) in Hw. split.
    + intros H. apply bind_Ok in H. destruct H as [o [Ho H]]. apply bind_Ok in H. destruct H as [rs [Hrs H]].
      injection H as <-. apply Hu, Hw in Ho. apply (IH _ _ Hlen) in Hrs. destruct o; constructor; assumption.
    + intros H. inversion H as [|? ? ? Ha Hl|? b ? m' Ha Hl]; subst; cbn [fst snd] in Ha;
        apply Hw, Hu in Ha; rewrite Ha; cbn [bind]; apply (IH _ _ Hlen) in Hl; rewrite Hl; reflexivity.
Qed.

(** @prop C53 Tuples become tuples of what the fields extract position by position, without the
    excluded ones. *)
Lemma tuple_extract_exact :
  forall E n strict tests p fs subject l r,
    takes_part E tests p (KTuple fs) -> p_extractor p = None -> elements subject l -> length fs = length l ->
    (extract E n strict tests (Fld p (KTuple fs)) subject = Ok r <->
     exists m, r = VTuple m
       /\ elements_made (fun fv => outcome FieldExcludedError (extract E n strict tests (fst fv) (snd fv)))
                        (combine fs l) m).
Proof.
  intros E n strict tests p fs subject l r Ht Hp Hl Hlen.
  rewrite extract_Fld. unfold extract_body. rewrite (takes_part_test _ _ _ _ Ht).
  assert (He := fun m => extract_tuple_ok E (fun g => extract E n strict tests g) fs l m Hlen).
  assert (Hgoal : (do r <- extract_tuple E (map (fun g => (g, extract E n strict tests g)) fs) l; Ok (VTuple r)) = Ok r <->
     exists m, r = VTuple m
       /\ elements_made (fun fv => outcome FieldExcludedError (extract E n strict tests (fst fv) (snd fv)))
                        (combine fs l) m).
  { split.
    - intros H. apply bind_Ok in H. destruct H as [m [Hm H]]. injection H as <-. apply He in Hm. exists m. auto.
    - intros [es [-> Hes]]. apply He in Hes. rewrite Hes. reflexivity. }
  destruct Hl as [-> | ->]; cbn [is_none kmap]; unfold run_extractor; rewrite Hp; cbn [bind]; exact Hgoal.
Qed.

(** @example
Example C53_tuple :
  extract env0 0 true [($"required", VBool false)] (Fld p0 (KTuple [Fld p0 KBoolean; Fld p_req KBoolean]))
    (VList [VBool true; VBool false]) = Ok (VTuple [VBool true]).
Proof. vm_compute. reflexivity. Qed.
@end *)

(** @prop C53 What extraction refuses: a field that fails the tests is excluded; the failure of an
    extractor, and a subject of the wrong shape, is CannotExtractError. *)
Lemma extract_refuses :
  forall E n strict tests p k v,
    (tests <> [] -> screen E p k tests = false -> extract E n strict tests (Fld p k) v = py FieldExcludedError)
    /\ (takes_part E tests p k -> v <> VNone -> (forall l, k <> KUnion l) ->
        (forall i x, p_extractor p = Some i -> e_ext E i v = Raise x ->
           extract E n strict tests (Fld p k) v = py CannotExtractError)
        /\ (p_extractor p = None ->
            match k with
            | KMap _ _ _ => as_dict v = None
            | KStructure _ _ _ => as_dict v = None /\ strict = true
            | KSequence _ _ _ _ | KTuple _ => forall l, ~ elements v l
            | _ => False
            end -> extract E n strict tests (Fld p k) v = py CannotExtractError)).
Proof.
  intros E n strict tests p k v. split.
  - intros Hn Hs. rewrite extract_Fld. unfold extract_body. destruct tests; [congruence|]. rewrite Hs. reflexivity.
  - intros Ht Hv Hu. rewrite extract_Fld. unfold extract_body. rewrite (takes_part_test _ _ _ _ Ht).
    destruct (is_none v) eqn:Hnone; [destruct v; discriminate || congruence|]. split.
    + intros i x Hi Hx. destruct k; cbn [kmap]; try (exfalso; eapply Hu; reflexivity); unfold run_extractor; rewrite Hi, Hx; reflexivity.
    + intros Hp Hk. destruct k; try contradiction; cbn [kmap]; unfold run_extractor; rewrite Hp; cbn [bind].
      * rewrite Hk. reflexivity.
      * destruct v as [ | | | | | | | | | |l|l|o l|i l|i s w l|e|f]; try reflexivity; exfalso; eapply Hk; [left|right]; reflexivity.
      * unfold extract_structure. destruct Hk as [-> ->]. reflexivity.
      * destruct v as [ | | | | | | | | | |l|l|o l|i l|i s w l|e|f]; try reflexivity; exfalso; eapply Hk; [left|right]; reflexivity.
Qed.

(** @example
Example C53_refuses :
  let p := {| p_name := None; p_nonnull := false; p_required := false; p_ignore_null := false;
     p_default := VNone; p_constant := VNone; p_preprocessor := None; p_extractor := Some 1%nat;
     p_instantiator := None; p_title := VNone; p_description := VNone; p_notes := VNone;
     p_aspects := [] |} in
  extract env0 0 true [] (Fld p KBoolean) (VBool true) = py CannotExtractError
  /\ extract env0 0 true [] (Fld p0 (KSequence (Fld p0 KBoolean) None None false)) (VStr $"ab") = py CannotExtractError
  /\ extract env0 0 true [($"required", VBool true)] (Fld p0 KBoolean) (VBool true) = py FieldExcludedError.
Proof. vm_compute. auto. Qed.
@end *)

(** ** Truth and equality *)

Lemma pow2_nonzero e : ~ (pow2 e == 0)%Q.
Proof.
  destruct e; cbn; [discriminate| |].
  - unfold Qeq. cbn. assert (H := Z.pow_pos_nonneg 2 (Zpos p) ltac:(lia) ltac:(lia)).
    change (Z.pow_pos 2 p) with (2 ^ Zpos p)%Z. lia.
  - intros H. assert (Hp := Z.pow_pos_nonneg 2 (Zpos p) ltac:(lia) ltac:(lia)).
    change (Z.pow_pos 2 p) with (2 ^ Zpos p)%Z in H.
    assert (Hn : ~ (inject_Z (2 ^ Zpos p) == 0)%Q) by (unfold Qeq; cbn; lia).
    apply Hn. rewrite <- (Qinv_involutive (inject_Z (2 ^ Zpos p))), H. reflexivity.
Qed.

Lemma pow10_nonzero e : ~ (pow10 e == 0)%Q.
Proof.
  destruct e; cbn; [discriminate| |].
  - unfold Qeq. cbn. assert (H := Z.pow_pos_nonneg 10 (Zpos p) ltac:(lia) ltac:(lia)).
    change (Z.pow_pos 10 p) with (10 ^ Zpos p)%Z. lia.
  - intros H. assert (Hp := Z.pow_pos_nonneg 10 (Zpos p) ltac:(lia) ltac:(lia)).
    change (Z.pow_pos 10 p) with (10 ^ Zpos p)%Z in H.
    assert (Hn : ~ (inject_Z (10 ^ Zpos p) == 0)%Q) by (unfold Qeq; cbn; lia).
    apply Hn. rewrite <- (Qinv_involutive (inject_Z (10 ^ Zpos p))), H. reflexivity.
Qed.

Lemma inject_nonzero z : ~ (z = 0)%Z -> ~ (inject_Z z == 0)%Q.
Proof. intros H. unfold Qeq. cbn. lia. Qed.

Definition num_zero (n : num) : Prop := match n with NQ q => (q == 0)%Q | _ => False end.

Lemma truthy_num v n : num_of v = Some n -> (truthy v = false <-> num_zero n).
Proof.
  destruct v; cbn [num_of]; try discriminate; intros [= <-]; cbn [truthy].
  - destruct b; cbn; unfold Qeq; cbn; split; congruence.
  - unfold num_of_Z, num_zero, Qeq. cbn. rewrite Z.mul_1_r. destruct (Z.eqb_spec z 0); split; intros; subst; try discriminate; try reflexivity; congruence.
  - destruct f as [s|s| |s m e]; cbn; try (split; [discriminate|tauto]); [split; reflexivity|].
    split; [discriminate|]. intros H. exfalso. apply Qmult_integral in H. destruct H as [H|H]; [|exact (pow2_nonzero _ H)].
    revert H. apply inject_nonzero. destruct s; lia.
  - destruct d as [neg c e|neg|s t u]; cbn; try (split; [discriminate|tauto]).
    destruct (N.eqb_spec c 0) as [->|Hc]; cbn [negb].
    + split; [|reflexivity]. intros _. destruct neg; cbn; unfold Qeq; cbn; reflexivity.
    + split; [discriminate|]. intros H. exfalso. apply Qmult_integral in H. destruct H as [H|H]; [|exact (pow10_nonzero _ H)].
      revert H. apply inject_nonzero. unfold signed. destruct neg; lia.
Qed.

Lemma num_eqb_zero a b : num_eqb a b = true -> num_zero a <-> num_zero b.
Proof.
  destruct a, b; cbn; try discriminate; [|tauto]. intros H. apply Qeq_bool_iff in H. rewrite H. tauto.
Qed.

Lemma truthy_veq L a b : veq L a b = true -> truthy a = truthy b.
Proof.
  intros H.
  assert (Hnum : forall m n, num_of a = Some m -> num_of b = Some n -> num_eqb m n = true -> truthy a = truthy b).
  { intros m n Ha Hb He. apply num_eqb_zero in He. apply truthy_num in Ha. apply truthy_num in Hb.
    destruct (truthy a), (truthy b); try reflexivity; exfalso.
    - assert (true = false) by tauto. discriminate.
    - assert (true = false) by tauto. discriminate. }
  destruct a as [ | | | | | | | | | |x|x|o x|i x|i s w x|e|f]; cbn [veq] in H;
    try (destruct (num_of b) as [m|] eqn:Hb; [|discriminate]; eapply Hnum; [reflexivity|reflexivity|exact H]).
  - destruct b; try discriminate. reflexivity.
  - destruct b; try discriminate. apply str_eqb_eq in H. subst. reflexivity.
  - destruct b; try discriminate. apply str_eqb_eq in H. subst. reflexivity.
  - destruct b; try discriminate. reflexivity.
  - destruct b; try discriminate. reflexivity.
  - destruct b; try discriminate. reflexivity.
  - destruct b as [ | | | | | | | | | |y| | | | | | ]; try discriminate. destruct x, y; try discriminate; reflexivity.
  - destruct b as [ | | | | | | | | | | |y| | | | | ]; try discriminate. destruct x, y; try discriminate; reflexivity.
  - destruct b as [ | | | | | | | | | | | |o' y| |i' s' w' y| | ]; cbn [as_dict] in H; try discriminate;
      destruct x, y; try discriminate; reflexivity.
  - destruct b; try discriminate. reflexivity.
  - destruct b as [ | | | | | | | | | | | |o' y| |i' s' w' y| | ]; cbn [as_dict] in H; try discriminate;
      destruct x, y; try discriminate; reflexivity.
  - discriminate.
  - discriminate.
Qed.

(** ** C53: whole values *)

(** What the entries make, in the order of the definition. *)
Lemma gather_rebuild {C} (h : str * C -> res (option (val * val))) defn (l : list (val * val)) outs :
  NoDup (map fst defn) -> sublist (map fst l) (map VStr (map fst defn)) ->
  (forall k c, In (k, c) defn -> ~ In (VStr k) (map fst l) -> h (k, c) = Ok None) ->
  Forall2 (fun kv o => forall k c, fst kv = VStr k -> In (k, c) defn -> h (k, c) = Ok o) l outs ->
  gather h defn = Ok (flat_map (fun o => match o with Some x => [x] | None => [] end) outs).
Proof.
  revert l outs. induction defn as [|[k c] defn IH]; intros l outs Hnd Hsub Habs Hl; cbn [gather].
  - cbn in Hsub. inversion Hsub as [H| |]. destruct l; [|discriminate]. inversion Hl; subst. reflexivity.
  - cbn [map fst] in Hnd, Hsub. inversion Hnd as [|? ? Hnin Hnd']; subst.
    inversion Hsub as [|? ? ? Hs|? l' ? Hs Heq]; subst.
    + assert (Hk : ~ In (VStr k) (map fst l)).
      { intros Hin. eapply sublist_In in Hin; [|exact Hs]. apply in_map_iff in Hin.
        destruct Hin as [k' [Hk' Hin]]. injection Hk' as ->. contradiction. }
      rewrite (Habs k c (or_introl eq_refl) Hk). cbn [bind].
      rewrite (IH l outs Hnd' Hs); [reflexivity| |].
      * intros k' c' Hin. apply Habs. right. exact Hin.
      * clear - Hl. induction Hl as [|a o l os H Hl IHl]; constructor; [|exact IHl].
        intros k' c' Hk' Hin. apply H; [exact Hk'|right; exact Hin].
    + destruct l as [|[k' v] l]; [discriminate|]. cbn [map fst] in Heq. injection Heq as Hk1 Hk2. subst k' l'.
      inversion Hl as [|? o ? os Ho Hos]; subst. cbn [fst] in Ho.
      rewrite (Ho k c eq_refl (or_introl eq_refl)). cbn [bind flat_map].
      rewrite (IH l os Hnd' Hs).
      * cbn [bind]. destruct o; reflexivity.
      * intros k' c' Hin Hk'. apply Habs; [right; exact Hin|]. cbn [map fst]. intros [Heq|Hx]; [|contradiction].
        injection Heq as <-. apply (in_map fst) in Hin. contradiction.
      * clear - Hos. induction Hos as [|a o l os H Hl IHl]; constructor; [|exact IHl].
        intros k' c' Hk' Hin. apply H; [exact Hk'|right; exact Hin].
Qed.

Definition opts {A} (outs : list (option A)) : list A :=
  flat_map (fun o => match o with Some x => [x] | None => [] end) outs.

Lemma entry_of E (conf : field -> val -> Prop) defn l :
  NoDup (map fst defn) ->
  struct_conf E (map (fun kf => (fst kf, (snd kf, conf (snd kf)))) defn) None l ->
  NoDup (map fst l)
  /\ sublist (map fst l) (map VStr (map fst defn))
  /\ forall kv, In kv l -> exists k g, fst kv = VStr k /\ In (k, g) defn /\ conf g (snd kv).
Proof.
  intros Hnd [Hsub [Hent _]]. cbn beta iota zeta in Hsub.
  assert (Hkk : map fst (map (fun kf : str * field => (fst kf, (snd kf, conf (snd kf)))) defn) = map fst defn)
    by (rewrite map_map; reflexivity).
  assert (Hsub' : sublist (map fst l) (map VStr (map fst defn))) by (rewrite <- Hkk; exact Hsub).
  clear Hsub. rename Hsub' into Hsub.
  assert (Hndl : NoDup (map fst l)).
  { eapply sublist_NoDup; [exact Hsub|]. apply Injective_map_NoDup; [|exact Hnd]. intros a b [= H]; exact H. }
  split; [exact Hndl|]. split; [exact Hsub|].
  intros [k v] Hin. assert (Hk : In k (map fst l)) by (apply (in_map fst) in Hin; exact Hin).
  eapply sublist_In in Hk; [|exact Hsub]. apply in_map_iff in Hk. destruct Hk as [s [<- _]].
  destruct (Hent s v Hin) as [c [Hc Hv]]. apply in_map_iff in Hc. destruct Hc as [[s' g] [Heq Hg]].
  cbn in Heq. injection Heq as -> <-. exists s, g. auto.
Qed.

Lemma nne_dict o l k x : no_null_entries (VDict o l) -> In (k, x) l -> x <> VNone /\ no_null_entries x.
Proof. intros H. inversion H as [? H1 H2 Hv]; subst. intros Hin. eapply H1; [reflexivity|exact Hin]. Qed.
Lemma nne_elem v l x : no_null_entries v -> elements v l -> In x l -> no_null_entries x.
Proof. intros H. inversion H as [? H1 H2 Hv]; subst. intros He Hin. eapply H2; eauto. Qed.

(** Turn a statement about each element into one about a list. *)
Lemma Forall_choose {A B} (R : A -> B -> Prop) l :
  (forall a, In a l -> exists b, R a b) -> exists m, Forall2 R l m.
Proof.
  induction l as [|a l IH]; intros H; [exists []; constructor|].
  destruct (H a (or_introl eq_refl)) as [b Hb]. destruct IH as [m Hm]; [intros x Hx; apply H; right; exact Hx|].
  exists (b :: m). constructor; assumption.
Qed.

(** What extraction makes of an entry. *)
Definition entry_out (E : env) (defn : list (str * field)) (kv : val * val) (o : option (val * val)) : Prop :=
  match o with
  | None => snd kv = VNone
  | Some kw => snd kv <> VNone /\ exists k0 g, fst kv = VStr k0 /\ In (k0, g) defn /\ fst kw = VStr k0
               /\ denulled E g (snd kv) (snd kw) /\ (no_null_entries (snd kv) -> snd kw = snd kv)
  end.

(** @prop C53 In a schema without extractors (and without key orders and unions of containers), a
    conforming value is extracted as itself, without the null entries of its structures; without such
    entries it is returned unchanged. *)
Lemma extract_conforming :
  forall E n strict f v,
    throughout E well_keyed f -> throughout E straight f -> throughout E no_extractor f ->
    conforms E n f v ->
    exists w, extract E n strict [] f v = Ok w /\ denulled E f v w /\ (no_null_entries v -> w = v).
Proof.
  intros E n strict f v [Hf Hu] [Ht Htu] [Hx Hxu]. revert f Hf Ht Hx v.
  induction n as [n IHn] using lt_wf_ind.
  intros f. induction f as [i|p k IH] using field_ind'; intros Hf Ht Hx v H.
  - rewrite conforms_FUndef in H. rewrite extract_FUndef. destruct (e_undef E i) as [[|q k]|] eqn:He; try contradiction.
    destruct n as [|m]; [contradiction|].
    destruct (IHn m (Nat.lt_succ_diag_r m) (Fld q k) (Hu _ _ He) (Htu _ _ He) (Hxu _ _ He) v H) as [w [Hw [Hd Hn]]].
    exists w. split; [exact Hw|]. split; [eapply denulled_undef; eauto|exact Hn].
  - rewrite conforms_Fld in H. rewrite extract_Fld. unfold extract_body.
    assert (Hsub : forall g, In g (subfields k) -> forall v, conforms E n g v ->
              exists w, extract E n strict [] g v = Ok w /\ denulled E g v w /\ (no_null_entries v -> w = v)).
    { intros g Hg v'. apply (IH g Hg); eapply everywhere_sub; eauto. }
    assert (Hst := everywhere_top _ _ _ Ht). assert (Hwk := everywhere_top _ _ _ Hf).
    assert (Hnx := everywhere_top _ _ _ Hx). unfold no_extractor in Hnx.
    destruct (is_none v) eqn:Hnone.
    { destruct v; try discriminate. exists VNone. split; [reflexivity|]. split; [constructor|reflexivity]. }
    assert (Hv : v <> VNone) by (intros ->; discriminate).
    destruct H as [[-> _]|[_ H]]; [congruence|].
    assert (Hwork : forall g x, In g (subfields k) -> conforms E n g x ->
              exists w, unless_excluded (work E (g, extract E n strict [] g) x) = Ok (Some w)
                /\ denulled E g x w /\ (no_null_entries x -> w = x)).
    { intros g x Hg Hc. destruct (Hsub g Hg x Hc) as [w [Hw [Hd Hn]]]. exists w.
      unfold work. cbn [fst snd]. rewrite (wrap_of_Ok _ _ _ w Hw). split; [reflexivity|]. split; assumption. }
    assert (Hscal : kind_structural k = false ->
      exists w, run_extractor E p v = Ok w /\ denulled E (Fld p k) v w /\ (no_null_entries v -> w = v)).
    { intros Hk. exists v. unfold run_extractor. rewrite Hnx. split; [reflexivity|].
      split; [apply denulled_scalar; exact Hk|reflexivity]. }
    assert (Hentries : forall defn l, (forall kf, In kf defn -> In (snd kf) (subfields k)) -> NoDup (map fst defn) ->
      struct_conf E (map (fun kf => (fst kf, (snd kf, conforms E n (snd kf)))) defn) None l ->
      exists m, gather (extract_entry E (GetItem l)) (map (fun kf => (fst kf, (snd kf, extract E n strict [] (snd kf)))) defn) = Ok m
        /\ denulled_entries E defn l m /\ (no_null_entries (VDict false l) -> m = l)).
    { intros defn l Hin Hnd Hc. destruct (entry_of E (fun g => conforms E n g) defn l Hnd Hc) as [Hndl [Hsubl Hent]].
      assert (Hch : forall kv, In kv l -> exists o, 
         (forall k0 c, fst kv = VStr k0 -> In (k0, c) (map (fun kf => (fst kf, (snd kf, extract E n strict [] (snd kf)))) defn) ->
            extract_entry E (GetItem l) (k0, c) = Ok o)
         /\ entry_out E defn kv o).
      { intros [k0 x] Hkv. destruct (Hent _ Hkv) as [s [g [Hs [Hg Hcg]]]]. cbn [fst snd] in Hs, Hcg. subst k0.
        assert (Hget : sget s l = Some x) by (apply sget_NoDup; assumption).
        assert (Huniq : forall c, In (s, c) (map (fun kf => (fst kf, (snd kf, extract E n strict [] (snd kf)))) defn) ->
                         c = (g, extract E n strict [] g)).
        { intros c Hcin. apply in_map_iff in Hcin. destruct Hcin as [[s' g'] [Heq Hg']]. cbn in Heq. injection Heq as -> <-.
          apply aget_NoDup_In in Hg; [|exact Hnd]. apply aget_NoDup_In in Hg'; [|exact Hnd]. congruence. }
        destruct (is_none x) eqn:Hxn.
        - exists None. split; [|cbn; destruct x; discriminate || reflexivity].
          intros k0 c Hk0 Hcin. cbn [fst] in Hk0. injection Hk0 as <-. unfold extract_entry. cbn [fst get_name].
          rewrite Hget. cbn [bind]. destruct x; try discriminate. reflexivity.
        - destruct (Hwork g x (Hin _ Hg) Hcg) as [w [Hw [Hd Hn]]].
          exists (Some (VStr s, w)). split.
          + intros k0 c Hk0 Hcin. cbn [fst] in Hk0. injection Hk0 as <-. rewrite (Huniq _ Hcin).
            unfold extract_entry. cbn [fst snd get_name]. rewrite Hget. cbn [bind].
            rewrite Hw. destruct x; try discriminate; reflexivity.
          + split; [intros Hx0; cbn [snd] in Hx0; subst x; discriminate|]. exists s, g. cbn [fst snd]. do 4 (split; [auto|]). exact Hn. }
      apply Forall_choose in Hch. destruct Hch as [outs Houts]. exists (opts outs).
      assert (Houts2 : Forall2 (entry_out E defn) l outs) by (eapply Forall2_impl; [|exact Houts]; cbv beta; tauto). split; [|split].
      - apply (gather_rebuild _ _ l).
        + rewrite map_map. exact Hnd.
        + rewrite !map_map. rewrite map_map in Hsubl. exact Hsubl.
        + intros k0 c _ Hno. unfold extract_entry. cbn [fst get_name bind].
          assert (Hg0 : sget k0 l = None).
          { apply sget_None. intros x Hin'. apply Hno. apply (in_map fst) in Hin'. exact Hin'. }
          rewrite Hg0. reflexivity.
        + eapply Forall2_impl; [|exact Houts]. cbv beta. intros kv o [Ho _]. exact Ho.
      - clear - Houts2. induction Houts2 as [|[k0 x] o l os Ho _ IHl]; [constructor|].
        destruct o as [[k1 w]|]; cbn [entry_out fst snd opts flat_map app] in Ho |- *.
        + destruct Ho as [Hx0 [s [g [-> [Hg [-> [Hd _]]]]]]]. eapply denulled_keep; eauto.
        + subst x. apply denulled_drop, IHl.
      - intros Hnn. assert (Hnn' : forall kv, In kv l -> snd kv <> VNone /\ no_null_entries (snd kv)).
        { intros [k0 x] Hkv. exact (nne_dict _ _ _ _ Hnn Hkv). }
        clear - Houts2 Hnn'. induction Houts2 as [|[k0 x] o l os Ho _ IHl]; [reflexivity|].
        destruct (Hnn' (k0, x) (or_introl eq_refl)) as [Hn1 Hn2]. cbn [snd] in Hn1, Hn2.
        destruct o as [[k1 w]|]; cbn [entry_out fst snd opts flat_map app] in Ho |- *; [|contradiction].
        destruct Ho as [_ [s [g [-> [_ [-> [_ Hw]]]]]]]. rewrite (Hw Hn2). f_equal. apply IHl.
        intros kv Hkv. apply Hnn'. right. exact Hkv. }
    destruct k; cbn [kmap] in H |- *; try (apply Hscal; reflexivity).
    + (* map *)
      destruct H as [l [-> [_ [Hl _]]]]. unfold run_extractor. rewrite Hnx. cbn [bind as_dict].
      assert (Hvf : In value (subfields (KMap value key required_keys : kind))) by (destruct key; left; reflexivity).
      assert (Hch : forall kv, In kv l -> exists kw, 
          (do o <- unless_excluded (work E (value, extract E n strict [] value) (snd kv));
           Ok (match o with Some w => Some (fst kv, w) | None => None end)) = Ok (Some kw)
          /\ fst kv = fst kw /\ denulled E value (snd kv) (snd kw) /\ (no_null_entries (snd kv) -> snd kw = snd kv)).
      { intros [k0 x] Hkv. rewrite Forall_forall in Hl. destruct (Hl _ Hkv) as [_ [_ [_ Hc]]]. cbn [snd] in Hc.
        destruct (Hwork value x Hvf Hc) as [w [Hw [Hd Hn]]]. exists (k0, w). cbn [fst snd]. rewrite Hw. cbn [bind]. auto. }
      apply Forall_choose in Hch. destruct Hch as [m Hm]. exists (VDict false m). split; [|split].
      * assert (Hg : gather (fun kv => do o <- unless_excluded (work E (value, extract E n strict [] value) (snd kv));
                       Ok (match o with Some w => Some (fst kv, w) | None => None end)) l = Ok m).
        { apply gather_ok. clear - Hm. induction Hm as [|a b l m [Ha _] _ IHm]; constructor; assumption. }
        rewrite Hg. reflexivity.
      * constructor. eapply Forall2_impl; [|exact Hm]. cbv beta. intros kv kw [_ [H1 [H2 _]]]. auto.
      * intros Hnn. f_equal. assert (Hnn' : forall kv, In kv l -> no_null_entries (snd kv)).
        { intros [k0 x] Hkv. exact (proj2 (nne_dict _ _ _ _ Hnn Hkv)). }
        clear - Hm Hnn'. induction Hm as [|[k0 x] [k1 w] l m [_ [H1 [_ H2]]] _ IHm]; [reflexivity|]. cbn [fst snd] in *.
        rewrite (H2 (Hnn' (k0, x) (or_introl eq_refl))), H1. f_equal. apply IHm. intros kv Hkv. apply Hnn'. right. exact Hkv.
    + (* sequence *)
      destruct H as [l [-> [_ [_ [Hl _]]]]]. unfold run_extractor. rewrite Hnx. cbn [bind].
      assert (Hch : forall x, In x l -> exists w, unless_excluded (work E (item, extract E n strict [] item) x) = Ok (Some w)
                 /\ denulled E item x w /\ (no_null_entries x -> w = x)).
      { intros x Hin. rewrite Forall_forall in Hl. exact (Hwork item x (or_introl eq_refl) (Hl _ Hin)). }
      apply Forall_choose in Hch. destruct Hch as [m Hm]. exists (VList m). split; [|split].
      * assert (Hg : gather (fun x => unless_excluded (work E (item, extract E n strict [] item) x)) l = Ok m).
        { apply gather_ok. clear - Hm. induction Hm as [|a b l m [Ha _] _ IHm]; constructor; assumption. }
        rewrite Hg. reflexivity.
      * constructor. eapply Forall2_impl; [|exact Hm]. cbv beta. tauto.
      * intros Hnn. f_equal. assert (Hnn' : forall x, In x l -> no_null_entries x).
        { intros x Hin. eapply nne_elem; [exact Hnn|left; reflexivity|exact Hin]. }
        clear - Hm Hnn'. induction Hm as [|x w l m [_ [_ H2]] _ IHm]; [reflexivity|].
        rewrite (H2 (Hnn' x (or_introl eq_refl))). f_equal. apply IHm. intros y Hy. apply Hnn'. right. exact Hy.
    + (* structure *)
      unfold run_extractor. rewrite Hnx. cbn [bind]. cbn [straight] in Hst. destruct Hst as [-> Hst].
      unfold extract_structure. destruct d as [d|on vs]; cbn [sdef_map] in H |- *.
      * destruct H as [l [-> Hc]]. cbn [as_dict bind has_order]. destruct Hwk as [Hnd _].
        destruct (Hentries d l) as [m [Hm [Hd Hn]]]; [intros kf Hkf; cbn [subfields sdef_fields]; apply in_map, Hkf|exact Hnd|exact Hc|].
        rewrite Hm. exists (VDict false m). split; [reflexivity|]. split.
        -- eapply denulled_structure; [left; reflexivity|exact Hd].
        -- intros Hnn. f_equal. apply Hn, Hnn.
      * destruct H as [l [name [q [y [vk [d [-> [Hq [Hname [Hin [Hyn [Hy [Hh [Hfind Hc]]]]]]]]]]]]]].
        destruct Hwk as [_ [q' [kd [name' [-> [Hname' [Hb [Hkig Hvs]]]]]]]]. cbn [as_dict has_order bind fst fparams].
        cbn in Hq. subst q'. rewrite Hname in Hname'. injection Hname' as <-. rewrite Hname.
        rewrite (find_map_snd (fun a => veq (e_local E) a y)) in Hfind.
        destruct (find (fun vd => veq (e_local E) (fst vd) y) vs) as [[vk' d']|] eqn:Hf'; [|discriminate].
        cbn [option_map fst snd] in Hfind. injection Hfind as <- <-.
        apply find_some in Hf' as Hfs. destruct Hfs as [Hin_vs Heq]. cbn [fst] in Heq.
        rewrite Forall_forall in Hvs. destruct (Hvs _ Hin_vs) as [Hnd _]. cbn [fst snd] in Hnd.
        destruct (Hentries d' l) as [m [Hm [Hd Hn]]]; [|exact Hnd|exact Hc|].
        { intros kf Hkf. cbn [subfields sdef_fields]. right. apply in_flat_map. exists (vk', d'). split; [exact Hin_vs|]. apply in_map, Hkf. }
        assert (Hndl := proj1 (entry_of E (fun g => conforms E n g) d' l Hnd Hc)).
        cbn [get_name]. rewrite (sget_NoDup name y l Hndl Hin). cbn [bind].
        assert (Htr : truthy y = true) by (rewrite <- (truthy_veq _ _ _ Heq); exact (Hst _ Hin_vs)).
        rewrite Htr. unfold variant. rewrite Hh.
        rewrite (find_map_snd (fun a => veq (e_local E) a y)), Hf'. cbn [option_map fst snd bind].
        rewrite Hm. exists (VDict false m). split; [reflexivity|]. split.
        -- eapply denulled_structure; [right; eexists; eexists; eexists; split; [reflexivity|exact Hin_vs]|exact Hd].
        -- intros Hnn. f_equal. apply Hn, Hnn.
    + (* tuple *)
      destruct H as [l [-> Hl]]. unfold run_extractor. rewrite Hnx. cbn [bind].
      assert (Hex : exists m, extract_tuple E (map (fun g => (g, extract E n strict [] g)) values) l = Ok m
                /\ Forall2 (fun fv w => denulled E (fst fv) (snd fv) w) (combine values l) m
                /\ length values = length l /\ ((forall x, In x l -> no_null_entries x) -> m = l)).
      { clear - Hl Hwork. assert (Hw' : forall g x, In g values -> conforms E n g x ->
              exists w, unless_excluded (work E (g, extract E n strict [] g) x) = Ok (Some w)
                /\ denulled E g x w /\ (no_null_entries x -> w = x)) by (intros g x Hg; apply Hwork; exact Hg).
        clear Hwork. revert l Hl. induction values as [|g gs IHg]; intros l Hl; cbn [map] in Hl; inversion Hl as [|? x ? l' Hc Hl']; subst.
        - exists []. cbn. repeat split; constructor.
        - cbn [snd] in Hc. destruct (Hw' g x (or_introl eq_refl) Hc) as [w [H1 [H2 H3]]].
          destruct (IHg ltac:(intros g' x' Hg'; apply Hw'; right; exact Hg') l' Hl') as [m [Hm [Hd [Hlen Hn]]]].
          exists (w :: m). cbn [map extract_tuple combine length]. rewrite H1. cbn [bind]. rewrite Hm. cbn [bind].
          split; [reflexivity|]. split; [constructor; assumption|]. split; [congruence|].
          intros Hall. rewrite H3 by (apply Hall; left; reflexivity). f_equal. apply Hn. intros y Hy. apply Hall. right. exact Hy. }
      destruct Hex as [m [Hm [Hd [Hlen Hn]]]]. rewrite Hm. exists (VTuple m). split; [reflexivity|]. split.
      * constructor; assumption.
      * intros Hnn. f_equal. apply Hn. intros x Hin. eapply nne_elem; [exact Hnn|right; reflexivity|exact Hin].
    + (* union *)
      rewrite Hnx. cbn [bind]. exists v. split; [|split; [apply denulled_union|reflexivity]].
      destruct H as [c [Hc _]]. destruct fields as [|g fields]; [destruct Hc|]. cbn [map extract_union].
      cbn [straight] in Hst. inversion Hst as [|? ? [q [k' [-> Hk]]] _]; subst.
      assert (Hq := everywhere_top _ _ _ (everywhere_sub _ _ _ (Fld q k') Hx (or_introl eq_refl))). unfold no_extractor in Hq.
      assert (Hrun : extract E n strict [] (Fld q k') v = Ok v).
      { rewrite extract_Fld. unfold extract_body. rewrite Hnone.
        destruct k'; try discriminate; cbn [kmap]; unfold run_extractor; rewrite Hq; reflexivity. }
      unfold work. cbn [fst snd]. rewrite Hrun. reflexivity.
Qed.

(** @example
(* A nested document with a null in a structure (dropped) and one in a list (kept). *)
Example C53_conforming :
  let inner := Fld p0 (KStructure (SPlain [($"a", Fld p0 KBoolean); ($"b", Fld p0 KBoolean)]) true None) in
  let f := Fld p0 (KSequence inner None None false) in
  let v := VList [VDict false [(VStr $"a", VNone); (VStr $"b", VBool true)]; VNone] in
  throughout env0 well_keyed f /\ throughout env0 straight f /\ throughout env0 no_extractor f
  /\ conforms env0 0 f v
  /\ extract env0 0 true [] f v = Ok (VList [VDict false [(VStr $"b", VBool true)]; VNone]).
Proof.
  cbn zeta.
  assert (Hev : forall P : params -> kind -> Prop, P p0 KBoolean ->
    P p0 (KStructure (SPlain [($"a", Fld p0 KBoolean); ($"b", Fld p0 KBoolean)]) true None) ->
    P p0 (KSequence (Fld p0 (KStructure (SPlain [($"a", Fld p0 KBoolean); ($"b", Fld p0 KBoolean)]) true None)) None None false) ->
    throughout env0 P (Fld p0 (KSequence (Fld p0 (KStructure (SPlain [($"a", Fld p0 KBoolean); ($"b", Fld p0 KBoolean)]) true None)) None None false))).
  { intros P H1 H2 H3. split; [|discriminate]. constructor; [exact H3|]. intros g [<-|[]].
    constructor; [exact H2|]. intros g [<-|[<-|[]]]; constructor; try exact H1; intros ? []. }
  split; [apply Hev; try exact I; cbn; split; [|exact I]; repeat constructor; cbn; intuition discriminate|].
  split; [apply Hev; cbn; auto|]. split; [apply Hev; reflexivity|]. split; [|vm_compute; reflexivity].
  right. split; [discriminate|]. eexists. split; [reflexivity|]. split; [discriminate|]. split; [discriminate|].
  split; [|discriminate]. constructor; [|constructor; [left; auto|constructor]].
  right. split; [discriminate|]. eexists. split; [reflexivity|]. split; [apply sublist_take, sublist_take, sublist_nil|]. split.
  - intros k y [H|[H|[]]]; injection H as <- <-.
    + eexists. split; [left; reflexivity|]. left. auto.
    + eexists. split; [right; left; reflexivity|]. right. split; [discriminate|]. split; [eexists; reflexivity|].
      split; [left; reflexivity|intros _; split; [discriminate|exact I]].
  - intros k c _ [H|[H|[]]] Hno; injection H as <- <-; exfalso; apply Hno; [left|right; left]; reflexivity.
Qed.
@end *)

(** @prop C53 Why unions of containers are excluded: a union extracts with its first field that does
    not complain, and a structure never complains about foreign keys, so that a value conforming to
    the second alternative is lost. *)
Lemma extract_union_refuted :
  exists E n f v w,
    throughout E well_keyed f /\ throughout E no_extractor f /\ conforms E n f v
    /\ v <> w /\ no_null_entries v /\ extract E n true [] f v = Ok w.
Proof.
  set (s1 := Fld p0 (KStructure (SPlain [($"a", Fld p0 KBoolean)]) true None)).
  set (s2 := Fld p0 (KStructure (SPlain [($"b", Fld p0 KBoolean)]) true None)).
  exists env0, O, (Fld p0 (KUnion [s1; s2])), (VDict false [(VStr $"b", VBool true)]), (VDict false []).
  assert (Hev : forall P : params -> kind -> Prop, P p0 KBoolean ->
     (forall k, P p0 (KStructure (SPlain [(k, Fld p0 KBoolean)]) true None)) -> P p0 (KUnion [s1; s2]) ->
     throughout env0 P (Fld p0 (KUnion [s1; s2]))).
  { intros P H1 H2 H3. split; [|discriminate]. constructor; [exact H3|].
    intros g [<-|[<-|[]]]; (constructor; [apply H2|]); intros g [<-|[]]; constructor; try exact H1; intros ? []. }
  split; [apply Hev; try exact I; intros k; cbn; split; [constructor; [intros []|constructor]|exact I]|].
  split; [apply Hev; reflexivity|]. split.
  { right. split; [discriminate|]. eexists. split; [right; left; reflexivity|]. cbn [snd].
    right. split; [discriminate|]. eexists. split; [reflexivity|]. split; [apply sublist_take, sublist_nil|]. split.
    - intros k y [H|[]]; injection H as <- <-. eexists. split; [left; reflexivity|]. right. split; [discriminate|].
      split; [eexists; reflexivity|]. split; [left; reflexivity|intros _; split; [discriminate|exact I]].
    - intros k c _ [H|[]] Hno; injection H as <- <-; exfalso; apply Hno; left; reflexivity. }
  split; [discriminate|]. split; [|vm_compute; reflexivity].
  constructor.
  - intros o l k x [= <- <-] [H|[]]. injection H as <- <-. split; [discriminate|].
    constructor; [discriminate|]. intros l x [H|H]; discriminate.
  - intros l x [H|H]; discriminate.
Qed.

(** ** C54 *)

Lemma finished_iff E p w key r : w <> VNone -> run_instantiator E p w key = Ok r <-> finished E p w key r.
Proof.
  intros Hw. unfold run_instantiator, finished. destruct (p_instantiator p).
  - destruct (is_none w) eqn:Hn; [destruct w; discriminate || congruence|reflexivity].
  - split; congruence.
Qed.

Lemma make_ok E g run v key w : make E (g, run) v key = Ok w <-> run v key = Ok w.
Proof. unfold make. cbn [fst snd]. apply wrap_Ok. Qed.

(** @prop C54 Null is never instantiated; any other value of a scalar field is handed, with the key
    it has in its container, to the instantiator of the field, or returned as it is when the field has
    none. *)
Lemma scalar_instantiate_exact :
  forall E n p k v key r,
    kind_structural k = false ->
    instantiate E n (Fld p k) VNone key = Ok VNone
    /\ (v <> VNone -> (instantiate E n (Fld p k) v key = Ok r <-> finished E p v key r)).
Proof.
  intros E n p k v key r Hk. rewrite instantiate_Fld.
  assert (Hb : forall x, instantiate_body E p (kmap (fun g => (g, instantiate E n g)) k) x key = run_instantiator E p x key).
  { intros x. destruct k; try discriminate; reflexivity. }
  rewrite !Hb. split; [unfold run_instantiator; destruct (p_instantiator p); reflexivity|].
  intros Hv. apply finished_iff, Hv.
Qed.

(** @example
(* An environment whose instantiator 3 pairs the value with its key, and fails on null. *)
Definition env54 : env := {|
  e_pre := e_pre env0; e_ext := fun n v => match v with VTuple [x; _] => Ok x | _ => py ValueError end;
  e_inst := fun n v k => match v with VNone => py ValueError | _ => Ok (VTuple [v; k]) end;
  e_pattern := e_pattern env0; e_local := e_local env0; e_pad := e_pad env0; e_udigit := e_udigit env0;
  e_uword := e_uword env0; e_ulower := e_ulower env0; e_import := e_import env0; e_identify := e_identify env0;
  e_undef := e_undef env0; e_str := e_str env0; e_impl := e_impl env0; e_schemas := e_schemas env0;
  e_compile := e_compile env0; e_repr := e_repr env0;
     e_surrogate := e_surrogate env0; e_identity := e_identity env0 |}.
Definition p54 : params :=
  {| p_name := None; p_nonnull := false; p_required := false; p_ignore_null := false;
     p_default := VNone; p_constant := VNone; p_preprocessor := None; p_extractor := Some 3%nat;
     p_instantiator := Some 3%nat; p_title := VNone; p_description := VNone; p_notes := VNone;
     p_aspects := [] |}.
Example C54_scalar :
  instantiate env54 0 (Fld p54 KBoolean) (VBool true) (VStr $"k") = Ok (VTuple [VBool true; VStr $"k"])
  /\ instantiate env54 0 (Fld p54 KBoolean) VNone (VStr $"k") = Ok VNone.
Proof. vm_compute. auto. Qed.
@end *)

(** @prop C54 Bottom up: the items of a sequence are instantiated without key, in order, and the list
    of the results is handed to the sequence's own instantiator. *)
Lemma sequence_instantiate_exact :
  forall E n p it a b u l key r,
    instantiate E n (Fld p (KSequence it a b u)) (VList l) key = Ok r <->
    exists m, Forall2 (fun x y => instantiate E n it x VNone = Ok y) l m /\ finished E p (VList m) key r.
Proof.
  intros E n p it a b u l key r. rewrite instantiate_Fld. cbn [kmap instantiate_body is_none py_iter].
  assert (He : forall m, make_all (fun x => make E (it, instantiate E n it) x VNone) l = Ok m <->
                Forall2 (fun x y => instantiate E n it x VNone = Ok y) l m).
  { intros m. rewrite make_all_ok. split; apply Forall2_impl; intros x y; apply make_ok. }
  split.
  - intros H. apply bind_Ok in H. destruct H as [m [Hm H]]. exists m. split; [apply He, Hm|].
    apply finished_iff in H; [exact H|discriminate].
  - intros [m [Hm H]]. apply He in Hm. rewrite Hm. cbn [bind]. apply finished_iff; [discriminate|exact H].
Qed.

(** @example
Example C54_sequence :
  instantiate env54 0 (Fld p54 (KSequence (Fld p54 KBoolean) None None false)) (VList [VBool true; VNone]) (VInt 9)
  = Ok (VTuple [VList [VTuple [VBool true; VNone]; VNone]; VInt 9]).
Proof. vm_compute. reflexivity. Qed.
@end *)

(** @prop C54 Bottom up: the positions of a tuple, by their fields and without key. *)
Lemma tuple_instantiate_exact :
  forall E n p fs l key r,
    length fs = length l ->
    (instantiate E n (Fld p (KTuple fs)) (VTuple l) key = Ok r <->
     exists m, Forall2 (fun gx y => instantiate E n (fst gx) (snd gx) VNone = Ok y) (combine fs l) m
       /\ finished E p (VTuple m) key r).
Proof.
  intros E n p fs l key r Hlen. rewrite instantiate_Fld. cbn [kmap instantiate_body is_none].
  assert (He : forall pre fs post m, length fs = length post ->
     make_tuple E (map (fun g => (g, instantiate E n g)) fs) (length pre) (VTuple (pre ++ post)) = Ok m <->
     Forall2 (fun gx y => instantiate E n (fst gx) (snd gx) VNone = Ok y) (combine fs post) m).
  { clear. intros pre fs. revert pre. induction fs as [|g fs IH]; intros pre [|x post] m Hlen; try discriminate.
    - cbn. split; [intros [= <-]; constructor|intros H; inversion H; reflexivity].
    - injection Hlen as Hlen. cbn [map make_tuple combine py_index py_iter].
      assert (Hnth : nth_error (pre ++ x :: post) (length pre) = Some x).
      { rewrite nth_error_app2, Nat.sub_diag by lia. reflexivity. }
      rewrite Hnth. cbn [bind].
      assert (IH' := fun m => IH (pre ++ [x]) post m Hlen). rewrite app_length, Nat.add_1_r in IH'.
      rewrite <- app_assoc in IH'. cbn [app length] in IH'. split.
      + intros H. apply bind_Ok in H. destruct H as [y [Hy H]]. apply bind_Ok in H. destruct H as [ys [Hys H]].
        injection H as <-. constructor; [cbn [fst snd]; apply make_ok in Hy; exact Hy|]. apply IH'. exact Hys.
      + intros H. inversion H as [|? y ? ys Hy Hys]; subst. cbn [fst snd] in Hy. apply (make_ok E g (instantiate E n g)) in Hy. rewrite Hy. cbn [bind].
        apply IH' in Hys. rewrite Hys. reflexivity. }
  assert (He' := fun m => He [] fs l m Hlen). cbn [app length] in He'. split.
  - intros H. apply bind_Ok in H. destruct H as [m [Hm H]]. exists m. split; [apply He', Hm|].
    apply finished_iff in H; [exact H|discriminate].
  - intros [m [Hm H]]. apply He' in Hm. rewrite Hm. cbn [bind]. apply finished_iff; [discriminate|exact H].
Qed.

(** @example
Example C54_tuple :
  instantiate env54 0 (Fld p0 (KTuple [Fld p54 KBoolean; Fld p0 KBoolean])) (VTuple [VBool true; VBool false]) VNone
  = Ok (VTuple [VTuple [VBool true; VNone]; VBool false]).
Proof. vm_compute. reflexivity. Qed.
@end *)

(** @prop C54 Bottom up: the values of a map, each with its key. *)
Lemma map_instantiate_exact :
  forall E n p vf kf req o items key r,
    instantiate E n (Fld p (KMap vf kf req)) (VDict o items) key = Ok r <->
    exists m, Forall2 (fun kv kw => fst kw = fst kv /\ instantiate E n vf (snd kv) (fst kv) = Ok (snd kw)) items m
      /\ finished E p (VDict false m) key r.
Proof.
  intros E n p vf kf req o items key r. rewrite instantiate_Fld. cbn [kmap instantiate_body is_none as_dict].
  assert (He : forall m, make_all (fun kv => do w <- make E (vf, instantiate E n vf) (snd kv) (fst kv); Ok (fst kv, w)) items = Ok m <->
                Forall2 (fun kv kw => fst kw = fst kv /\ instantiate E n vf (snd kv) (fst kv) = Ok (snd kw)) items m).
  { intros m. rewrite make_all_ok. split; apply Forall2_impl; intros [k x] [k' w]; cbn [fst snd].
    - intros H. apply bind_Ok in H. destruct H as [y [Hy H]]. apply make_ok in Hy. injection H as <- <-. auto.
    - intros [-> H]. apply (make_ok E vf (instantiate E n vf)) in H. rewrite H. reflexivity. }
  split.
  - intros H. apply bind_Ok in H. destruct H as [m [Hm H]]. exists m. split; [apply He, Hm|].
    apply finished_iff in H; [exact H|discriminate].
  - intros [m [Hm H]]. apply He in Hm. rewrite Hm. cbn [bind]. apply finished_iff; [discriminate|exact H].
Qed.

(** @example
Example C54_map :
  instantiate env54 0 (Fld p0 (KMap (Fld p54 KBoolean) None None)) (VDict false [(VStr $"x", VBool true)]) VNone
  = Ok (VDict false [(VStr $"x", VTuple [VBool true; VStr $"x"])]).
Proof. vm_compute. reflexivity. Qed.
@end *)

Lemma make_entries_ok E n defn items m :
  make_all (make_entry E (map (fun kf => (fst kf, (snd kf, instantiate E n (snd kf)))) defn)) items = Ok m <->
  Forall2 (fun kv kw => fst kw = fst kv /\ exists s g, fst kv = VStr s /\ aget s defn = Some g
                        /\ instantiate E n g (snd kv) (fst kv) = Ok (snd kw)) items m.
Proof.
  rewrite make_all_ok.
  assert (Hget : forall s, aget s (map (fun kf => (fst kf, (snd kf, instantiate E n (snd kf)))) defn)
                           = option_map (fun g => (g, instantiate E n g)) (aget s defn)).
  { intros s. induction defn as [|[k g] defn IH]; cbn; [reflexivity|]. destruct (str_eqb s k); [reflexivity|exact IH]. }
  split; apply Forall2_impl; intros [k x] [k' w]; unfold make_entry; cbn [fst snd].
  - destruct k; try discriminate. rewrite Hget. destruct (aget s defn) as [g|] eqn:Hg; [|discriminate]. cbn [option_map].
    intros H. apply bind_Ok in H. destruct H as [y [Hy H]]. apply make_ok in Hy. injection H as <- <-. split; [reflexivity|].
    exists s, g. auto.
  - intros [-> [s [g [-> [Hg H]]]]]. rewrite Hget, Hg. cbn [option_map]. apply (make_ok E g (instantiate E n g)) in H. rewrite H. reflexivity.
Qed.

(** @prop C54 Bottom up: the entries of a structure, each by the field of its key and with its key;
    all keys must be defined. *)
Lemma structure_instantiate_exact :
  forall E n p defn st ko o items key r,
    NoDup (map fst defn) ->
    (instantiate E n (Fld p (KStructure (SPlain defn) st ko)) (VDict o items) key = Ok r <->
     exists m, Forall2 (fun kv kw => fst kw = fst kv
                          /\ exists s g, fst kv = VStr s /\ In (s, g) defn
                             /\ instantiate E n g (snd kv) (fst kv) = Ok (snd kw)) items m
       /\ finished E p (VDict false m) key r).
Proof.
  intros E n p defn st ko o items key r Hnd. rewrite instantiate_Fld.
  cbn [kmap sdef_map instantiate_body is_none as_dict].
  assert (He : forall m, make_all (make_entry E (map (fun kf => (fst kf, (snd kf, instantiate E n (snd kf)))) defn)) items = Ok m <->
    Forall2 (fun kv kw => fst kw = fst kv
                          /\ exists s g, fst kv = VStr s /\ In (s, g) defn
                             /\ instantiate E n g (snd kv) (fst kv) = Ok (snd kw)) items m).
  { intros m. rewrite make_entries_ok. split; apply Forall2_impl; intros kv kw [H1 [s [g [H2 [H3 H4]]]]];
      (split; [exact H1|]; exists s, g; split; [exact H2|]; split; [|exact H4]).
    - apply aget_In, H3.
    - apply aget_NoDup_In; assumption. }
  split.
  - intros H. apply bind_Ok in H. destruct H as [m [Hm H]]. exists m. split; [apply He, Hm|].
    apply finished_iff in H; [exact H|discriminate].
  - intros [m [Hm H]]. apply He in Hm. rewrite Hm. cbn [bind]. apply finished_iff; [discriminate|exact H].
Qed.

(** @example
Example C54_structure :
  let f := Fld p54 (KStructure (SPlain [($"a", Fld p54 KBoolean); ($"b", Fld p0 KBoolean)]) true None) in
  instantiate env54 0 f (VDict false [(VStr $"b", VBool true); (VStr $"a", VBool false)]) VNone
  = Ok (VTuple [VDict false [(VStr $"b", VBool true); (VStr $"a", VTuple [VBool false; VStr $"a"])]; VNone])
  /\ instantiate env54 0 f (VDict false [(VStr $"z", VBool true)]) VNone = py KeyError.
Proof. vm_compute. auto. Qed.
@end *)

(** @prop C54 Without instantiators, unions and key orders, every conforming value is instantiated as
    itself, whatever its key. *)
Lemma instantiate_identity_partial :
  forall E n f v key,
    throughout E well_keyed f -> throughout E straight f -> throughout E no_union f ->
    throughout E no_instantiator f -> conforms E n f v ->
    instantiate E n f v key = Ok v.
Proof.
  intros E n f v key [Hf Hu] [Ht Htu] [Hg Hgu] [Hx Hxu]. revert f Hf Ht Hg Hx v key.
  induction n as [n IHn] using lt_wf_ind.
  intros f. induction f as [i|p k IH] using field_ind'; intros Hf Ht Hg Hx v key H.
  - rewrite conforms_FUndef in H. rewrite instantiate_FUndef. destruct (e_undef E i) as [[|q k]|] eqn:He; try contradiction.
    destruct n as [|m]; [contradiction|]. apply IHn; eauto.
  - assert (Hsub : forall g v key, In g (subfields k) -> conforms E n g v -> instantiate E n g v key = Ok v).
    { intros g v' key' Hin. apply (IH g Hin); eapply everywhere_sub; eauto. }
    assert (Hst := everywhere_top _ _ _ Ht). assert (Hwk := everywhere_top _ _ _ Hf).
    assert (Hnx := everywhere_top _ _ _ Hx). unfold no_instantiator in Hnx.
    assert (Hnu := everywhere_top _ _ _ Hg).
    assert (Hfin : forall w key, finished E p w key w) by (intros; unfold finished; rewrite Hnx; reflexivity).
    destruct (is_none v) eqn:Hnone.
    { destruct v; try discriminate. rewrite instantiate_Fld. destruct k; try contradiction;
        cbn [kmap instantiate_body is_none]; unfold run_instantiator; rewrite ?Hnx; reflexivity. }
    assert (Hv : v <> VNone) by (intros ->; discriminate).
    rewrite conforms_Fld in H. destruct H as [[-> _]|[_ H]]; [congruence|].
    destruct (kind_structural k) eqn:Hks.
    2: { apply (proj2 (scalar_instantiate_exact E n p k v key v Hks) Hv), Hfin. }
    destruct k; try discriminate; cbn [kmap] in H.
    + destruct H as [l [-> [_ [Hl _]]]]. apply map_instantiate_exact. exists l. split; [|apply Hfin].
      assert (Hvf : In value (subfields (KMap value key0 required_keys : kind))) by (destruct key0; left; reflexivity).
      clear - Hl Hsub Hvf. induction Hl as [|kv l [_ [_ [_ Hkv]]] _ IHl]; constructor; [|exact IHl].
      split; [reflexivity|]. apply Hsub; assumption.
    + destruct H as [l [-> [_ [_ [Hl _]]]]]. apply sequence_instantiate_exact. exists l. split; [|apply Hfin].
      clear - Hl Hsub. induction Hl as [|x l Hx _ IHl]; constructor; [|exact IHl]. apply Hsub; [left; reflexivity|exact Hx].
    + cbn [straight] in Hst. destruct Hst as [-> Hst]. destruct d as [d|on vs]; cbn [sdef_map] in H.
      * destruct H as [l [-> Hc]]. destruct Hwk as [Hnd _]. cbn [has_order].
        destruct (entry_of E (fun g => conforms E n g) d l Hnd Hc) as [_ [_ Hent]].
        apply structure_instantiate_exact; [exact Hnd|]. exists l. split; [|apply Hfin].
        assert (Hin : forall g s, In (s, g) d -> In g (subfields (KStructure (SPlain d) strict None : kind)))
          by (intros g s Hs; cbn; apply (in_map snd) in Hs; exact Hs).
        clear - Hent Hsub Hin. induction l as [|kv l IHl]; constructor.
        -- split; [reflexivity|]. destruct (Hent kv (or_introl eq_refl)) as [s [g [Hs [Hg Hc]]]]. exists s, g.
           split; [exact Hs|]. split; [exact Hg|]. apply Hsub; [eapply Hin; exact Hg|exact Hc].
        -- apply IHl. intros kv' Hkv'. apply Hent. right. exact Hkv'.
      * destruct H as [l [name [q [y [vk [d [-> [Hq [Hname [Hin [Hyn [Hy [Hh [Hfind Hc]]]]]]]]]]]]]].
        destruct Hwk as [_ [q' [kd [name' [-> [Hname' [Hb [Hkig Hvs]]]]]]]]. cbn [has_order].
        cbn in Hq. subst q'. rewrite Hname in Hname'. injection Hname' as <-.
        rewrite (find_map_snd (fun a => veq (e_local E) a y)) in Hfind.
        destruct (find (fun vd => veq (e_local E) (fst vd) y) vs) as [[vk' d']|] eqn:Hf'; [|discriminate].
        cbn [option_map fst snd] in Hfind. injection Hfind as <- <-.
        apply find_some in Hf' as Hfs. destruct Hfs as [Hin_vs Heq]. cbn [fst] in Heq.
        rewrite Forall_forall in Hvs. destruct (Hvs _ Hin_vs) as [Hnd _]. cbn [fst snd] in Hnd.
        destruct (entry_of E (fun g => conforms E n g) d' l Hnd Hc) as [Hndl [_ Hent]].
        assert (Htr : truthy y = true) by (rewrite <- (truthy_veq _ _ _ Heq); exact (Hst _ Hin_vs)).
        rewrite instantiate_Fld. cbn [kmap sdef_map instantiate_body is_none fst fparams]. rewrite Hname. cbn [as_dict].
        rewrite (sget_NoDup name y l Hndl Hin), Htr. unfold variant. rewrite Hh.
        rewrite (find_map_snd (fun a => veq (e_local E) a y)), Hf'. cbn [option_map fst snd bind].
        assert (Hm : make_all (make_entry E (map (fun kf => (fst kf, (snd kf, instantiate E n (snd kf)))) d')) l = Ok l).
        { apply make_entries_ok.
          assert (Hin' : forall g s, In (s, g) d' -> In g (subfields (KStructure (SPoly (Fld q kd) vs) strict None : kind))).
          { intros g s Hs. cbn. right. apply in_flat_map. exists (vk', d'). split; [exact Hin_vs|]. apply (in_map snd) in Hs. exact Hs. }
          clear - Hent Hsub Hin' Hnd. induction l as [|kv l IHl]; constructor.
          - split; [reflexivity|]. destruct (Hent kv (or_introl eq_refl)) as [s [g [Hs [Hg Hc]]]]. exists s, g.
            split; [exact Hs|]. split; [apply aget_NoDup_In; assumption|]. apply Hsub; [eapply Hin'; exact Hg|exact Hc].
          - apply IHl. intros kv' Hkv'. apply Hent. right. exact Hkv'. }
        rewrite Hm. cbn [bind]. unfold run_instantiator. rewrite Hnx. reflexivity.
    + destruct H as [l [-> Hl]].
      assert (Hlen : length values = length l).
      { clear - Hl. revert l Hl. induction values as [|g gs IH]; intros l Hl; inversion Hl; subst; cbn; [reflexivity|f_equal; auto]. }
      apply tuple_instantiate_exact; [exact Hlen|]. exists l. split; [|apply Hfin].
      assert (Hs' : forall g v key, In g values -> conforms E n g v -> instantiate E n g v key = Ok v) by (intros; apply Hsub; assumption).
      clear - Hl Hs'. revert l Hl. induction values as [|g gs IHg]; intros l Hl; inversion Hl as [|? x ? l' Hc Hl']; subst; cbn [combine]; constructor.
      * cbn [fst snd] in *. apply Hs'; [left; reflexivity|exact Hc].
      * apply IHg; [|exact Hl']. intros g' v' key' Hg'. apply Hs'. right. exact Hg'.
    + contradiction.
Qed.

(** @example
Example C54_identity :
  let f := Fld p0 (KMap (Fld p0 (KInteger None None)) None None) in
  let v := VDict false [(VStr $"x", VInt 4); (VStr $"y", VNone)] in
  throughout env0 well_keyed f /\ throughout env0 straight f /\ throughout env0 no_union f
  /\ throughout env0 no_instantiator f /\ instantiate env0 0 f v (VStr $"k") = Ok v
  /\ exists n, conforms env0 n f v.
Proof.
  assert (Hev : forall P : params -> kind -> Prop, P p0 (KInteger None None) -> P p0 (KMap (Fld p0 (KInteger None None)) None None) ->
     throughout env0 P (Fld p0 (KMap (Fld p0 (KInteger None None)) None None))).
  { intros P H1 H2. split; [|discriminate]. constructor; [exact H2|]. intros g [<-|[]]. constructor; [exact H1|]. intros ? []. }
  cbn zeta. do 4 (split; [apply Hev; cbn; auto; reflexivity|]). split; [vm_compute; reflexivity|].
  exists O. right. split; [discriminate|]. eexists. split; [reflexivity|]. split; [|split; [|discriminate]].
  - cbn [map fst distinct]. split; [intros k [<-|[]]; reflexivity|]. split; [intros k []|exact I].
  - constructor; [|constructor; [|constructor]]; cbn [fst snd]; (split; [eexists; reflexivity|]); (split; [reflexivity|]);
      (split; [discriminate|]).
    + right. split; [discriminate|]. split; [|split; [left; reflexivity|intros _; split; [discriminate|exact I]]]. exists 4%Z. split; [reflexivity|].
      split; intros m H; discriminate.
    + left. auto.
Qed.
@end *)

(** @prop C54 Unions cannot be instantiated: the call always fails, at the top level and in sequences
    and tuples with NotImplementedError, in maps and structures (which pass a key) with TypeError. *)
Lemma instantiate_union_refuted :
  forall E n p fields v key,
    instantiate E n (Fld p (KUnion fields)) v key
    = match key with VNone => py NotImplementedError | _ => py TypeError end.
Proof. intros. rewrite instantiate_Fld. reflexivity. Qed.

(** @example
Example C54_union :
  let f := Fld p0 (KUnion [Fld p0 KBoolean]) in
  instantiate env0 0 f (VBool true) VNone = py NotImplementedError
  /\ instantiate env0 0 (Fld p0 (KMap f None None)) (VDict false [(VStr $"a", VBool true)]) VNone = py TypeError.
Proof. vm_compute. auto. Qed.
@end *)

(** ** C55 *)

Lemma revert_step E p k w key r :
  reverts E p k -> w <> VNone -> produced E k w -> finished E p w key r ->
  r <> VNone /\ exists w', run_extractor E p r = Ok w' /\ (w' = w \/ reads_like E k w w').
Proof.
  intros [H _] Hw Hpr Hf. unfold finished in Hf. unfold run_extractor. destruct (p_instantiator p) as [i|].
  - destruct H as [e [He H]]. destruct (H w key r Hw Hpr Hf) as [H1 [w' [H2 H3]]]. rewrite He, H2. eauto.
  - subst r. rewrite H. eauto.
Qed.

Lemma extract_entry_like E (d : list (str * worker)) l l' :
  (forall s, In s (map fst d) -> sget s l' = sget s l \/ sget s l = None /\ sget s l' = Some VNone) ->
  gather (extract_entry E (GetItem l')) d = gather (extract_entry E (GetItem l)) d.
Proof.
  induction d as [|[s c] d IH]; intros H; [reflexivity|]. cbn [gather].
  assert (Hh : extract_entry E (GetItem l') (s, c) = extract_entry E (GetItem l) (s, c)).
  { unfold extract_entry. cbn [fst snd get_name bind]. destruct (H s (or_introl eq_refl)) as [->|[-> ->]]; reflexivity. }
  rewrite Hh, IH; [reflexivity|]. intros s' Hs'. apply H. right. exact Hs'.
Qed.

(** Entries come back one by one. *)
Lemma entries_undone E n strict (d : list (str * field)) l m :
  NoDup (map fst d) -> NoDup (map fst l) -> sublist (map fst l) (map VStr (map fst d)) ->
  Forall2 (fun kv kw => fst kw = fst kv /\ snd kw <> VNone
             /\ exists s g, fst kv = VStr s /\ aget s d = Some g /\ extract E n strict [] g (snd kw) = Ok (snd kv)) l m ->
  gather (extract_entry E (GetItem m)) (map (fun kf => (fst kf, (snd kf, extract E n strict [] (snd kf)))) d) = Ok l.
Proof.
  intros Hnd Hndl Hsub Hf.
  assert (Hkeys : map fst m = map fst l).
  { clear - Hf. induction Hf as [|kv kw l m [H _] _ IH]; [reflexivity|]. cbn [map]. rewrite H, IH. reflexivity. }
  rewrite (gather_rebuild _ _ m (map Some l)).
  - f_equal. clear. induction l as [|x l IH]; [reflexivity|]. cbn [map flat_map app]. rewrite IH. reflexivity.
  - rewrite map_map. exact Hnd.
  - rewrite Hkeys, !map_map. rewrite map_map in Hsub. exact Hsub.
  - intros k c _ Hno. unfold extract_entry. cbn [fst get_name bind].
    assert (Hg0 : sget k m = None).
    { apply sget_None. intros x Hin'. apply Hno. apply (in_map fst) in Hin'. exact Hin'. }
    rewrite Hg0. reflexivity.
  - assert (Hget : forall kw s, In kw m -> fst kw = VStr s -> sget s m = Some (snd kw)).
    { intros [k x] s Hin Hk. cbn in Hk. subst k. apply sget_NoDup; [rewrite Hkeys; exact Hndl|exact Hin]. }
    clear Hsub Hndl Hkeys.
    assert (Hall : Forall2 (fun kw o => forall k c, fst kw = VStr k ->
       In (k, c) (map (fun kf => (fst kf, (snd kf, extract E n strict [] (snd kf)))) d) ->
       sget k m = Some (snd kw) -> extract_entry E (GetItem m) (k, c) = Ok o) m (map Some l)).
    { assert (Hgen : forall m0, Forall2 (fun kw o => forall k c, fst kw = VStr k ->
         In (k, c) (map (fun kf => (fst kf, (snd kf, extract E n strict [] (snd kf)))) d) ->
         sget k m0 = Some (snd kw) -> extract_entry E (GetItem m0) (k, c) = Ok o) m (map Some l)); [|exact (Hgen m)].
      intros m0. clear Hget. induction Hf as [|[k x] [k' w] l m [H1 [H2 [s [g [H3 [H4 H5]]]]]] _ IH]; cbn [map]; constructor; [|exact IH].
      cbn [fst snd] in *. subst k' k. intros k0 c [= <-] Hin Hs. apply in_map_iff in Hin. destruct Hin as [[s' g'] [Heq Hg']].
      cbn in Heq. injection Heq as -> <-. apply aget_NoDup_In in Hg'; [|exact Hnd]. rewrite H4 in Hg'. injection Hg' as <-.
      unfold extract_entry. cbn [fst snd get_name bind]. rewrite Hs.
      unfold work. cbn [fst snd]. rewrite H5. cbn [wrap_undef unless_excluded bind]. destruct w; try congruence; reflexivity. }
    clear Hf. revert Hget. generalize (map Some l) Hall. clear Hall. 
    assert (Hgen : forall m1 outs, (forall kw, In kw m1 -> In kw m) ->
        Forall2 (fun kw o => forall k c, fst kw = VStr k ->
       In (k, c) (map (fun kf => (fst kf, (snd kf, extract E n strict [] (snd kf)))) d) ->
       sget k m = Some (snd kw) -> extract_entry E (GetItem m) (k, c) = Ok o) m1 outs ->
       (forall kw s, In kw m -> fst kw = VStr s -> sget s m = Some (snd kw)) ->
       Forall2 (fun kv o => forall k c, fst kv = VStr k ->
          In (k, c) (map (fun kf => (fst kf, (snd kf, extract E n strict [] (snd kf)))) d) ->
          extract_entry E (GetItem m) (k, c) = Ok o) m1 outs).
    { intros m1 outs Hin HF Hget. induction HF as [|kw o m1 outs Hk _ IH]; constructor.
      - intros k c Hkk Hc. apply Hk; auto. apply Hget; [apply Hin; left; reflexivity|exact Hkk].
      - apply IH. intros kw' Hkw'. apply Hin. right. exact Hkw'. }
    intros outs Hall Hget. apply Hgen; auto.
Qed.

Lemma everywhere_impl (P Q : params -> kind -> Prop) f : (forall p k, P p k -> Q p k) -> everywhere P f -> everywhere Q f.
Proof.
  intros H. induction f as [i|p k IH] using field_ind'; intros Hf; [constructor|].
  constructor; [apply H; exact (everywhere_top _ _ _ Hf)|]. intros g Hg. apply (IH g Hg). eapply everywhere_sub; eauto.
Qed.

Lemma extract_instantiate_reverts E n strict f v key w :
    throughout E well_keyed f -> throughout E straight f -> throughout E no_union f ->
    throughout E (reverts E) f ->
    conforms E n f v -> no_null_entries v ->
    instantiate E n f v key = Ok w -> extract E n strict [] f w = Ok v.
Proof.
  intros [Hf Hu] [Ht Htu] [Hg Hgu] [Hx Hxu] Hc Hnn Hi.
  assert (Hgoal : extract E n strict [] f w = Ok v /\ (v <> VNone -> w <> VNone)); [|exact (proj1 Hgoal)].
  revert f Hf Ht Hg Hx v key w Hc Hnn Hi.
  induction n as [n IHn] using lt_wf_ind.
  intros f. induction f as [i|p k IH] using field_ind'; intros Hf Ht Hg Hx v key w H Hnn Hi.
  - rewrite conforms_FUndef in H. rewrite instantiate_FUndef in Hi. rewrite extract_FUndef.
    destruct (e_undef E i) as [[|q k]|] eqn:He; try contradiction.
    destruct n as [|m]; [contradiction|]. eapply IHn; eauto.
  - assert (Hsub : forall g v key w, In g (subfields k) -> conforms E n g v -> no_null_entries v ->
                     instantiate E n g v key = Ok w -> extract E n strict [] g w = Ok v /\ (v <> VNone -> w <> VNone)).
    { intros g v' key' w' Hin Hc' Hn' Hi'. eapply (IH g Hin); try (eapply everywhere_sub; eauto); eauto. }
    assert (Hst := everywhere_top _ _ _ Ht). assert (Hwk := everywhere_top _ _ _ Hf).
    assert (Hun := everywhere_top _ _ _ Hx). assert (Hnu := everywhere_top _ _ _ Hg).
    destruct (is_none v) eqn:Hnone.
    { destruct v; try discriminate. rewrite instantiate_Fld in Hi. split; [|congruence].
      assert (w = VNone).
      { destruct k; try contradiction; cbn [kmap instantiate_body is_none] in Hi; unfold run_instantiator in Hi;
          cbn [is_none] in Hi; try (destruct (p_instantiator p)); congruence. }
      subst w. rewrite extract_Fld. reflexivity. }
    assert (Hv : v <> VNone) by (intros ->; discriminate).
    rewrite conforms_Fld in H. destruct H as [[-> _]|[_ H]]; [congruence|].
    assert (Hlike : forall c, c <> VNone -> produced E k c -> finished E p c key w ->
      w <> VNone /\ is_none w = false /\ exists c', run_extractor E p w = Ok c' /\ (c' = c \/ reads_like E k c c')).
    { intros c Hc Hpr Hfin. destruct (revert_step _ _ _ _ _ _ Hun Hc Hpr Hfin) as [H1 H2]. split; [exact H1|]. split; [|exact H2].
      destruct w; try reflexivity. congruence. }
    assert (Hstep : (forall d s o, k <> KStructure d s o) -> forall c, c <> VNone -> finished E p c key w -> w <> VNone /\ is_none w = false /\ run_extractor E p w = Ok c).
    { intros Hk c Hc Hfin. destruct (Hlike c Hc) as [H1 [H2 [c' [H3 H4]]]]; [destruct k; try exact I; exfalso; eapply Hk; reflexivity|exact Hfin|].
      split; [exact H1|]. split; [exact H2|]. destruct H4 as [-> |H4]; [exact H3|]. destruct k; try (cbn in H4; subst c'; exact H3). exfalso. eapply Hk. reflexivity. }
    rewrite extract_Fld. unfold extract_body.
    destruct (kind_structural k) eqn:Hks.
    2: { apply (proj2 (scalar_instantiate_exact E n p k v key w Hks) Hv) in Hi. destruct (Hstep ltac:(intros; destruct k; discriminate) v Hv Hi) as [H1 [H2 H3]].
         rewrite H2. split; [|auto]. destruct k; try discriminate; cbn [kmap]; exact H3. }
    destruct k as [ | | | | | | | | | | | | value key0 required_keys | | item a b u | d0 strict0 o | | | | | values | values | ]; try discriminate; cbn [kmap] in H |- *.
    + (* map *)
      destruct H as [l [-> [_ [Hl _]]]]. apply map_instantiate_exact in Hi. destruct Hi as [m [Hm Hfin]].
      destruct (Hstep ltac:(discriminate) (VDict false m) ltac:(discriminate) Hfin) as [H1 [H2 H3]]. rewrite H2, H3. cbn [bind as_dict]. split; [|auto].
      assert (Hvf : In value (subfields (KMap value key0 required_keys : kind))) by (destruct key0; left; reflexivity).
      assert (Hnn' : forall kv, In kv l -> no_null_entries (snd kv)).
      { intros [k0 x] Hkv. exact (proj2 (nne_dict _ _ _ _ Hnn Hkv)). }
      assert (Hgat : gather (fun kv => do o <- unless_excluded (work E (value, extract E n strict [] value) (snd kv));
                       Ok (match o with Some w => Some (fst kv, w) | None => None end)) m = Ok l).
      { apply gather_ok. clear - Hm Hl Hsub Hvf Hnn'. revert Hl Hnn'. induction Hm as [|[k0 x] [k1 y] l m [E1 E2] _ IHm]; intros Hl Hnn'; [constructor|apply elements_kept].
        - cbn [fst snd] in *. subst k1. inversion Hl as [|? ? [_ [_ [_ Hcx]]] _]; subst. cbn [snd] in Hcx.
          assert (Hr := proj1 (Hsub value x k0 y Hvf Hcx (Hnn' (k0, x) (or_introl eq_refl)) E2)).
          unfold work. cbn [fst snd]. rewrite Hr. reflexivity.
        - apply IHm; [inversion Hl; assumption|]. intros kv Hkv. apply Hnn'. right. exact Hkv. }
      rewrite Hgat. reflexivity.
    + (* sequence *)
      destruct H as [l [-> [_ [_ [Hl _]]]]]. apply sequence_instantiate_exact in Hi. destruct Hi as [m [Hm Hfin]].
      destruct (Hstep ltac:(discriminate) (VList m) ltac:(discriminate) Hfin) as [H1 [H2 H3]]. rewrite H2, H3. cbn [bind]. split; [|auto].
      assert (Hnn' : forall x, In x l -> no_null_entries x).
      { intros x Hin. eapply nne_elem; [exact Hnn|left; reflexivity|exact Hin]. }
      assert (Hgat : gather (fun x => unless_excluded (work E (item, extract E n strict [] item) x)) m = Ok l).
      { apply gather_ok. clear - Hm Hl Hsub Hnn'. revert Hl Hnn'. induction Hm as [|x y l m E2 _ IHm]; intros Hl Hnn'; [constructor|apply elements_kept].
        - inversion Hl as [|? ? Hcx _]; subst.
          assert (Hr := proj1 (Hsub item x VNone y (or_introl eq_refl) Hcx (Hnn' x (or_introl eq_refl)) E2)).
          unfold work. cbn [fst snd]. rewrite Hr. reflexivity.
        - apply IHm; [inversion Hl; assumption|]. intros kv Hkv. apply Hnn'. right. exact Hkv. }
      rewrite Hgat. reflexivity.
    + (* structure *)
      cbn [straight] in Hst. destruct Hst as [-> Hst].
      assert (Hentries : forall d l m, (forall kf, In kf d -> In (snd kf) (subfields (KStructure d0 strict0 None : kind))) ->
        NoDup (map fst d) -> struct_conf E (map (fun kf => (fst kf, (snd kf, conforms E n (snd kf)))) d) None l ->
        no_null_entries (VDict false l) ->
        Forall2 (fun kv kw => fst kw = fst kv /\ exists s g, fst kv = VStr s /\ aget s d = Some g
                        /\ instantiate E n g (snd kv) (fst kv) = Ok (snd kw)) l m ->
        gather (extract_entry E (GetItem m)) (map (fun kf => (fst kf, (snd kf, extract E n strict [] (snd kf)))) d) = Ok l).
      { intros d l m Hin Hnd Hc Hn' Hm. destruct (entry_of E (fun g => conforms E n g) d l Hnd Hc) as [Hndl [Hsubl Hent]].
        apply entries_undone; try assumption. clear Hc Hndl Hsubl.
        assert (Hn2 : forall kv, In kv l -> snd kv <> VNone /\ no_null_entries (snd kv)).
        { intros [k0 x] Hkv. exact (nne_dict _ _ _ _ Hn' Hkv). }
        clear - Hm Hent Hsub Hin Hn2 Hnd. induction Hm as [|kv kw l m [E1 [s [g [E2 [E3 E4]]]]] _ IHm]; constructor.
        - split; [exact E1|]. destruct (Hn2 kv (or_introl eq_refl)) as [Hn3 Hn4].
          destruct (Hent kv (or_introl eq_refl)) as [s' [g' [Hs' [Hg' Hc']]]]. rewrite E2 in Hs'. injection Hs' as <-.
          apply aget_NoDup_In in Hg' as Hg2; [|exact Hnd]. rewrite E3 in Hg2. injection Hg2 as <-.
          destruct (Hsub g (snd kv) (fst kv) (snd kw) (Hin _ Hg') Hc' Hn4 E4) as [Hr1 Hr2]. split; [apply Hr2, Hn3|].
          exists s, g. auto.
        - apply IHm; intros kv' Hkv'; [apply Hent|apply Hn2]; right; exact Hkv'. }
      destruct d0 as [d|on vs]; cbn [sdef_map] in H |- *.
      * destruct H as [l [-> Hc]]. destruct Hwk as [Hnd _]. cbn [has_order] in *.
        rewrite instantiate_Fld in Hi. cbn [kmap sdef_map instantiate_body is_none as_dict] in Hi.
        apply bind_Ok in Hi. destruct Hi as [m [Hm Hfin]]. apply finished_iff in Hfin; [|discriminate].
        apply make_entries_ok in Hm.
        assert (Hkeys : map fst m = map fst l).
        { clear - Hm. induction Hm as [|kv kw l m [Hk _] _ IHm]; [reflexivity|]. cbn [map]. rewrite Hk, IHm. reflexivity. }
        destruct (entry_of E (fun g => conforms E n g) d l Hnd Hc) as [Hndl [_ Hent]].
        assert (Hpr : produced E (KStructure (SPlain d) strict0 None) (VDict false m)).
        { exists m, d. split; [reflexivity|]. rewrite Hkeys. split; [exact Hndl|]. split; [left; reflexivity|]. split.
          - intros x Hin. apply in_map_iff in Hin. destruct Hin as [kv [<- Hkv]]. destruct (Hent kv Hkv) as [s [g [Hs [Hg' _]]]].
            exists s. split; [exact Hs|]. apply (in_map fst) in Hg'. exact Hg'.
          - intros s g Hin Hno. destruct Hc as [_ [_ Hc]]. apply (Hc s (g, conforms E n g)); [|apply in_map_iff; exists (s, g); auto|exact Hno].
            rewrite map_map. apply (in_map (fun kf : str * field => fst kf)) in Hin. exact Hin. }
        destruct (Hlike (VDict false m) ltac:(discriminate) Hpr Hfin) as [H1 [H2 [c' [H3 H4]]]]. rewrite H2, H3. cbn [bind]. split; [|auto].
        assert (Hc' : exists m', c' = VDict false m' /\ forall s, In s (map fst d) -> sget s m' = sget s m \/ sget s m = None /\ sget s m' = Some VNone).
        { destruct H4 as [-> |[i1 [i2 [Hi1 [-> Hi2]]]]]; [exists m; auto|]. injection Hi1 as <-. exists i2. split; [reflexivity|].
          intros s Hs. apply (Hi2 d s); [left; reflexivity|exact Hs]. }
        destruct Hc' as [m' [-> Hm']].
        unfold extract_structure. cbn [as_dict bind].
        rewrite (extract_entry_like E _ m m') by (intros s Hs; rewrite map_map in Hs; apply Hm'; exact Hs).
        rewrite (Hentries d l m); auto. intros kf Hkf. cbn [subfields sdef_fields]. apply in_map, Hkf.
      * destruct H as [l [name [q [y [vk [d [-> [Hq [Hname [Hin [Hyn [Hy [Hh [Hfind Hc]]]]]]]]]]]]]].
        destruct Hwk as [_ [q' [kd [name' [-> [Hname' [Hb [Hkig Hvs]]]]]]]]. cbn [has_order] in *.
        cbn in Hq. subst q'. rewrite Hname in Hname'. injection Hname' as <-.
        rewrite (find_map_snd (fun a => veq (e_local E) a y)) in Hfind.
        destruct (find (fun vd => veq (e_local E) (fst vd) y) vs) as [[vk' d']|] eqn:Hf'; [|discriminate].
        cbn [option_map fst snd] in Hfind. injection Hfind as <- <-.
        apply find_some in Hf' as Hfs. destruct Hfs as [Hin_vs Heq]. cbn [fst] in Heq.
        rewrite Forall_forall in Hvs. destruct (Hvs _ Hin_vs) as [Hnd Hdisc]. cbn [fst snd] in Hnd, Hdisc.
        destruct (entry_of E (fun g => conforms E n g) d' l Hnd Hc) as [Hndl [_ Hent]].
        assert (Htr : truthy y = true) by (rewrite <- (truthy_veq _ _ _ Heq); exact (Hst _ Hin_vs)).
        rewrite instantiate_Fld in Hi. cbn [kmap sdef_map instantiate_body is_none fst fparams] in Hi.
        rewrite Hname in Hi. cbn [as_dict] in Hi.
        rewrite (sget_NoDup name y l Hndl Hin), Htr in Hi. unfold variant in Hi. rewrite Hh in Hi.
        rewrite (find_map_snd (fun a => veq (e_local E) a y)), Hf' in Hi. cbn [option_map fst snd bind] in Hi.
        apply bind_Ok in Hi. destruct Hi as [m [Hm Hfin]]. apply finished_iff in Hfin; [|discriminate].
        apply make_entries_ok in Hm.
        assert (Hkeys : map fst m = map fst l).
        { clear - Hm. induction Hm as [|kv kw l m [Hk _] _ IHm]; [reflexivity|]. cbn [map]. rewrite Hk, IHm. reflexivity. }
        assert (Hgm : sget name m = Some y).
        { apply sget_NoDup; [rewrite Hkeys; exact Hndl|].
          assert (Hex : exists kw, In kw m /\ fst kw = VStr name /\ instantiate E n (Fld (with_constant q vk') kd) y (VStr name) = Ok (snd kw)).
          { clear - Hm Hin Hdisc Hnd. induction Hm as [|kv kw l m [E1 [s [g [E2 [E3 E4]]]]] _ IHm]; [destruct Hin|].
            destruct Hin as [Hin|Hin].
            - subst kv. cbn [fst snd] in *. injection E2 as <-. exists kw. split; [left; reflexivity|]. split; [exact E1|].
              apply aget_NoDup_In in Hdisc; [|exact Hnd]. rewrite E3 in Hdisc. injection Hdisc as ->. exact E4.
            - destruct (IHm Hin) as [kw' [I1 I2]]. exists kw'. split; [right; exact I1|exact I2]. }
          destruct Hex as [[k0 y'] [I1 [I2 I3]]]. cbn [fst snd] in I2, I3. subst k0.
          assert (Hks' : kind_structural kd = false) by (destruct kd; try discriminate; reflexivity).
          apply (proj2 (scalar_instantiate_exact E n (with_constant q vk') kd y (VStr name) y' Hks') Hyn) in I3.
          unfold finished in I3. cbn [with_constant p_instantiator] in I3. destruct Hun as [_ Hun]. cbn in Hun. rewrite Hun in I3.
          subst y'. exact I1. }
        assert (Huse : in_use E (SPoly (Fld q kd) vs) m d').
        { right. exists q, kd, vs, name, y, vk'. repeat split; assumption. }
        assert (Hpr : produced E (KStructure (SPoly (Fld q kd) vs) strict0 None) (VDict false m)).
        { exists m, d'. split; [reflexivity|]. rewrite Hkeys. split; [exact Hndl|]. split; [exact Huse|]. split.
          - intros x Hin'. apply in_map_iff in Hin'. destruct Hin' as [kv [<- Hkv]]. destruct (Hent kv Hkv) as [s [g [Hs [Hg' _]]]].
            exists s. split; [exact Hs|]. apply (in_map fst) in Hg'. exact Hg'.
          - intros s g Hin' Hno. destruct Hc as [_ [_ Hc]]. apply (Hc s (g, conforms E n g)); [|apply in_map_iff; exists (s, g); auto|exact Hno].
            rewrite map_map. apply (in_map (fun kf : str * field => fst kf)) in Hin'. exact Hin'. }
        destruct (Hlike (VDict false m) ltac:(discriminate) Hpr Hfin) as [H1 [H2 [c' [H3 H4]]]]. rewrite H2, H3. cbn [bind]. split; [|auto].
        assert (Hc' : exists m', c' = VDict false m' /\ forall s, In s (map fst d') -> sget s m' = sget s m \/ sget s m = None /\ sget s m' = Some VNone).
        { destruct H4 as [-> |[i1 [i2 [Hi1 [-> Hi2]]]]]; [exists m; auto|]. injection Hi1 as <-. exists i2. split; [reflexivity|].
          intros s Hs. apply (Hi2 d' s); [exact Huse|exact Hs]. }
        destruct Hc' as [m' [-> Hm']].
        unfold extract_structure. cbn [as_dict bind fst fparams get_name]. rewrite Hname.
        assert (Hgm' : sget name m' = Some y).
        { destruct (Hm' name) as [Hx1|[Hx1 _]]; [apply (in_map fst) in Hdisc; exact Hdisc|congruence|congruence]. }
        rewrite Hgm'. cbn [bind]. rewrite Htr. unfold variant. rewrite Hh.
        rewrite (find_map_snd (fun a => veq (e_local E) a y)), Hf'. cbn [option_map fst snd bind].
        rewrite (extract_entry_like E _ m m') by (intros s Hs; rewrite map_map in Hs; apply Hm'; exact Hs).
        rewrite (Hentries d' l m); auto.
        intros kf Hkf. cbn [subfields sdef_fields]. right. apply in_flat_map. exists (vk', d'). split; [exact Hin_vs|]. apply in_map, Hkf.
    + (* tuple *)
      destruct H as [l [-> Hl]].
      assert (Hlen : length values = length l).
      { clear - Hl. revert l Hl. induction values as [|g gs IH]; intros l Hl; inversion Hl; subst; cbn; [reflexivity|f_equal; auto]. }
      apply tuple_instantiate_exact in Hi; [|exact Hlen]. destruct Hi as [m [Hm Hfin]].
      destruct (Hstep ltac:(discriminate) (VTuple m) ltac:(discriminate) Hfin) as [H1 [H2 H3]]. rewrite H2, H3. cbn [bind]. split; [|auto].
      assert (Hnn' : forall x, In x l -> no_null_entries x).
      { intros x Hin. eapply nne_elem; [exact Hnn|right; reflexivity|exact Hin]. }
      assert (Hs' : forall g v key w, In g values -> conforms E n g v -> no_null_entries v ->
                     instantiate E n g v key = Ok w -> extract E n strict [] g w = Ok v)
        by (intros g v' key' w' Hin' Hc' Hn' Hi'; exact (proj1 (Hsub g v' key' w' Hin' Hc' Hn' Hi'))).
      assert (Hext : extract_tuple E (map (fun g => (g, extract E n strict [] g)) values) m = Ok l).
      { clear - Hl Hm Hs' Hnn'. revert l m Hl Hm Hnn'. induction values as [|g gs IHg]; intros l m Hl Hm Hnn';
          inversion Hl as [|? x ? l' Hc Hl']; subst; cbn [combine] in Hm; inversion Hm as [|? y ? m' Hy Hm']; subst; [reflexivity|].
        cbn [fst snd] in Hc, Hy. cbn [map extract_tuple].
        assert (Hr : extract E n strict [] g y = Ok x).
        { eapply Hs'; [left; reflexivity|exact Hc|apply Hnn'; left; reflexivity|exact Hy]. }
        unfold work. cbn [fst snd]. rewrite Hr. cbn [wrap_undef unless_excluded bind].
        rewrite (IHg ltac:(intros g' v' key' w' Hg'; apply Hs'; right; exact Hg') l' m' Hl' Hm').
        - reflexivity.
        - intros z Hz. apply Hnn'. right. exact Hz. }
      rewrite Hext. reflexivity.
    + contradiction.
Qed.

(** @prop C55 If every extractor undoes its instantiator, then extraction undoes instantiation: what
    was instantiated from a conforming value without null entries is extracted as that value. *)
Lemma extract_instantiate_inverse :
  forall E n strict f v key w,
    throughout E well_keyed f -> throughout E straight f -> throughout E no_union f ->
    throughout E (undoes E) f ->
    conforms E n f v -> no_null_entries v ->
    instantiate E n f v key = Ok w -> extract E n strict [] f w = Ok v.
Proof.
  intros E n strict f v key w Hf Ht Hg [Hx Hxu]. apply extract_instantiate_reverts; try assumption.
  assert (H : forall p k, undoes E p k -> reverts E p k).
  { intros p k [H1 H2]. split; [|exact H2]. destruct (p_instantiator p) as [i|]; [|exact H1]. destruct H1 as [e [He H1]].
    exists e. split; [exact He|]. intros x key' y Hn Hp Hi. destruct (H1 x key' y Hn Hi) as [H3 H4]. split; [exact H3|].
    exists x. split; [exact H4|]. destruct k; try reflexivity. destruct Hp as [items [defn [-> _]]]. exists items, items. auto. }
  split; [eapply everywhere_impl; [exact H|exact Hx]|]. intros i g Hi. eapply everywhere_impl; [exact H|eauto].
Qed.

(** @example
(* Instantiator and extractor of every field: pair with the key, take the first of the pair.  Null
   entries must be excluded: they are left out by the extraction. *)
Example C55_example :
  let f := Fld p54 (KStructure (SPlain [($"a", Fld p54 KBoolean);
              ($"b", Fld p54 (KSequence (Fld p54 KBoolean) None None false))]) true None) in
  let v := VDict false [(VStr $"a", VBool true); (VStr $"b", VList [VBool false; VNone])] in
  let w := VTuple [VDict false [(VStr $"a", VTuple [VBool true; VStr $"a"]);
                                (VStr $"b", VTuple [VList [VTuple [VBool false; VNone]; VNone]; VStr $"b"])]; VInt 3] in
  undoes env54 p54 KBoolean
  /\ instantiate env54 0 f v (VInt 3) = Ok w /\ extract env54 0 true [] f w = Ok v
  /\ instantiate env54 0 f (VDict false [(VStr $"a", VNone)]) (VInt 3) = Ok (VTuple [VDict false [(VStr $"a", VNone)]; VInt 3])
  /\ extract env54 0 true [] f (VTuple [VDict false [(VStr $"a", VNone)]; VInt 3]) = Ok (VDict false []).
Proof.
  cbn zeta. split.
  { split; [|exact I]. cbn. eexists. split; [reflexivity|]. intros v key w Hv H. destruct v; try congruence; injection H as <-; split; try discriminate; reflexivity. }
  vm_compute. auto.
Qed.
@end *)
