(** * The construction of structures (C52). *)
(* @imports Spec Demo ConSpec SchemaSpec BuildSpec *)
From Verif Require Import PyBaseFacts Induct ProcessFacts StructFacts StructProofs ConFacts CloneFacts ConProofs SchemaProofs DescFacts BuildSpec Demo.

(** ** Sorting and cutting *)

Lemma str_leb_le a b : str_leb a b = true -> str_le a b.
Proof.
  revert b. induction a as [|x a IH]; intros [|y b]; cbn; try discriminate; try (intros _; constructor; fail).
  destruct (N.eqb_spec x y) as [-> |Hn]; [intros H; apply sle_same, IH, H|].
  intros H. apply sle_less. apply N.ltb_lt, H.
Qed.
Lemma str_leb_total a b : str_leb a b = false -> str_le b a.
Proof.
  revert b. induction a as [|x a IH]; intros [|y b]; cbn; try discriminate; try (intros _; constructor; fail).
  destruct (N.eqb_spec x y) as [-> |Hn]; [intros H; apply sle_same, IH, H|].
  intros H. apply sle_less. apply N.ltb_ge in H. lia.
Qed.
Lemma str_le_trans a b c : str_le a b -> str_le b c -> str_le a c.
Proof.
  intros H. revert c. induction H as [a|x y a b Hl|x a b H IH]; intros c Hc; [constructor| |].
  - inversion Hc; subst; [apply sle_less; lia|apply sle_less; assumption].
  - inversion Hc; subst; [apply sle_less; assumption|apply sle_same, IH; assumption].
Qed.

Lemma insert_perm s l : Permutation (s :: l) (insert_str s l).
Proof.
  induction l as [|x l IH]; cbn; [constructor; constructor|]. destruct (str_leb s x); [reflexivity|].
  rewrite perm_swap. constructor. exact IH.
Qed.
Lemma insert_sorted s l : StronglySorted str_le l -> StronglySorted str_le (insert_str s l).
Proof.
  induction l as [|x l IH]; intros H; cbn; [repeat constructor|]. inversion H as [|? ? Hs Hf]; subst.
  destruct (str_leb s x) eqn:Hx.
  - apply str_leb_le in Hx. constructor; [exact H|]. constructor; [exact Hx|].
    rewrite Forall_forall in *. intros y Hy. apply (str_le_trans _ x); [exact Hx|apply Hf, Hy].
  - constructor; [apply IH, Hs|]. rewrite Forall_forall in *. intros y Hy.
    apply (Permutation_in _ (Permutation_sym (insert_perm s l))) in Hy. destruct Hy as [<-|Hy]; [apply str_leb_total, Hx|apply Hf, Hy].
Qed.
Lemma sort_str_sorted l : sorted_names l (sort_str l).
Proof.
  split.
  - induction l as [|s l IH]; cbn; [constructor|]. rewrite <- insert_perm. constructor. exact IH.
  - induction l as [|s l IH]; cbn; [constructor|]. apply insert_sorted, IH.
Qed.

Lemma split_space_words s : words s (split_space s).
Proof.
  unfold split_space. induction s as [|c s IH]; cbn; [constructor; intros []|].
  destruct (N.eqb_spec c 32) as [-> |Hn].
  - apply (words_more []); [intros []|exact IH].
  - inversion IH as [w Hw H1 H2|w s' l Hw Hl H1 H2]; subst.
    + constructor. intros [H|H]; [apply Hn, H|apply Hw, H].
    + apply (words_more (c :: w)); [intros [H|H]; [apply Hn, H|apply Hw, H]|exact Hl].
Qed.
Lemma words_split s l : words s l -> l = split_space s.
Proof.
  unfold split_space. induction 1 as [w Hw|w s l Hw Hl IH].
  - induction w as [|c w IH]; cbn; [reflexivity|]. destruct (N.eqb_spec c 32) as [-> |Hn]; [destruct Hw; left; reflexivity|].
    rewrite <- IH by (intros H; apply Hw; right; exact H). reflexivity.
  - induction w as [|c w IHw]; cbn; [rewrite IH; reflexivity|]. destruct (N.eqb_spec c 32) as [-> |Hn]; [destruct Hw; left; reflexivity|].
    rewrite <- IHw by (intros H; apply Hw; right; exact H). reflexivity.
Qed.

(** ** Parts of the constructor *)

Lemma key_order_iff v o : key_order_arg v = Ok o <-> order_given v o.
Proof.
  unfold key_order_arg, order_given. split.
  - destruct v; try (destruct (truthy _) eqn:Ht; [discriminate|]; intros [= <-]; left; split; reflexivity).
    + destruct s as [|c s]; intros H; [injection H as <-; left; split; reflexivity|]. injection H as <-.
      right. left. exists (c :: s), (split_space (c :: s)). repeat split; [discriminate|apply split_space_words].
    + destruct l as [|x l]; [intros [= <-]; left; split; reflexivity|]. intros H. apply bind_Ok in H.
      destruct H as [names [He H]]. injection H as <-. right. right. exists names. apply each_ok in He.
      assert (Hl : x :: l = map VStr names).
      { clear -He. revert He; generalize (x :: l); intros xs He. induction He as [|a b xs names Hab Hl IH]; [reflexivity|]. destruct a; try discriminate. injection Hab as ->.
        cbn. rewrite IH. reflexivity. }
      rewrite Hl. repeat split. intros ->. discriminate.
  - intros [[Ht ->]|[[s [l [-> [Hs [Hw ->]]]]]|[l [-> [Hl ->]]]]].
    + destruct v; try (rewrite Ht; reflexivity); [destruct s; [reflexivity|discriminate]|destruct l; [reflexivity|discriminate]].
    + destruct s as [|c s]; [contradiction|]. rewrite (words_split _ _ Hw). reflexivity.
    + destruct l as [|s l]; [contradiction|]. change (map VStr (s :: l)) with (VStr s :: map VStr l).
      cbv beta iota. change (VStr s :: map VStr l) with (map VStr (s :: l)).
      assert (He : each as_str (map VStr (s :: l)) = Ok (s :: l)) by (rewrite each_map; apply each_id; reflexivity).
      rewrite He. reflexivity.
Qed.

Lemma set_name_eta p q : set_name None q = set_name None p -> q = set_name (p_name q) p.
Proof. destruct p, q. unfold set_name. cbn. intros H. injection H; intros; subst. reflexivity. Qed.

Lemma named_iff s f g : g = named s f <-> under_key s f g.
Proof.
  destruct f as [i|p k]; cbn [named under_key]; [reflexivity|]. split.
  - intros ->. destruct (p_name p) as [[|c n]|] eqn:Hn.
    + exists (set_name (Some s) p). split; [reflexivity|]. split; [reflexivity|]. split; [intros _ H; contradiction H; reflexivity|]. destruct p; reflexivity.
    + exists p. split; [reflexivity|]. split; [intros [H|H]; discriminate|]. split; [intros _ _; exact Hn|reflexivity].
    + exists (set_name (Some s) p). split; [reflexivity|]. split; [reflexivity|]. split; [intros H; contradiction H; reflexivity|]. destruct p; reflexivity.
  - intros [q [-> [H1 [H2 H3]]]]. apply set_name_eta in H3. destruct (p_name p) as [[|c n]|] eqn:Hn.
    + rewrite H3, H1 by auto. reflexivity.
    + rewrite H3, H2 by discriminate. f_equal. destruct p; cbn in *. subst. reflexivity.
    + rewrite H3, H1 by auto. reflexivity.
Qed.

Lemma structure_items_iff v l : structure_items v = Ok l <-> field_dict v l.
Proof.
  unfold structure_items, field_dict. destruct (as_dict v) as [items|].
  - rewrite each_ok. assert (Hx : forall (a : val * val) b, (do f <- field_arg (snd a); do s <- as_str (fst a); Ok (s, named s f)) = Ok b <-> field_entry a b).
    { intros [a x] [s g]. unfold field_entry. cbn [fst snd]. split.
      - destruct x; try discriminate. cbn [field_arg bind]. destruct a; try discriminate. cbn [as_str bind]. intros [= <- <-].
        split; [reflexivity|]. exists f. split; [reflexivity|]. apply named_iff. reflexivity.
      - intros [-> [f [-> Hu]]]. apply named_iff in Hu. subst g. reflexivity. }
    split.
    + intros H. exists items. split; [reflexivity|]. induction H; constructor; [apply Hx; assumption|assumption].
    + intros [i [[= <-] H]]. induction H; constructor; [apply Hx; assumption|assumption].
  - split; [discriminate|]. intros [i [[=] _]].
Qed.

Lemma fparams_iff E f p : fparams E f = Some p <-> defined_as E f p.
Proof.
  destruct f as [i|q k]; cbn.
  - destruct (e_undef E i) as [[j|q k]|]; split; try discriminate; try (intros [k' [=]]).
    + intros [= ->]. exists k. reflexivity.
    + subst. reflexivity.
  - split; [intros [= ->]; reflexivity|intros ->; reflexivity].
Qed.

Lemma default_values_iff E l items : default_values E true l = Ok items
  <-> exists ps, Forall2 (parameters_of E) l ps /\ items = default_entries true ps.
Proof.
  assert (Hstep : forall s p (ps : list (str * params)),
    (if negb true || negb (is_none (if is_none (p_default p) then p_constant p else p_default p))
     then (VStr s, if is_none (p_default p) then p_constant p else p_default p) :: default_entries true ps
     else default_entries true ps) = default_entries true ((s, p) :: ps)).
  { intros s p ps. change (default_entries true ((s, p) :: ps)) with
      (match fallback p with VNone => [] | v => [(VStr s, v)] end ++ default_entries true ps).
    unfold fallback. destruct (p_default p); try reflexivity. cbn [is_none negb orb]. destruct (p_constant p); reflexivity. }
  split.
  - revert items. induction l as [|[s f] l IH]; intros items; cbn [default_values].
    + intros [= <-]. exists []. split; [constructor|reflexivity].
    + destruct (fparams E f) as [p|] eqn:Hp; [|discriminate]. cbv zeta. intros H. apply bind_Ok in H.
      destruct H as [rest [Hr H]]. destruct (IH _ Hr) as [ps [HF ->]]. rewrite Hstep in H. apply Ok_inj in H. subst items.
      exists ((s, p) :: ps). split; [|reflexivity]. constructor; [|exact HF]. split; [reflexivity|]. apply fparams_iff, Hp.
  - intros [ps [HF ->]]. induction HF as [|[s f] [s' p] l ps [Hs Hd] HF IH]; [reflexivity|]. cbn [fst snd] in *. subst s'.
    cbn [default_values]. apply fparams_iff in Hd. rewrite Hd, IH. cbv zeta. cbn [bind]. rewrite Hstep. reflexivity.
Qed.

Lemma generated_iff E gd d old dflt (fields : list (str * field) -> Prop) :
  (truthy gd && negb (truthy old) = true -> forall r, (generated_default E gd d old = Ok r <->
     exists l items, fields l /\ default_values E true l = Ok items /\ r = VDict false items)) ->
  generated_default E gd d old = Ok dflt <-> structure_default E gd fields old dflt.
Proof.
  intros H. unfold structure_default. destruct (truthy gd && negb (truthy old)) eqn:Hc.
  - rewrite (H eq_refl). split.
    + intros [l [items [Hl [Hd ->]]]]. apply default_values_iff in Hd. destruct Hd as [ps [HF ->]]. exists l, ps. auto.
    + intros [l [ps [Hl [HF ->]]]]. exists l, (default_entries true ps). split; [exact Hl|]. split; [|reflexivity].
      apply default_values_iff. exists ps. auto.
  - unfold generated_default. rewrite Hc. split; [intros H0; apply Ok_inj in H0; auto|intros ->; reflexivity].
Qed.

Lemma generated_plain E gd l old dflt :
  generated_default E gd (SPlain l) old = Ok dflt <-> structure_default E gd (fun m => gd = VBool true /\ m = l) old dflt.
Proof.
  apply generated_iff. intros Hc r. unfold generated_default. rewrite Hc. split.
  - intros H. destruct gd as [|[|]| | | | | | | | | | | | | | |]; try discriminate. apply bind_Ok in H. destruct H as [items [Hd H]]. apply Ok_inj in H.
    exists l, items. auto.
  - intros [m [items [[-> ->] [Hd ->]]]]. rewrite Hd. reflexivity.
Qed.

Lemma find_first {A} (p : A -> bool) l x : find p l = Some x <->
  exists before after, l = before ++ x :: after /\ p x = true /\ forall y, In y before -> p y = false.
Proof.
  split.
  - induction l as [|a l IH]; cbn; [discriminate|]. destruct (p a) eqn:Ha.
    + intros [= <-]. exists [], l. split; [reflexivity|]. split; [exact Ha|intros ? []].
    + intros H. destruct (IH H) as [b [c [-> [Hx Hb]]]]. exists (a :: b), c. split; [reflexivity|]. split; [exact Hx|].
      intros y [<-|Hy]; [exact Ha|apply Hb, Hy].
  - intros [b [c [-> [Hx Hb]]]]. induction b as [|a b IH]; cbn; [rewrite Hx; reflexivity|].
    rewrite (Hb a) by (left; reflexivity). apply IH. intros y Hy. apply Hb. right. exact Hy.
Qed.

Lemma generated_poly E gd on vs old dflt :
  generated_default E gd (SPoly on vs) old = Ok dflt
  <-> structure_default E gd (fun m => hashable gd = true /\ variant_fields (e_local E) gd vs m) old dflt.
Proof.
  apply generated_iff. intros Hc r. unfold generated_default. rewrite Hc. split.
  - destruct (hashable gd); [|discriminate]. destruct (find _ vs) as [[j l]|] eqn:Hf; [|discriminate]. intros H.
    apply bind_Ok in H. destruct H as [items [Hd H]]. apply Ok_inj in H. apply find_first in Hf.
    destruct Hf as [b [c [-> [Hj Hb]]]]. exists l, items. split; [|auto]. split; [reflexivity|]. exists b, j, c. auto.
  - intros [l [items [[-> [b [j [c [-> [Hj Hb]]]]]] [Hd ->]]]].
    assert (Hf : find (fun vl => veq (e_local E) (fst vl) gd) (b ++ (j, l) :: c) = Some (j, l)).
    { apply find_first. exists b, c. auto. }
    rewrite Hf, Hd. reflexivity.
Qed.

(** ** Structures that are not polymorphic *)

Lemma init_field E cl kw p : init E cl CField kw = Ok (Fld p KField) <-> init_params E (others (class_args CField) kw) = Ok p.
Proof.
  unfold init. split.
  - intros H. apply bind_Ok in H. destruct H as [q [Hq H]]. injection H as ->. exact Hq.
  - intros ->. reflexivity.
Qed.

Lemma others_field E cl kw p : init E cl CField (others (class_args CStructure) kw) = Ok (Fld p KField)
  <-> init_params E (others (class_args CStructure) kw) = Ok p.
Proof.
  rewrite init_field. cbn [class_args]. assert (H : forall l, others [] l = l).
  { unfold others. induction l as [|a l IH]; [reflexivity|]. cbn. f_equal. exact IH. }
  rewrite H. reflexivity.
Qed.

(** @prop C52 A structure is constructed exactly when its parameter is a dict from texts to fields,
    the order of keys is a text or a list of texts, and the parameters of every field are accepted.
    Fields are named after their keys unless they have a name; a default is generated only when
    that is asked for (by True) and there is none. *)
Lemma structure_constructed :
  forall E cl kw f, truthy (arg $"polymorphic_on" kw) = false ->
    (init E cl CStructure kw = Ok f
     <-> exists fields p order d,
           field_dict (arg $"structure" kw) fields
           /\ init E cl CField (others (class_args CStructure) kw) = Ok (Fld p KField)
           /\ order_given (arg $"key_order" kw) order
           /\ structure_default E (arg $"generate_default" kw)
                (fun l => arg $"generate_default" kw = VBool true /\ l = fields) (p_default p) d
           /\ f = Fld (set_default d p) (KStructure (SPlain fields) (flag_on $"strict" kw) order)).
Proof.
  intros E cl kw f Ht. change (init E cl CStructure kw) with (init_structure E cl kw). unfold init_structure. cbv zeta. rewrite Ht. split.
  - destruct (as_dict (arg $"structure" kw)) as [items|] eqn:Hd; [|discriminate]. intros H.
    apply bind_Ok in H. destruct H as [order [Ho H]]. apply bind_Ok in H. destruct H as [p [Hp H]].
    apply bind_Ok in H. destruct H as [fields [Hf H]]. apply bind_Ok in H. destruct H as [d [Hg H]]. apply Ok_inj in H.
    exists fields, p, order, d. split; [apply structure_items_iff, Hf|]. split; [apply others_field, Hp|].
    split; [apply key_order_iff, Ho|]. split; [apply generated_plain, Hg|symmetry; exact H].
  - intros [fields [p [order [d [Hf [Hp [Ho [Hg ->]]]]]]]]. apply structure_items_iff in Hf. apply others_field in Hp.
    apply key_order_iff in Ho. apply generated_plain in Hg.
    assert (Hd : exists items, as_dict (arg $"structure" kw) = Some items).
    { unfold structure_items in Hf. destruct (as_dict (arg $"structure" kw)) as [items|]; [eauto|discriminate]. }
    destruct Hd as [items ->]. rewrite Ho, Hp, Hf. cbn [bind]. rewrite Hg. reflexivity.
Qed.
(** @example
Example C52_structure_example :
  let kw := [($"structure", VDict false [(VStr $"a", VField (Fld (p_def (VInt 3)) (KInteger None None)));
                                         (VStr $"b", VField (Fld (p_named $"c") KBoolean))]);
             ($"key_order", VStr $"b a"); ($"generate_default", VBool true); ($"required", VBool true)] in
  exists p fa,
    init env0 (fun f _ => Ok f) CStructure kw
      = Ok (Fld p (KStructure (SPlain [($"a", fa); ($"b", Fld (p_named $"c") KBoolean)]) true (Some [$"b"; $"a"])))
    /\ p_required p = true /\ p_default p = VDict false [(VStr $"a", VInt 3)]
    /\ under_key $"a" (Fld (p_def (VInt 3)) (KInteger None None)) fa.
Proof.
  intros kw. eexists _, (Fld (set_name (Some $"a") (p_def (VInt 3))) _). split; [|split; [|split]].
  - apply (structure_constructed env0 (fun f _ => Ok f) kw); [reflexivity|].
    eexists _, _, _, _. split; [|split; [|split; [|split]]]; [|reflexivity| | |reflexivity].
    + eexists. split; [reflexivity|]. repeat constructor; cbn [fst snd].
      * eexists. split; [reflexivity|]. eexists. split; [reflexivity|]. split; [reflexivity|]. split; [intros H; contradiction H; reflexivity|reflexivity].
      * eexists. split; [reflexivity|]. eexists. split; [reflexivity|]. split; [intros [H|H]; discriminate|]. split; reflexivity.
    + right. left. exists $"b a", [$"b"; $"a"]. split; [reflexivity|]. split; [discriminate|]. split; [|reflexivity].
      apply (words_more $"b"); [intros [H|[]]; discriminate|]. apply words_one. intros [H|[]]; discriminate.
    + unfold structure_default. eexists _, [($"a", _); ($"b", _)]. split; [split; reflexivity|]. split; [|reflexivity].
      repeat constructor.
  - reflexivity.
  - reflexivity.
  - eexists. split; [reflexivity|]. split; [reflexivity|]. split; [intros H; contradiction H; reflexivity|reflexivity].
Qed.
@end *)

(** ** Polymorphic structures *)

Lemma sget_str_eq L k s : veq L k (VStr s) = true <-> k = VStr s.
Proof.
  destruct k; cbn; try (split; discriminate).
  destruct (str_eqb_spec s0 s) as [-> |Hn]; [split; reflexivity|]. split; [discriminate|]. intros [= ->]. contradiction.
Qed.

Lemma sget_split s l v : sget s l = Some v ->
  exists before after, l = before ++ (VStr s, v) :: after /\ sget s before = None /\ sdel s l = before ++ after.
Proof.
  induction l as [|[a x] l IH]; cbn; [discriminate|].
  assert (Hrec : sget s l = Some v -> (forall w, a = VStr w -> str_eqb s w = false) ->
    exists before after, (a, x) :: l = before ++ (VStr s, v) :: after /\ sget s before = None /\ (a, x) :: sdel s l = before ++ after).
  { intros H Ha. destruct (IH H) as [b [c [-> [Hb Hc]]]]. exists ((a, x) :: b), c. split; [reflexivity|].
    split; [|cbn; f_equal; exact Hc]. cbn. destruct a; try exact Hb. rewrite (Ha s0 eq_refl). exact Hb. }
  destruct a; try (intros H; apply Hrec; [exact H|discriminate]).
  destruct (str_eqb_spec s s0) as [<-|Hn].
  - intros [= ->]. exists [], l. split; [reflexivity|]. split; reflexivity.
  - intros H. apply Hrec; [exact H|]. intros w [= <-]. apply str_eqb_neq, Hn.
Qed.

Lemma sget_absent s l : (forall x, ~ In (VStr s, x) l) -> sget s l = None.
Proof. intros H. apply sget_None. exact H. Qed.

Lemma dset_cases L s v d : NoDup (map fst d) ->
  (exists before x after, d = before ++ (VStr s, x) :: after /\ dset L (VStr s) v d = before ++ (VStr s, v) :: after
     /\ ~ In (VStr s) (map fst before) /\ ~ In (VStr s) (map fst after))
  \/ (~ In (VStr s) (map fst d) /\ dset L (VStr s) v d = d ++ [(VStr s, v)]).
Proof.
  induction d as [|[a x] d IH]; cbn [map fst dset]; intros Hn; [right; split; [intros []|reflexivity]|].
  inversion Hn as [|? ? H1 H2]; subst. destruct (veq L a (VStr s)) eqn:Hv.
  - apply sget_str_eq in Hv. subst a. left. exists [], x, d. split; [reflexivity|]. split; [reflexivity|]. split; [intros []|exact H1].
  - assert (Ha : a <> VStr s) by (intros He; apply (sget_str_eq L) in He; rewrite He in Hv; discriminate).
    destruct (IH H2) as [[b [y [c [-> [-> [Hb Hc]]]]]]|[Hs ->]].
    + left. exists ((a, x) :: b), y, c. split; [reflexivity|]. split; [reflexivity|]. split; [|exact Hc].
      intros [H|H]; [contradiction|exact (Hb H)].
    + right. split; [|reflexivity]. intros [H|H]; [contradiction|exact (Hs H)].
Qed.

Definition override (c : list (val * val)) (kv : val * val) : val * val :=
  (fst kv, match fst kv with
           | VStr s => match sget s c with Some x => x | None => snd kv end
           | _ => snd kv
           end).
Definition novel (d : list (val * val)) (kv : val * val) : bool :=
  match fst kv with
  | VStr s => match sget s d with Some _ => false | None => true end
  | _ => true
  end.

Lemma sget_not_in s l : ~ In (VStr s) (map fst l) -> sget s l = None.
Proof. intros H. apply sget_None. intros x Hx. apply H. change (VStr s) with (fst (VStr s, x)). apply in_map, Hx. Qed.
Lemma sget_app s a b : sget s (a ++ b) = match sget s a with Some x => Some x | None => sget s b end.
Proof. induction a as [|[k x] a IH]; cbn; [reflexivity|]. destruct k; try exact IH. destruct (str_eqb s s0); [reflexivity|exact IH]. Qed.

Lemma override_other s v c kv : fst kv <> VStr s -> override ((VStr s, v) :: c) kv = override c kv.
Proof.
  intros H. unfold override. destruct kv as [a x]. cbn [fst snd] in *. destruct a; try reflexivity. cbn [sget].
  destruct (str_eqb_spec s0 s) as [-> |Hn]; [contradiction|reflexivity].
Qed.

Lemma overlay_dset L s v d c : NoDup (map fst d) -> ~ In (VStr s) (map fst c) ->
  overlay (dset L (VStr s) v d) c = overlay d ((VStr s, v) :: c).
Proof.
  intros Hd Hc. unfold overlay. fold (override c) (override ((VStr s, v) :: c)).
  change (fun kv : val * val => (fst kv, match fst kv with VStr s => match sget s c with Some x => x | None => snd kv end | _ => snd kv end)) with (override c).
  change (fun kv : val * val => (fst kv, match fst kv with VStr s0 => match sget s0 ((VStr s, v) :: c) with Some x => x | None => snd kv end | _ => snd kv end)) with (override ((VStr s, v) :: c)).
  change (filter _ c) with (filter (novel (dset L (VStr s) v d)) c).
  change (filter _ ((VStr s, v) :: c)) with (filter (novel d) ((VStr s, v) :: c)).
  assert (Hm : forall l, ~ In (VStr s) (map fst l) -> map (override ((VStr s, v) :: c)) l = map (override c) l).
  { intros l Hl. apply map_ext_in. intros kv Hi. apply override_other. intros He. apply Hl. rewrite <- He. apply in_map, Hi. }
  destruct (dset_cases L s v d Hd) as [[b [x [a [-> [-> [Hb Ha]]]]]]|[Hs ->]].
  - rewrite !map_app. cbn [map]. rewrite (Hm b Hb), (Hm a Ha). cbn [filter].
    assert (Hno : novel (b ++ (VStr s, x) :: a) (VStr s, v) = false).
    { unfold novel. cbn [fst]. rewrite sget_app, (sget_not_in s b Hb). cbn [sget]. rewrite str_eqb_refl. reflexivity. }
    rewrite Hno. f_equal.
    + f_equal. f_equal. unfold override. cbn [fst snd sget]. rewrite str_eqb_refl, (sget_not_in s c Hc). reflexivity.
    + apply filter_ext_in. intros [k y] Hi. unfold novel. cbn [fst]. destruct k; try reflexivity. rewrite !sget_app. cbn [sget].
      destruct (sget s0 b); [reflexivity|]. destruct (str_eqb s0 s); reflexivity.
  - rewrite map_app, (Hm d Hs). cbn [map filter].
    assert (Hno : novel d (VStr s, v) = true) by (unfold novel; cbn [fst]; rewrite (sget_not_in s d Hs); reflexivity).
    rewrite Hno, <- app_assoc. f_equal. cbn [app]. f_equal.
    + unfold override. cbn [fst snd]. rewrite (sget_not_in s c Hc). reflexivity.
    + apply filter_ext_in. intros [k y] Hi. unfold novel. cbn [fst]. destruct k; try reflexivity. rewrite !sget_app. cbn [sget].
      destruct (str_eqb_spec s0 s) as [-> |Hn]; [|destruct (sget s0 d); reflexivity].
      exfalso. apply Hc. change (VStr s) with (fst (VStr s, y)). apply in_map, Hi.
Qed.

Lemma dset_nodup L s v d : NoDup (map fst d) -> NoDup (map fst (dset L (VStr s) v d)).
Proof.
  intros Hd. destruct (dset_cases L s v d Hd) as [[b [x [a [-> [-> _]]]]]|[Hs ->]].
  - rewrite map_app in *. exact Hd.
  - rewrite map_app. cbn. rewrite Permutation_app_comm. cbn. constructor; assumption.
Qed.

Lemma overlay_fold L c names : map fst c = map VStr names -> NoDup names -> forall d, NoDup (map fst d) ->
  fold_left (fun a x => dset L (fst x) (snd x) a) c d = overlay d c.
Proof.
  revert names. induction c as [|[k v] c IH]; intros names Hk Hn d Hd.
  - unfold overlay. cbn. rewrite app_nil_r. rewrite <- (map_id d) at 1. apply map_ext. intros [a x]. cbn. destruct a; reflexivity.
  - destruct names as [|s names]; [discriminate|]. cbn in Hk. injection Hk as -> Hk. inversion Hn as [|? ? Hs Hn']; subst.
    cbn [fold_left fst snd]. rewrite (IH names Hk Hn') by (apply dset_nodup, Hd). apply overlay_dset; [exact Hd|].
    rewrite Hk. intros Hi. apply in_map_iff in Hi. destruct Hi as [w [[= ->] Hi]]. exact (Hs Hi).
Qed.

Lemma names_nodup l names : map fst l = map VStr names -> NoDup names -> NoDup (map (@fst val val) l).
Proof. intros -> H. apply FinFun.Injective_map_NoDup; [intros a b [= ->]; reflexivity|exact H]. Qed.

Lemma merge_common_iff E l items : proper_dicts l -> (merge_common E l = Ok items <-> shared l items).
Proof.
  intros [Hnd Hp]. unfold merge_common, shared. destruct (sget $"*" l) as [common|] eqn:Hs.
  - destruct (sget_split _ _ _ Hs) as [b [a [-> [Hb Hdel]]]]. rewrite Hdel.
    assert (Hother : forall b' x' a', b ++ (VStr $"*", common) :: a = b' ++ (VStr $"*", x') :: a' -> sget $"*" b' = None -> b' = b /\ x' = common /\ a' = a).
    { clear -Hb. revert Hb. induction b as [|[k y] b IH]; intros Hb b' x' a' He Hb'; destruct b' as [|[k' y'] b'].
      - injection He as -> ->. auto.
      - exfalso. injection He as <- _ _. cbn [sget] in Hb'. rewrite str_eqb_refl in Hb'. discriminate.
      - exfalso. injection He as -> _ _. cbn [sget] in Hb. rewrite str_eqb_refl in Hb. discriminate.
      - injection He as <- <- He. assert (H1 : sget $"*" b = None /\ sget $"*" b' = None).
        { destruct k; try (split; [exact Hb|exact Hb']). cbn [sget] in Hb, Hb'. destruct (str_eqb _ s); [discriminate|]. auto. }
        destruct (IH (proj1 H1) _ _ _ He (proj2 H1)) as [-> [-> ->]]. auto. }
    assert (Hcommon : forall c, as_dict common = Some c -> exists names, map fst c = map VStr names /\ NoDup names).
    { intros c Hc. apply (Hp (VStr $"*") common c); [|exact Hc]. apply in_or_app. right. left. reflexivity. }
    assert (Hrest : forall k o d, In (k, VDict o d) (b ++ a) -> NoDup (map fst d)).
    { intros k o d Hi. destruct (Hp k (VDict o d) d) as [names [H1 H2]]; [|reflexivity|exact (names_nodup _ _ H1 H2)].
      apply in_or_app. apply in_app_or in Hi. destruct Hi; [left|right; right]; assumption. }
    rewrite each_ok. split.
    + intros H. right. exists b, common, a. split; [reflexivity|]. split; [exact Hb|].
      clear -H Hcommon Hrest. revert Hrest. induction H as [|[k x] [k' y] l items Hx Hl IH]; intros Hrest; constructor.
      * cbn [fst snd] in *. destruct x; try discriminate. destruct (as_dict common) as [c|] eqn:Hc; [|discriminate].
        injection Hx as <- <-. split; [reflexivity|]. exists ordered, l0, c. split; [reflexivity|]. split; [reflexivity|]. f_equal.
        destruct (Hcommon c eq_refl) as [names [H1 H2]]. apply (overlay_fold _ _ names H1 H2). apply (Hrest k ordered l0). left. reflexivity.
      * apply IH. intros k0 o d Hi. apply (Hrest k0 o d). right. exact Hi.
    + intros [[Hn _]|[b' [x' [a' [He [Hb' H]]]]]]; [discriminate|].
      destruct (Hother _ _ _ He Hb') as [-> [-> ->]]. clear -H Hcommon Hrest. revert Hrest.
      induction H as [|[k x] [k' y] l items [Hk [o [d [c [Hx [Hc Hy]]]]]] Hl IH]; intros Hrest; constructor.
      * cbn [fst snd] in *. subst k' x y. rewrite Hc. destruct (Hcommon c Hc) as [names [H1 H2]].
        rewrite (overlay_fold _ _ names H1 H2); [reflexivity|]. apply (Hrest k o d). left. reflexivity.
      * apply IH. intros k0 o' d' Hi. apply (Hrest k0 o' d'). right. exact Hi.
  - split.
    + intros H. apply Ok_inj in H. left. auto.
    + intros [[_ ->]|[b [x [a [-> [Hb _]]]]]]; [reflexivity|]. rewrite sget_app, Hb in Hs. cbn [sget] in Hs. rewrite str_eqb_refl in Hs. discriminate.
Qed.

Lemma replaced_made_required p : replaced [($"required", VBool true)] p = made_required p.
Proof. destruct p. reflexivity. Qed.
Lemma rekind_required k : rekind [($"required", VBool true)] k = k.
Proof. destruct k; reflexivity. Qed.
Lemma rekind_constant a k : rekind [($"constant", a)] k = k.
Proof. destruct k; reflexivity. Qed.
Lemma made_required_same p : p_required p = true -> made_required p = p.
Proof. destruct p. cbn. intros ->. reflexivity. Qed.

Lemma aset_keys {A} name (c : A) l : map fst (aset name c l) = map fst l ++ (if smem name (map fst l) then [] else [name]).
Proof.
  induction l as [|[s x] l IH]; [reflexivity|]. cbn [aset map fst smem existsb]. unfold smem. cbn [existsb].
  destruct (str_eqb name s); cbn [orb map fst]; [rewrite app_nil_r; reflexivity|]. cbn [app]. f_equal. exact IH.
Qed.

Lemma strings_iff l keys : each as_str l = Ok keys <-> l = map VStr keys.
Proof.
  rewrite each_ok. split.
  - intros H. induction H as [|a b l keys Hab Hl IH]; [reflexivity|]. destruct a; try discriminate. injection Hab as ->. cbn. f_equal. exact IH.
  - intros ->. induction keys; constructor; [reflexivity|assumption].
Qed.

(** The required discriminator. *)
Lemma discriminator_made E n onv (identities : list val) on :
  (forall g, onv = VField g -> sound E g /\ within (S n) g) ->
  (do on0 <- match onv with
             | VStr s => do keys <- each as_str identities; Ok (discriminator s keys)
             | VField (Fld p k) => Ok (Fld p k)
             | _ => py TypeError
             end;
   match on0 with
   | Fld p _ => if p_required p then Ok on0 else clone E (S n) on0 [($"required", VBool true)]
   | FUndef _ => py TypeError
   end) = Ok on ->
  discriminator_for onv identities on
  /\ exists q kd, on = Fld q kd /\ sound E on /\ within (S n) on.
Proof.
  intros Hs H. apply bind_Ok in H. destruct H as [on0 [H0 H]]. destruct onv; try discriminate.
  - apply bind_Ok in H0. destruct H0 as [keys [Hk H0]]. apply Ok_inj in H0. subst on0. cbn [discriminator p_required] in H.
    apply Ok_inj in H. subst on. apply strings_iff in Hk. split.
    + left. eexists s, keys, (sort_str keys), _. split; [reflexivity|]. split; [exact Hk|]. split; [apply sort_str_sorted|].
      split; [reflexivity|]. repeat split.
    + eexists _, _. split; [reflexivity|]. destruct (discriminator_sound E n s keys). split; assumption.
  - destruct f as [i|p k]; [discriminate|]. apply Ok_inj in H0. subst on0. destruct (Hs _ eq_refl) as [H1 H2].
    destruct (p_required p) eqn:Hr.
    + apply Ok_inj in H. subst on. split.
      * right. exists p, k. split; [reflexivity|]. rewrite (made_required_same p Hr). apply alike_refl.
      * exists p, k. auto.
    + destruct (clone_ok E (S n) p k [($"required", VBool true)] H2 H1) as [c' [Hc' [Hal Hcs]]].
      { constructor; [|constructor]. left. cbn. auto. }
      rewrite H in Hc'. apply Ok_inj in Hc'. subst c'. rewrite replaced_made_required, rekind_required in Hal.
      split; [right; exists p, k; auto|].
      assert (Hw : within (S n) on) by (apply (within_alike _ _ _ Hal); destruct k; exact H2).
      apply alike_inv in Hal. destruct Hal as [p' [k' [-> _]]]. exists p', k'. auto.
Qed.

Lemma discriminator_accepts E n onv identities :
  (forall g, onv = VField g -> sound E g /\ within (S n) g) ->
  (exists q kd name,
     (do on0 <- match onv with
             | VStr s => do keys <- each as_str identities; Ok (discriminator s keys)
             | VField (Fld p k) => Ok (Fld p k)
             | _ => py TypeError
             end;
      match on0 with
      | Fld p _ => if p_required p then Ok on0 else clone E (S n) on0 [($"required", VBool true)]
      | FUndef _ => py TypeError
      end) = Ok (Fld q kd) /\ p_name q = Some name)
  <-> discriminating onv identities.
Proof.
  intros Hs. split.
  - intros [q [kd [name [H Hn]]]]. apply bind_Ok in H. destruct H as [on0 [H0 H]]. destruct onv; try discriminate.
    + apply bind_Ok in H0. destruct H0 as [keys [Hk _]]. apply strings_iff in Hk. left. exists s, keys. auto.
    + destruct f as [i|p k]; [discriminate|]. right. apply Ok_inj in H0. subst on0. exists p, k, name. split; [reflexivity|].
      destruct (p_required p); [apply Ok_inj in H; injection H as -> ->; exact Hn|].
      destruct (Hs _ eq_refl) as [H1 H2].
      destruct (clone_ok E (S n) p k [($"required", VBool true)] H2 H1) as [c' [Hc' [Hal Hcs]]].
      { constructor; [|constructor]. left. cbn. auto. }
      rewrite H in Hc'. apply Ok_inj in Hc'. subst c'. rewrite replaced_made_required in Hal.
      apply alike_inv in Hal. destruct Hal as [p' [k' [He [Hb _]]]]. injection He as <- <-. apply bare_name in Hb. destruct Hb as [Hb _].
      rewrite <- Hn. symmetry. exact Hb.
  - intros [[name [keys [-> ->]]]|[q [k [name [-> Hn]]]]].
    + assert (Hk : each as_str (map VStr keys) = Ok keys) by (apply strings_iff; reflexivity). rewrite Hk. cbn [bind discriminator p_required].
      eexists _, _, name. split; reflexivity.
    + cbn [bind]. destruct (p_required q); [exists q, k, name; auto|]. destruct (Hs _ eq_refl) as [H1 H2].
      destruct (clone_ok E (S n) q k [($"required", VBool true)] H2 H1) as [c' [Hc' [Hal Hcs]]].
      { constructor; [|constructor]. left. cbn. auto. }
      rewrite Hc'. rewrite replaced_made_required in Hal.
      apply alike_inv in Hal. destruct Hal as [p' [k' [-> [Hb _]]]]. apply bare_name in Hb. destruct Hb as [Hb _].
      exists p', k', name. split; [reflexivity|]. rewrite Hb. exact Hn.
Qed.

Lemma variants_made E n q kd name items vs :
  sound E (Fld q kd) -> within (S n) (Fld q kd) -> Forall (fun kv => fieldless (fst kv) = true) items ->
  each (fun kv => do fields <- structure_items (snd kv);
                  do c <- clone E (S n) (Fld q kd) [($"constant", fst kv)];
                  Ok (fst kv, aset name c fields)) items = Ok vs ->
  Forall2 (variant_of name q kd) items vs.
Proof.
  intros Hq Hw HF He. apply each_ok in He. revert HF. induction He as [|[a x] vd items vs Hab Hl IH]; intros HF; constructor; inversion HF as [|? ? Ha HF']; subst; [|apply IH, HF'].
  cbn [fst snd] in *. apply bind_Ok in Hab. destruct Hab as [fields [Hfs Hab]]. apply bind_Ok in Hab. destruct Hab as [c [Hc Hab]].
  apply Ok_inj in Hab. subst vd. split; [reflexivity|]. exists fields, c. cbn [fst snd]. split; [apply structure_items_iff, Hfs|].
  split; [apply aset_get_same|]. split; [|split; [intros s Hs; apply aset_get_other; congruence|apply aset_keys]].
  destruct (clone_ok E (S n) q kd [($"constant", a)] Hw Hq) as [c' [Hc' [Hal _]]].
  { constructor; [|constructor]. left. unfold common_parameter. cbn [fst snd]. destruct a; cbn; auto 12. }
  rewrite Hc in Hc'. apply Ok_inj in Hc'. subst c'. rewrite replaced_constant, rekind_constant in Hal. exact Hal.
Qed.

Lemma default_values_total E l : Forall (fun kf => exists p k, snd kf = Fld p k) l -> exists items, default_values E true l = Ok items.
Proof.
  induction l as [|[s f] l IH]; intros H; [exists []; reflexivity|]. inversion H as [|? ? [p [k Hf]] H']; subst. cbn [snd] in Hf. subst f.
  destruct (IH H') as [items Hi]. cbn [default_values fparams]. rewrite Hi. cbv zeta. cbn [bind]. eexists. reflexivity.
Qed.

Lemma sound_defined E f : sound E f -> exists p k, f = Fld p k.
Proof. destruct f as [i|p k]; [intros [Hc _]; inversion Hc|eauto]. Qed.

(** The parts of a polymorphic structure. *)
Lemma polymorphic_parts E n kw f : truthy (arg $"polymorphic_on" kw) = true ->
  (init E (clone E (S n)) CStructure kw = Ok f <->
   exists items0 items q kd name order p vs d,
     as_dict (arg $"structure" kw) = Some items0 /\ merge_common E items0 = Ok items
     /\ (do on0 <- match arg $"polymorphic_on" kw with
                   | VStr s => do keys <- each as_str (map fst items); Ok (discriminator s keys)
                   | VField (Fld p k) => Ok (Fld p k)
                   | _ => py TypeError
                   end;
         match on0 with
         | Fld p _ => if p_required p then Ok on0 else clone E (S n) on0 [($"required", VBool true)]
         | FUndef _ => py TypeError
         end) = Ok (Fld q kd)
     /\ p_name q = Some name /\ key_order_arg (arg $"key_order" kw) = Ok order
     /\ init_params E (others (class_args CStructure) kw) = Ok p
     /\ each (fun kv => do fields <- structure_items (snd kv);
                        do c <- clone E (S n) (Fld q kd) [($"constant", fst kv)];
                        Ok (fst kv, aset name c fields)) items = Ok vs
     /\ generated_default E (arg $"generate_default" kw) (SPoly (Fld q kd) vs) (p_default p) = Ok d
     /\ f = Fld (set_default d p) (KStructure (SPoly (Fld q kd) vs) (flag_on $"strict" kw) order)).
Proof.
  intros Ht. change (init E (clone E (S n)) CStructure kw) with (init_structure E (clone E (S n)) kw). unfold init_structure. cbv zeta. rewrite Ht. split.
  - destruct (as_dict (arg $"structure" kw)) as [items0|] eqn:Hd; [|discriminate]. intros H.
    apply bind_Ok in H. destruct H as [items [Hit H]]. apply bind_Ok in H. destruct H as [on0 [Hon0 H]].
    apply bind_Ok in H. destruct H as [on [Hon H]]. apply bind_Ok in H. destruct H as [order [Ho H]].
    apply bind_Ok in H. destruct H as [p [Hp H]]. apply bind_Ok in H. destruct H as [name [Hname H]].
    apply bind_Ok in H. destruct H as [vs [Hvs H]]. apply bind_Ok in H. destruct H as [d [Hg H]]. apply Ok_inj in H.
    destruct on as [i|q kd]; [discriminate|]. destruct (p_name q) as [m|] eqn:Hq; [|discriminate]. apply Ok_inj in Hname. subst m.
    exists items0, items, q, kd, name, order, p, vs, d. rewrite Hon0. cbn [bind].
    split; [reflexivity|]. split; [exact Hit|]. split; [exact Hon|]. split; [exact Hq|]. split; [exact Ho|]. split; [exact Hp|].
    split; [exact Hvs|]. split; [exact Hg|symmetry; exact H].
  - intros [items0 [items [q [kd [name [order [p [vs [d [Hd [Hit [Hon [Hq [Ho [Hp [Hvs [Hg ->]]]]]]]]]]]]]]]]].
    rewrite Hd, Hit. apply bind_Ok in Hon. destruct Hon as [on0 [H0 H1]]. cbn [bind]. rewrite H0. cbn [bind]. rewrite H1. cbn [bind].
    rewrite Ho, Hp. cbn [bind]. rewrite Hq. cbn [bind]. rewrite Hvs. cbn [bind]. rewrite Hg. reflexivity.
Qed.

Lemma polymorphic_sound E n kw : arguments E n CStructure kw ->
  forall g, arg $"polymorphic_on" kw = VField g -> sound E g /\ within (S n) g.
Proof.
  intros Ha g Hg. assert (Hx : made_of E n (arg $"polymorphic_on" kw)) by (apply (arg_made E n CStructure kw $"polymorphic_on" Ha eq_refl); rewrite Hg; discriminate).
  rewrite Hg in Hx. split; [apply Hx|]. apply (within_mono n); [lia|apply Hx].
Qed.

Lemma merged_entries E n kw items0 items : arguments E n CStructure kw -> as_dict (arg $"structure" kw) = Some items0 ->
  NoDup (map fst items0) -> merge_common E items0 = Ok items -> Forall (entry_ok E n) items.
Proof.
  intros Ha Hd Hnd Hit.
  assert (Hst : made_of E n (arg $"structure" kw)) by (apply (arg_made E n CStructure kw $"structure" Ha eq_refl); intros Hn; rewrite Hn in Hd; discriminate).
  pose proof (merge_common_ok E n items0 items Hit Hnd (made_of_dict E n _ _ Hst Hd)) as HF.
  rewrite Forall_forall in *. intros kv Hi. apply (HF kv Hi).
Qed.

(** @prop C52 What the constructor of a polymorphic structure makes of sound parts: the entries of
    ['*'] go to every identity; a text discriminator becomes the required enumeration of the
    sorted identities, a field is made required; each variant has the fields of its identity,
    named after their keys, and the discriminator with the identity as constant; the default is
    generated, when asked for and absent, from the variant asked for. *)
Lemma structure_polymorphic_constructed :
  forall E n kw f,
    truthy (arg $"polymorphic_on" kw) = true -> arguments E n CStructure kw ->
    (forall items0, as_dict (arg $"structure" kw) = Some items0 -> proper_dicts items0) ->
    init E (clone E (S n)) CStructure kw = Ok f ->
    exists items0 items q kd name vs p order d,
      as_dict (arg $"structure" kw) = Some items0 /\ shared items0 items
      /\ discriminator_for (arg $"polymorphic_on" kw) (map fst items) (Fld q kd) /\ p_name q = Some name
      /\ Forall2 (variant_of name q kd) items vs
      /\ init E (clone E (S n)) CField (others (class_args CStructure) kw) = Ok (Fld p KField)
      /\ order_given (arg $"key_order" kw) order
      /\ structure_default E (arg $"generate_default" kw)
           (fun l => hashable (arg $"generate_default" kw) = true
                     /\ variant_fields (e_local E) (arg $"generate_default" kw) vs l) (p_default p) d
      /\ f = Fld (set_default d p) (KStructure (SPoly (Fld q kd) vs) (flag_on $"strict" kw) order).
Proof.
  intros E n kw f Ht Ha Hpd H. apply (polymorphic_parts E n kw f Ht) in H.
  destruct H as [items0 [items [q [kd [name [order [p [vs [d [Hd [Hit [Hon [Hq [Ho [Hp [Hvs [Hg Hf]]]]]]]]]]]]]]]]].
  pose proof (merged_entries E n kw items0 items Ha Hd (proj1 (Hpd _ Hd)) Hit) as HF.
  apply (discriminator_made E n _ _ _ (polymorphic_sound E n kw Ha)) in Hon. destruct Hon as [Hfor [q' [kd' [He [Hs Hw]]]]]. injection He as <- <-.
  exists items0, items, q, kd, name, vs, p, order, d.
  split; [exact Hd|]. split; [apply (merge_common_iff E _ _ (Hpd _ Hd)), Hit|]. split; [exact Hfor|]. split; [exact Hq|].
  split; [apply (variants_made E n q kd name items vs Hs Hw); [|exact Hvs]; rewrite Forall_forall in *; intros kv Hi; apply (HF kv Hi)|].
  split; [apply others_field, Hp|]. split; [apply key_order_iff, Ho|]. split; [apply generated_poly in Hg; exact Hg|exact Hf].
Qed.
(** @example
Example C52_polymorphic_structure_example :
  let kw := [($"structure", VDict false [(VStr $"*", VDict false [(VStr $"x", VField (Fld (p_def (VInt 3)) (KInteger None None)))]);
                                         (VStr $"b", VDict false [(VStr $"x", VField (Fld p0 KBoolean))]);
                                         (VStr $"a", VDict false [(VStr $"y", VField (Fld p0 KBoolean))])]);
             ($"polymorphic_on", VStr $"type"); ($"generate_default", VStr $"a")] in
  arguments env0 1 CStructure kw
  /\ (forall items0, as_dict (arg $"structure" kw) = Some items0 -> proper_dicts items0)
  /\ exists p on xs ys tb ta,
       init env0 (clone env0 2) CStructure kw
       = Ok (Fld p (KStructure (SPoly on [(VStr $"b", [($"x", xs); ($"type", tb)]);
                                          (VStr $"a", [($"y", ys); ($"x", xs); ($"type", ta)])]) true None))
       /\ discriminator_for (VStr $"type") [VStr $"b"; VStr $"a"] on
       /\ p_default p = VDict false [(VStr $"x", VInt 3); (VStr $"type", VStr $"a")].
Proof.
  intros kw. split; [|split].
  - assert (Hs : forall p k, (p = p0 \/ p = p_def (VInt 3)) -> k = KInteger None None \/ k = KBoolean -> sound env0 (Fld p k) /\ within 1 (Fld p k)).
    { intros p k [-> | ->] [-> | ->]; split; try (intros g []); split; constructor; try (repeat split; exact I); intros g []. }
    intros key v [[= <- <-]|[[= <- <-]|[[= <- <-]|[]]]]; cbn [slots smem made_of].
    + repeat (split; [reflexivity|]; split; [split; [reflexivity|]; split; [apply Hs; auto|exact I]|]). exact I.
    + exact I.
    + right. reflexivity.
  - intros items0 [= <-]. split; [repeat constructor; cbn; intuition discriminate|].
    intros a v l Hi Hl. cbn in Hi. destruct Hi as [[= <- <-]|[[= <- <-]|[[= <- <-]|[]]]]; injection Hl as <-;
      [exists [$"x"]|exists [$"x"]|exists [$"y"]]; (split; [reflexivity|repeat constructor; intros []]).
  - eexists _, _, _, _, _, _. split; [reflexivity|]. split; [|reflexivity].
    left. exists $"type", [$"b"; $"a"], [$"a"; $"b"]. eexists. split; [reflexivity|]. split; [reflexivity|].
    split; [split; [apply perm_swap|repeat constructor; reflexivity]|]. repeat split.
Qed.
@end *)

(** @prop C52 ... and it accepts exactly these: a dict of dicts of fields, possibly with common
    entries, a text or named field as discriminator (a text needs texts as identities), a
    documented order of keys, accepted common parameters, and to generate a default from a known
    identity. *)
Lemma structure_polymorphic_accepted :
  forall E n kw,
    truthy (arg $"polymorphic_on" kw) = true -> arguments E n CStructure kw ->
    (forall items0, as_dict (arg $"structure" kw) = Some items0 -> proper_dicts items0) ->
    ((exists f, init E (clone E (S n)) CStructure kw = Ok f)
     <-> exists items0 items p order,
           as_dict (arg $"structure" kw) = Some items0 /\ shared items0 items
           /\ Forall (fun kv => exists l, field_dict (snd kv) l) items
           /\ discriminating (arg $"polymorphic_on" kw) (map fst items)
           /\ order_given (arg $"key_order" kw) order
           /\ init E (clone E (S n)) CField (others (class_args CStructure) kw) = Ok (Fld p KField)
           /\ generating (e_local E) (arg $"generate_default" kw) (p_default p) (map fst items)).
Proof.
  intros E n kw Ht Ha Hpd. split.
  - intros [f H]. apply (polymorphic_parts E n kw f Ht) in H.
    destruct H as [items0 [items [q [kd [name [order [p [vs [d [Hd [Hit [Hon [Hq [Ho [Hp [Hvs [Hg Hf]]]]]]]]]]]]]]]]].
    exists items0, items, p, order. split; [exact Hd|]. split; [apply (merge_common_iff E _ _ (Hpd _ Hd)), Hit|].
    split; [|split; [|split; [apply key_order_iff, Ho|split; [apply others_field, Hp|]]]].
    + apply each_ok in Hvs. clear -Hvs. induction Hvs as [|kv vl items vs Hab Hl IH]; constructor; [|exact IH].
      apply bind_Ok in Hab. destruct Hab as [l [Hl' _]]. exists l. apply structure_items_iff, Hl'.
    + apply (discriminator_accepts E n _ _ (polymorphic_sound E n kw Ha)). exists q, kd, name. auto.
    + apply generated_poly in Hg. unfold structure_default in Hg. unfold generating.
      destruct (truthy (arg $"generate_default" kw)) eqn:Hgd; [|auto]. destruct (truthy (p_default p)) eqn:Hpd'; [auto|]. cbn [negb andb] in Hg.
      right. right. destruct Hg as [l [ps [[Hh [b [j [a [-> [Hj _]]]]]] _]]]. split; [exact Hh|]. exists j. split; [|exact Hj].
      apply each_ok in Hvs. assert (Hk : map fst items = map fst (b ++ (j, l) :: a)).
      { clear -Hvs. revert Hvs. generalize (b ++ (j, l) :: a). intros vs Hvs. induction Hvs as [|kv vl items vs Hab Hl IH]; [reflexivity|].
        apply bind_Ok in Hab. destruct Hab as [x [_ Hab]]. apply bind_Ok in Hab. destruct Hab as [y [_ Hab]]. apply Ok_inj in Hab. subst vl.
        cbn. f_equal. exact IH. }
      rewrite Hk, map_app. apply in_or_app. right. left. reflexivity.
  - intros [items0 [items [p [order [Hd [Hsh [HF [Hdis [Ho [Hp Hgen]]]]]]]]]].
    apply (merge_common_iff E _ _ (Hpd _ Hd)) in Hsh. pose proof (merged_entries E n kw items0 items Ha Hd (proj1 (Hpd _ Hd)) Hsh) as HE.
    apply (discriminator_accepts E n _ _ (polymorphic_sound E n kw Ha)) in Hdis. destruct Hdis as [q [kd [name [Hon Hq]]]].
    destruct (discriminator_made E n _ _ _ (polymorphic_sound E n kw Ha) Hon) as [_ [q' [kd' [He [Hs Hw]]]]]. injection He as <- <-.
    assert (Hv : exists vs, each (fun kv => do fields <- structure_items (snd kv);
                        do c <- clone E (S n) (Fld q kd) [($"constant", fst kv)];
                        Ok (fst kv, aset name c fields)) items = Ok vs
                  /\ map fst vs = map fst items
                  /\ Forall (fun vl => Forall (fun kf => exists p k, snd kf = Fld p k) (snd vl)) vs).
    { clear -HF HE Hs Hw. induction items as [|[a x] items IH]; [exists []; split; [reflexivity|]; split; [reflexivity|constructor]|].
      inversion HF as [|? ? [l Hl] HF']; subst. inversion HE as [|? ? [Hfl Hm] HE']; subst. cbn [fst snd] in *.
      destruct (IH HF' HE') as [vs [Hvs [Hk Hdef]]]. apply structure_items_iff in Hl.
      destruct (clone_ok E (S n) q kd [($"constant", a)] Hw Hs) as [c [Hc [Hal Hcs]]].
      { constructor; [|constructor]. left. unfold common_parameter. cbn [fst snd]. destruct a; cbn; auto 12. }
      exists ((a, aset name c l) :: vs). cbn [each fst snd]. rewrite Hl. cbn [bind]. rewrite Hc. cbn [bind]. rewrite Hvs. cbn [bind].
      split; [reflexivity|]. split; [cbn; f_equal; exact Hk|]. constructor; [|exact Hdef]. cbn [snd].
      rewrite Forall_forall. intros [s g] Hi. cbn [snd]. apply (in_map snd) in Hi. apply aset_In in Hi. cbn [snd] in Hi.
      destruct Hi as [-> |Hi]; [apply (sound_defined E), Hcs|]. apply in_map_iff in Hi. destruct Hi as [[s' f'] [<- Hi]].
      pose proof (structure_items_made E n x l Hm Hl) as Hall. rewrite Forall_forall in Hall. destruct (Hall _ Hi) as [_ [Hsn _]].
      apply (sound_defined E), Hsn. }
    destruct Hv as [vs [Hvs [Hk Hdef]]]. apply others_field in Hp. apply key_order_iff in Ho.
    assert (Hg : exists d, generated_default E (arg $"generate_default" kw) (SPoly (Fld q kd) vs) (p_default p) = Ok d).
    { unfold generated_default. destruct Hgen as [-> |[-> |[Hh [i [Hi Hveq]]]]]; [eexists; reflexivity|rewrite andb_false_r; eexists; reflexivity|].
      destruct (truthy _ && _); [|eexists; reflexivity]. rewrite Hh. rewrite <- Hk in Hi. apply in_map_iff in Hi. destruct Hi as [vl [<- Hi]].
      destruct (find (fun vl => veq (e_local E) (fst vl) (arg $"generate_default" kw)) vs) as [[j l]|] eqn:Hfd.
      - apply find_some in Hfd. destruct Hfd as [Hin _]. rewrite Forall_forall in Hdef. destruct (default_values_total E l (Hdef _ Hin)) as [ents Hents].
        rewrite Hents. eexists. reflexivity.
      - exfalso. pose proof (find_none _ _ Hfd vl Hi) as Hno. cbv beta in Hno. rewrite Hveq in Hno. discriminate. }
    destruct Hg as [d Hg]. eexists. apply (polymorphic_parts E n kw _ Ht).
    exists items0, items, q, kd, name, order, p, vs, d. repeat (split; [eassumption|]). reflexivity.
Qed.
(** @example
Example C52_polymorphic_rejects_example :
  let kw o g := [($"structure", VDict false [(VInt 1, VDict false [(VStr $"x", VField (Fld p0 KBoolean))])]);
                 ($"polymorphic_on", o); ($"generate_default", g)] in
  let named := VField (Fld (p_named $"t") (KInteger None None)) in
  (exists f, init env0 (clone env0 2) CStructure (kw named (VInt 1)) = Ok f)
  /\ init env0 (clone env0 2) CStructure (kw named (VInt 2)) = py ValueError
  /\ (forall f, init env0 (clone env0 2) CStructure (kw (VStr $"t") VNone) <> Ok f).
Proof.
  intros kw named. split; [eexists; reflexivity|]. split; [reflexivity|]. intros f H. vm_compute in H. discriminate.
Qed.
@end *)
