(** * Proofs about operations on schemas (C46 to C51, C73). *)
From Coq Require Import Permutation.
From Verif Require Import PyBaseFacts Induct ProcessFacts ConFacts CloneFacts SchemaFacts SchemaSpec Demo.
(* @imports SchemaSpec CloneFacts Demo *)

(** @prop C48 screen answers True exactly when every test that is not None equals the attribute. *)
Lemma screen_exact :
  forall E p k tests,
    screen E p k tests = true <->
    forall name v, In (name, v) tests -> v = VNone \/ veq (e_local E) (attribute E p k name) v = true.
Proof.
  intros E p k tests. induction tests as [|[name v] tests IH]; cbn [screen].
  - split; [intros _ ? ? []|reflexivity].
  - destruct (negb (is_none v) && negb (veq (e_local E) (attribute E p k name) v)) eqn:Hb.
    + split; [discriminate|]. intros H. apply andb_prop in Hb. destruct Hb as [H1 H2].
      destruct (H name v (or_introl eq_refl)) as [-> |H3]; [discriminate|rewrite H3 in H2; discriminate].
    + rewrite IH. split.
      * intros H n w [Hi|Hi]; [|apply H, Hi]. injection Hi as <- <-.
        apply andb_false_iff in Hb. destruct Hb as [Hb|Hb]; apply Bool.negb_false_iff in Hb; [|right; exact Hb].
        left. destruct v; try discriminate. reflexivity.
      * intros H n w Hi. apply H. right. exact Hi.
Qed.
(** @example
Example C48_example :
  screen env0 (p_named $"a") (KInteger (Some 3%Z) None) [($"minimum", VInt 3); ($"name", VNone); ($"type", VStr $"integer")] = true
  /\ screen env0 (p_named $"a") (KInteger (Some 3%Z) None) [($"minimum", VInt 4)] = false.
Proof. split; reflexivity. Qed.
@end *)

(** @prop C48 The attributes tests look at: the parameters of the field, those of its class, the type, then its aspects. *)
Lemma screen_attributes :
  forall E p k,
    attribute E p k $"name" = opt VStr (p_name p)
    /\ attribute E p k $"required" = VBool (p_required p)
    /\ attribute E p k $"nonnull" = VBool (p_nonnull p)
    /\ attribute E p k $"ignore_null" = VBool (p_ignore_null p)
    /\ attribute E p k $"default" = p_default p
    /\ attribute E p k $"constant" = p_constant p
    /\ attribute E p k $"title" = p_title p
    /\ attribute E p k $"description" = p_description p
    /\ attribute E p k $"notes" = p_notes p
    /\ attribute E p k $"type" = VStr (cls_name (cls_of k))
    /\ (forall mn mx, k = KInteger mn mx ->
          attribute E p k $"minimum" = opt VInt mn /\ attribute E p k $"maximum" = opt VInt mx)
    /\ (forall pat mn mx st, k = KText pat mn mx st ->
          attribute E p k $"min_length" = opt VInt mn /\ attribute E p k $"max_length" = opt VInt mx
          /\ attribute E p k $"strip" = VBool st)
    /\ (forall name, aget name (attrs E p k) = None -> ~ In name [$"type"; $"basetype"; $"structural"] ->
          attribute E p k name = match aget name (p_aspects p) with Some v => v | None => VNone end).
Proof.
  intros E p k. do 9 (split; [reflexivity|]).
  split; [unfold attribute, attrs; destruct (p_preprocessor p), k; reflexivity|]. split; [|split].
  - intros mn mx ->. unfold attribute, attrs. destruct (p_preprocessor p); split; reflexivity.
  - intros pat mn mx st ->. unfold attribute, attrs. destruct (p_preprocessor p); repeat split; reflexivity.
  - intros name H Hn. unfold attribute. rewrite H.
    rewrite !(proj2 (str_eqb_neq _ _)); [reflexivity| | |]; intros ->; apply Hn; cbn; auto.
Qed.
(** @example
Example C48_example_attributes :
  attribute env0 (p_named $"a") (KText None (Some 2%Z) None true) $"min_length" = VInt 2
  /\ attribute env0 (p_named $"a") (KText None (Some 2%Z) None true) $"colour" = VNone.
Proof. split; reflexivity. Qed.
@end *)

Lemma filter_loop_any E p k tests included :
  filter_loop E p k false included tests = included || existsb (passes E p k) tests.
Proof.
  induction tests as [|[name v] tests IH]; cbn [filter_loop existsb]; [rewrite orb_false_r; reflexivity|].
  unfold passes at 1. cbn [fst snd]. rewrite IH.
  destruct (attribute E p k name) eqn:Ha; cbn [is_none]; destruct (veq _ _ v); cbn; auto using orb_true_r.
Qed.

Lemma filter_loop_all E p k tests : forall included,
  filter_loop E p k true included tests = match tests with [] => included | _ => forallb (passes E p k) tests end.
Proof.
  induction tests as [|[name v] tests IH]; intros included; cbn [filter_loop forallb]; [reflexivity|].
  unfold passes at 1. cbn [fst snd]. rewrite IH.
  destruct (attribute E p k name) eqn:Ha; cbn [is_none]; destruct (veq _ _ v); cbn; auto; destruct tests; reflexivity.
Qed.

Lemma field_filter_selected E p k all tests : field_filter E p k all tests = selected E tests all p k.
Proof.
  unfold field_filter, selected. destruct tests as [|t tests]; [reflexivity|]. destruct all.
  - rewrite filter_loop_all. reflexivity.
  - rewrite filter_loop_any. reflexivity.
Qed.

(** @prop C46 A field is dropped exactly when it is not selected: there are tests, and one of them (all mode) or all of them (any mode) fail. *)
Lemma filter_drops :
  forall E n p k all tests,
    filter_tree E (S n) (Fld p k) all tests = Ok Dropped <-> selected E tests all p k = false.
Proof.
  intros E n p k all tests. cbn [filter_tree]. rewrite field_filter_selected.
  destruct (selected E tests all p k); [|split; reflexivity]. split; [|discriminate].
  assert (Hb : forall kw, (do g <- clone E (S n) (Fld p k) kw; Ok (Rebuilt g)) <> Ok Dropped).
  { intros kw. destruct (clone E (S n) (Fld p k) kw); discriminate. }
  assert (H1 : forall key flt, (do r <- flt; match r with Dropped => py CannotFilterError | Kept => Ok Kept
       | Rebuilt g => do g0 <- clone E (S n) (Fld p k) [(key, VField g)]; Ok (Rebuilt g0) end) <> Ok Dropped).
  { intros key [[]|]; try discriminate. apply Hb. }
  intros H. exfalso. revert H. destruct k as [ | | | | | | | | | | | | v key rk | | it a b u | d s o | | | | | l | l | ]; try discriminate.
  - apply H1.
  - apply H1.
  - destruct d as [l|on vs].
    + destruct (filter_structure _ l) as [c|]; [|discriminate]. cbn [bind]. destruct c as [[|kf l']|]; try discriminate. apply Hb.
    + destruct (filter_variants _ vs) as [c|]; [|discriminate]. cbn [bind]. destruct (snd c); [apply Hb|discriminate].
  - destruct (filter_fields _ l) as [c|]; [|discriminate]. cbn [bind]. destruct (snd c); [apply Hb|discriminate].
Qed.
(** @example
Example C46_example_drops :
  filter_tree env0 1 (Fld p_req (KInteger None None)) true [($"required", VBool true); ($"nonnull", VBool true)] = Ok Dropped
  /\ filter_tree env0 1 (Fld p_req (KInteger None None)) false [($"required", VBool true); ($"nonnull", VBool true)] = Ok Kept
  /\ filter_tree env0 1 (Fld p_req (KInteger None None)) true [($"minimum", VBool false)] = Ok Kept.
Proof. repeat split; reflexivity. Qed.
@end *)

(** @prop C46 A field without nested fields is returned itself exactly when it is selected. *)
Lemma filter_keeps_scalars :
  forall E n p k all tests, structural (cls_of k) = false \/ cls_of k = CUnion ->
    filter_tree E (S n) (Fld p k) all tests = Ok (if selected E tests all p k then Kept else Dropped).
Proof.
  intros E n p k all tests Hk. cbn [filter_tree]. rewrite field_filter_selected.
  destruct (selected E tests all p k); [|reflexivity].
  destruct k; try reflexivity; destruct Hk; discriminate.
Qed.
(** @example
Example C46_example_scalars :
  filter_tree env0 1 (Fld p_req KBoolean) true [($"required", VBool true); ($"type", VStr $"boolean")] = Ok Kept.
Proof. reflexivity. Qed.
@end *)

Definition prune_spec E tests n all f : Prop :=
  match pruned (selected E tests) all f with
  | None => filter_tree E n f all tests = Ok Dropped
  | Some g => if intact (selected E tests) all f then filter_tree E n f all tests = Ok Kept /\ g = f
              else exists h, filter_tree E n f all tests = Ok (Rebuilt h) /\ alike h g
  end.

Lemma pruned_params sel all p k g : pruned sel all (Fld p k) = Some g -> exists k', g = Fld p k'.
Proof. cbn [pruned]. destruct (sel all p k); [|discriminate]. intros H. injection H as <-. eauto. Qed.

Lemma flat_map_cons {A B} (f : A -> list B) x l : flat_map f (x :: l) = f x ++ flat_map f l.
Proof. reflexivity. Qed.

Lemma filter_items_spec E tests n l : (forall kf, In kf l -> prune_spec E tests n true (snd kf)) -> Forall has_name l ->
  (forall kf, In kf l -> sound E (snd kf)) ->
  let sel := selected E tests in
  exists l', filter_items (fun g => filter_tree E n g true tests) l
               = Ok (l', negb (forallb (fun kf => intact sel true (snd kf)) l))
    /\ map uf l' = map uf (flat_map (fun kf => match pruned sel true (snd kf) with Some h => [(fst kf, h)] | None => [] end) l)
    /\ Forall has_name l'
    /\ (forallb (fun kf => intact sel true (snd kf)) l = true ->
        flat_map (fun kf => match pruned sel true (snd kf) with Some h => [(fst kf, h)] | None => [] end) l = l).
Proof.
  intros H Hn Hs sel. induction l as [|[s f] l IH]; [exists []; repeat split; constructor|].
  inversion Hn as [|? ? Hn1 Hn2]; subst.
  destruct IH as [l' [H1 [H2 [H3 H4]]]]; [intros; apply H; right; assumption|exact Hn2|intros; apply Hs; right; assumption|].
  specialize (H (s, f) (or_introl eq_refl)). specialize (Hs (s, f) (or_introl eq_refl)). cbn [snd] in H, Hs. unfold prune_spec in H.
  fold sel in H. cbn [filter_items forallb]. rewrite flat_map_cons. cbn [fst snd].
  destruct (sound_inv E f Hs) as [p [k ->]].
  destruct (pruned sel true (Fld p k)) as [g|] eqn:Hp.
  - destruct (intact sel true (Fld p k)) eqn:Hi.
    + destruct H as [H ->]. exists ((s, Fld p k) :: l'). rewrite H. cbn [bind]. rewrite H1. cbn [bind fst snd andb].
      split; [reflexivity|]. split; [cbn; rewrite H2; reflexivity|]. split; [constructor; assumption|].
      intros Hb. cbn. rewrite H4 by exact Hb. reflexivity.
    + destruct H as [h [H Ha]]. exists ((s, h) :: l'). rewrite H. cbn [bind]. rewrite H1. cbn [bind fst snd andb].
      split; [reflexivity|].
      split; [cbn [map app]; rewrite H2; unfold uf at 1 3; cbn [fst snd]; unfold alike in Ha; rewrite Ha; reflexivity|].
      split; [|discriminate]. constructor; [|exact H3].
      destruct (pruned_params _ _ _ _ _ Hp) as [k' ->]. apply alike_inv in Ha. destruct Ha as [p' [k'' [-> [Hb _]]]].
      unfold has_name in *. cbn [snd fst] in *. rewrite (proj1 (bare_name _ _ Hb)). exact Hn1.
  - assert (Hi : intact sel true (Fld p k) = false).
    { cbn [pruned] in Hp. cbn [intact]. destruct (sel true p k); [discriminate|reflexivity]. }
    exists l'. rewrite H. cbn [bind]. rewrite H1, Hi. cbn [bind fst snd andb app]. repeat split; auto. discriminate.
Qed.

Lemma filter_fields_spec E tests n all l :
  let sel := selected E tests in
  (forall g, In g l -> pruned sel all g <> None /\ prune_spec E tests n all g) ->
  let keep g := match pruned sel all g with Some h => h | None => g end in
  exists l', filter_fields (fun g => filter_tree E n g all tests) l = Ok (l', negb (forallb (intact sel all) l))
    /\ map undocumented l' = map undocumented (map keep l)
    /\ (forallb (intact sel all) l = true -> map keep l = l).
Proof.
  intros sel H keep. induction l as [|f l IH]; [exists []; repeat split|].
  destruct IH as [l' [H1 [H2 H3]]]; [intros; apply H; right; assumption|].
  destruct (H f (or_introl eq_refl)) as [Hne Hf]. unfold prune_spec in Hf. fold sel in Hf.
  cbn [filter_fields forallb map]. unfold keep at 1 3. destruct (pruned sel all f) as [g|]; [|contradiction Hne; reflexivity].
  destruct (intact sel all f).
  - destruct Hf as [Hf ->]. exists (f :: l'). rewrite Hf. cbn [bind]. rewrite H1. cbn [bind fst snd andb].
    split; [reflexivity|]. split; [cbn [map]; rewrite H2; reflexivity|]. intros Hb. rewrite H3 by exact Hb. reflexivity.
  - destruct Hf as [h [Hf Ha]]. exists (h :: l'). rewrite Hf. cbn [bind]. rewrite H1. cbn [bind fst snd andb].
    split; [reflexivity|]. split; [cbn [map]; rewrite H2, Ha; reflexivity|discriminate].
Qed.

Lemma named_all_same l : Forall has_name l -> map (fun kf => (fst kf, named (fst kf) (snd kf))) l = l.
Proof.
  intros H. induction H as [|[s f] l Hx Hl IH]; [reflexivity|]. cbn [map fst snd]. rewrite IH, named_same by exact Hx. reflexivity.
Qed.

Lemma aset_same {A} name (c : A) l : aget name l = Some c -> aset name c l = l.
Proof.
  induction l as [|[s f] l IH]; cbn; [discriminate|]. destruct (str_eqb_spec name s) as [-> |Hn]; intros H.
  - injection H as ->. reflexivity.
  - rewrite IH by exact H. reflexivity.
Qed.

Definition left_over (sel : bool -> params -> kind -> bool) (l : list (str * field)) : list (str * field) :=
  flat_map (fun kf => match pruned sel true (snd kf) with Some h => [(fst kf, h)] | None => [] end) l.

Lemma filter_variants_spec E tests n vs :
  let sel := selected E tests in
  (forall vd kf, In vd vs -> In kf (snd vd) -> prune_spec E tests n true (snd kf) /\ sound E (snd kf)) ->
  (forall vd, In vd vs -> Forall has_name (snd vd)) ->
  (forall vd, In vd vs -> exists kf, In kf (snd vd) /\ pruned sel true (snd kf) <> None) ->
  let whole vd := forallb (fun kf => intact sel true (snd kf)) (snd vd) in
  exists vs', filter_variants (fun g => filter_tree E n g true tests) vs = Ok (vs', negb (forallb whole vs))
    /\ map fst vs' = map fst vs /\ Forall (fun vd => Forall has_name (snd vd)) vs'
    /\ map (fun vd => map uf (snd vd)) vs' = map (fun vd => map uf (left_over sel (snd vd))) vs
    /\ (forallb whole vs = true -> forall vd, In vd vs -> left_over sel (snd vd) = snd vd).
Proof.
  intros sel H Hn He whole. induction vs as [|[i l] vs IH].
  { exists []. cbn. repeat split; auto. intros _ ? []. }
  destruct IH as [vs' [H1 [H2 [H3 [H4 H5]]]]];
    [intros vd kf Hv; apply H; right; exact Hv|intros; apply Hn; right; assumption|intros; apply He; right; assumption|].
  pose proof (Hn _ (or_introl eq_refl)) as Hnl. pose proof (He _ (or_introl eq_refl)) as Hel.
  cbn [snd] in Hnl, Hel.
  destruct (filter_items_spec E tests n l) as [l' [G1 [G2 [G3 G4]]]];
    [intros kf Hi; apply (H (i, l) kf); [left; reflexivity|exact Hi]|exact Hnl
    |intros kf Hi; apply (H (i, l) kf); [left; reflexivity|exact Hi]|].
  fold sel in G1, G2, G4. fold (left_over sel l) in G2, G4. cbn [filter_variants]. unfold filter_structure. rewrite G1. cbn [bind fst snd].
  rewrite H1. unfold whole in *. cbn [forallb snd map fst].
  destruct (forallb (fun kf => intact sel true (snd kf)) l) eqn:Hw; cbn [negb bind andb fst snd].
  - exists ((i, l) :: vs'). split; [reflexivity|]. cbn [map fst snd]. split; [rewrite H2; reflexivity|].
    split; [constructor; assumption|]. split; [rewrite H4, G4 by reflexivity; reflexivity|].
    intros Hb vd [<- |Hv]; [apply G4; reflexivity|apply H5; assumption].
  - destruct l' as [|kf l'].
    { exfalso. destruct Hel as [kf [Hi Hne]]. cbn [map] in G2. symmetry in G2. apply map_eq_nil in G2.
      destruct (pruned sel true (snd kf)) as [g|] eqn:Hg; [|contradiction Hne; reflexivity].
      assert (Hx : In (fst kf, g) []); [|contradiction]. rewrite <- G2. apply in_flat_map. exists kf. split; [exact Hi|].
      rewrite Hg. left. reflexivity. }
    exists ((i, kf :: l') :: vs'). split; [reflexivity|]. cbn [map fst snd]. split; [rewrite H2; reflexivity|].
    split; [constructor; assumption|]. split; [|discriminate].
    rewrite H4. f_equal. exact G2.
Qed.

Lemma prune_ok E tests n : forall f all, within n f -> sound E f -> prunable (selected E tests) all f -> prune_spec E tests n all f.
Proof.
  induction n as [|n IH]; intros f all Hw Hs Hp; [contradiction|].
  destruct (sound_inv E f Hs) as [p [k ->]]. pose proof Hs as Hs'. apply sound_Fld in Hs'. destruct Hs' as [_ [Hk Hsub]].
  cbn [within] in Hw. cbn [prunable] in Hp. unfold prune_spec. set (sel := selected E tests) in *.
  destruct (sel all p k) eqn:Hsel.
  2:{ cbn [pruned]. rewrite Hsel. apply filter_drops. exact Hsel. }
  specialize (Hp eq_refl).
  assert (Hff : field_filter E p k all tests = true) by (rewrite field_filter_selected; exact Hsel).
  assert (Hsame : structural (cls_of k) = false \/ cls_of k = CUnion -> filter_tree E (S n) (Fld p k) all tests = Ok Kept).
  { intros Hx. rewrite filter_keeps_scalars by exact Hx. fold sel. rewrite Hsel. reflexivity. }
  destruct k as [ | | | | | | | | | | | | v key rk | | it a b u | d s o | | | | | l | l | ];
    try (cbn [pruned intact]; rewrite Hsel; cbn [andb]; split; [apply Hsame; auto|reflexivity]).
  - destruct Hp as [Hne Hv].
    assert (Hwv : within n v) by (apply Hw; destruct key; left; reflexivity).
    assert (Hsv : sound E v) by (apply Hsub; destruct key; left; reflexivity).
    specialize (IH v true Hwv Hsv Hv). unfold prune_spec in IH. fold sel in IH.
    cbn [pruned intact filter_tree]. rewrite Hff, Hsel. cbn [andb]. destruct (pruned sel true v) as [g|]; [|contradiction Hne; reflexivity].
    destruct (intact sel true v).
    + destruct IH as [-> ->]. cbn [bind]. split; reflexivity.
    + destruct IH as [h [-> Ha]]. cbn [bind].
      destruct (clone_value E n p v key rk h) as [g' [-> Hg]]; [exact Hw|exact Hs|]. cbn [bind]. exists g'. split; [reflexivity|].
      apply (alike_trans _ _ _ Hg). apply alike_Fld. split; [reflexivity|]. unfold kalike. cbn. rewrite Ha. reflexivity.
  - destruct Hp as [Hne Hv].
    assert (Hwv : within n it) by (apply Hw; left; reflexivity).
    assert (Hsv : sound E it) by (apply Hsub; left; reflexivity).
    specialize (IH it all Hwv Hsv Hv). unfold prune_spec in IH. fold sel in IH.
    cbn [pruned intact filter_tree]. rewrite Hff, Hsel. cbn [andb]. destruct (pruned sel all it) as [g|]; [|contradiction Hne; reflexivity].
    destruct (intact sel all it).
    + destruct IH as [-> ->]. cbn [bind]. split; reflexivity.
    + destruct IH as [h [-> Ha]]. cbn [bind].
      destruct (clone_item E n p it a b u h) as [g' [-> Hg]]; [exact Hw|exact Hs|]. cbn [bind]. exists g'. split; [reflexivity|].
      apply (alike_trans _ _ _ Hg). apply alike_Fld. split; [reflexivity|]. unfold kalike. cbn. rewrite Ha. reflexivity.
  - destruct d as [l|on vs].
    2:{ cbn [constructed_kind] in Hk. destruct Hk as [_ [q [kd [name [-> [Hname [_ HF]]]]]]]. rewrite Forall_forall in HF.
      assert (Hin : forall vd kf, In vd vs -> In kf (snd vd) -> In (snd kf) (subfields (KStructure (SPoly (Fld q kd) vs) s o : kind))).
      { intros vd kf Hv Hi. cbn. right. apply in_flat_map. exists vd. split; [exact Hv|]. apply in_map. exact Hi. }
      assert (Hpv : forall vd, In vd vs -> (exists kf, In kf (snd vd) /\ pruned sel true (snd kf) <> None)
                               /\ forall kf, In kf (snd vd) -> prunable sel true (snd kf)).
      { clear -Hp. induction vs as [|[i l] vs IHv]; intros vd []; [subst vd|apply IHv; [apply Hp|assumption]].
        destruct Hp as [H1 [H2 _]]. split; [exact H1|]. cbn [snd]. clear -H2. induction l as [|[x g] l IHl]; intros kf []; [subst kf; apply H2|].
        apply IHl; [apply H2|assumption]. }
      destruct (filter_variants_spec E tests n vs) as [vs' [H1 [H2 [H3 [H4 H5]]]]].
      { intros vd kf Hv Hi. split; [|apply Hsub, (Hin vd); assumption].
        apply IH; [apply Hw, (Hin vd); assumption|apply Hsub, (Hin vd); assumption|apply (Hpv vd Hv), Hi]. }
      { intros vd Hv. apply (HF vd Hv). }
      { intros vd Hv. apply (Hpv vd Hv). }
      fold sel in H1, H4, H5. cbn [pruned intact filter_tree]. rewrite Hff, Hsel. cbn [andb]. rewrite H1. cbn [bind fst snd].
      assert (Hident : forall vd, In vd vs -> exists c, identified (Fld q kd) (snd vd) = Some (name, c)
                         /\ aget name (snd vd) = Some c /\ alike c (Fld (with_constant q (fst vd)) kd)).
      { intros vd Hv. destruct (HF vd Hv) as [_ [_ [_ [c [Hc1 Hc2]]]]]. exists c. unfold identified. rewrite Hname, Hc1. auto. }
      destruct (forallb _ vs) eqn:Hwhole; cbn [negb].
      - split; [reflexivity|]. do 3 f_equal. rewrite <- (map_id vs) at 2. apply map_ext_in. intros [i l] Hv.
        destruct (Hident _ Hv) as [c [-> [Hc _]]]. cbn [fst snd] in *. f_equal.
        change (aset name c (left_over sel l) = l). pose proof (H5 eq_refl _ Hv) as Hx. cbn [snd] in Hx. rewrite Hx. apply aset_same, Hc.
      - destruct (clone_variants E n p q kd name vs s o vs' Hw Hs Hname H2 H3) as [g' [-> Hg]]. cbn [bind].
        exists g'. split; [reflexivity|]. apply (alike_trans _ _ _ Hg). apply alike_Fld. split; [reflexivity|].
        unfold kalike. cbn [kmap]. unfold sdef_map. do 2 f_equal. rewrite !map_map. cbn [fst snd].
        clear -H2 H4 Hident. revert vs' H2 H4. induction vs as [|[i l] vs IHv]; intros [|[i' l'] vs'] H2 H4; try discriminate; [reflexivity|].
        cbn [map fst snd] in *. injection H2 as -> H2. injection H4 as H4 H4'.
        destruct (Hident _ (or_introl eq_refl)) as [c [Hc1 [_ Hc2]]]. cbn [fst snd] in Hc1, Hc2. rewrite Hc1.
        f_equal; [|apply IHv; [intros vd Hv; apply Hident; right; exact Hv|exact H2|exact H4']].
        f_equal. apply (aset_alike name _ c _ (left_over sel l)); [apply alike_sym, Hc2|exact H4]. }
    destruct Hp as [Hex Hall]. cbn [constructed_kind] in Hk. destruct Hk as [_ Hn].
    assert (Hin : forall kf, In kf l -> In (snd kf) (subfields (KStructure (SPlain l) s o : kind))).
    { intros kf Hi. cbn. apply in_map. exact Hi. }
    destruct (filter_items_spec E tests n l) as [l' [H1 [H2 [H3 H4]]]]; [|exact Hn|intros; apply Hsub, Hin; assumption|].
    { intros kf Hi. apply IH; [apply Hw, Hin, Hi|apply Hsub, Hin, Hi|].
      clear -Hall Hi. induction l as [|[x g] l IHl]; [contradiction|]. destruct Hall as [Hg Hall].
      destruct Hi as [<-|Hi]; [exact Hg|apply IHl; assumption]. }
    fold sel in H1, H2, H4. cbn [pruned intact filter_tree]. rewrite Hff, Hsel. cbn [andb]. unfold filter_structure. rewrite H1. cbn [bind fst snd].
    destruct (forallb (fun kf => intact sel true (snd kf)) l); cbn [negb bind].
    + split; [reflexivity|]. rewrite H4 by reflexivity. reflexivity.
    + destruct l' as [|kf l'].
      { exfalso. destruct Hex as [kf [Hi Hne]]. cbn [map] in H2. symmetry in H2. apply map_eq_nil in H2.
        destruct (pruned sel true (snd kf)) as [g|] eqn:Hg; [|contradiction Hne; reflexivity].
        assert (Hx : In (fst kf, g) []); [|contradiction]. rewrite <- H2. apply in_flat_map. exists kf. split; [exact Hi|].
        rewrite Hg. left. reflexivity. }
      destruct (clone_structure E n p l s o (kf :: l')) as [g' [-> Hg]]; [exact Hw|exact Hs|]. cbn [bind]. exists g'. split; [reflexivity|].
      apply (alike_trans _ _ _ Hg). apply alike_Fld. split; [reflexivity|]. rewrite named_all_same by exact H3.
      unfold kalike. cbn [kmap]. unfold sdef_map. do 2 f_equal. exact H2.
  - destruct (filter_fields_spec E tests n all l) as [l' [H1 [H2 H3]]].
    { intros g Hi. assert (Hx : pruned sel all g <> None /\ prunable sel all g).
      { clear -Hp Hi. induction l as [|h l IHl]; [contradiction|]. destruct Hp as [Ha [Hb Hp]].
        destruct Hi as [<-|Hi]; [split; assumption|apply IHl; assumption]. }
      destruct Hx as [Hx1 Hx2]. split; [exact Hx1|]. apply IH; [apply Hw, Hi|apply Hsub, Hi|exact Hx2]. }
    fold sel in H1, H2, H3. cbn [pruned intact filter_tree]. rewrite Hff, Hsel. cbn [andb]. rewrite H1. cbn [bind fst snd].
    destruct (forallb (intact sel all) l); cbn [negb].
    + split; [reflexivity|]. rewrite H3 by reflexivity. reflexivity.
    + cbn [constructed_kind] in Hk. destruct (clone_values E n p l l') as [g' [-> Hg]]; [exact Hw|exact Hs| |].
      { intros ->. apply Hk. cbn [map] in H2. symmetry in H2. apply map_eq_nil, map_eq_nil in H2. exact H2. }
      cbn [bind]. exists g'. split; [reflexivity|]. apply (alike_trans _ _ _ Hg). apply alike_Fld. split; [reflexivity|].
      unfold kalike. cbn [kmap]. f_equal. exact H2.
Qed.

(** @prop C46 Filtering a tree: where nothing that must stay is dropped and every structure and every variant of a polymorphic one has a selected field, the result is None when the field itself is not selected, the same object when everything is selected, and otherwise the tree with exactly the fields that are selected (up to documentation; what is below a field that is not selected goes with it).  Fields of structures and values of maps are always tested in all mode; the discriminator of a polymorphic structure always stays.  Missing for the full claim: it fails for structures none of whose fields is selected and for fields of structures in any mode (refuted below). *)
Lemma filter_prunes_partial :
  forall E n f all tests, within n f -> sound E f -> prunable (selected E tests) all f ->
    match pruned (selected E tests) all f with
    | None => filter_tree E n f all tests = Ok Dropped
    | Some g => if intact (selected E tests) all f
                then filter_tree E n f all tests = Ok Kept /\ g = f
                else exists h, filter_tree E n f all tests = Ok (Rebuilt h) /\ alike h g
    end.
Proof. intros E n f all tests Hw Hs Hp. apply (prune_ok E tests n f all Hw Hs Hp). Qed.
(** @example
Example C46_example_tree :
  let child (s : str) p k := (s, Fld p k) in
  let a := child $"a" (set_name (Some $"a") p_req) (KInteger None None) in
  let b := child $"b" (p_named $"b") (KInteger None None) in
  let f := Fld p_req (KSequence (Fld p_req (KStructure (SPlain [a; b]) true None)) None None false) in
  let tests := [($"required", VBool true)] in
  within 3 f /\ sound env0 f /\ prunable (selected env0 tests) true f
  /\ pruned (selected env0 tests) true f
     = Some (Fld p_req (KSequence (Fld p_req (KStructure (SPlain [a]) true None)) None None false))
  /\ intact (selected env0 tests) true f = false.
Proof.
  cbv zeta. split; [|split; [|split; [|split; reflexivity]]].
  - cbn. intros g [<-|[]]. cbn. intros h [<-|[<-|[]]]; intros ? [].
  - assert (H : forall g, sound env0 g <-> sound env0 g) by reflexivity.
    repeat (apply sound_Fld; split; [repeat split; reflexivity|]; split; [cbn; repeat split; try discriminate;
      repeat constructor; cbn; try discriminate|];
      cbn [subfields sdef_fields map snd]; intros g; cbn [In]; intros Hg; repeat (destruct Hg as [<-|Hg]); try contradiction).
  - cbn. intros _. split; [discriminate|]. intros _. split; [|repeat split].
    exists ($"a", Fld (set_name (Some $"a") p_req) (KInteger None None)). split; [left; reflexivity|discriminate].
Qed.
(* The discriminator is not selected (its constant is not null) and moves behind the selected field. *)
Example C46_example_polymorphic :
  let on := Fld (set_name (Some $"t") p_req) (KEnumeration [VStr $"x"] None) in
  let t := ($"t", Fld (with_constant (set_name (Some $"t") p_req) (VStr $"x")) (KEnumeration [VStr $"x"] None)) in
  let a := ($"a", Fld (set_name (Some $"a") p_req) (KInteger None None)) in
  let b := ($"b", Fld (p_named $"b") (KInteger None None)) in
  let f l := Fld p_req (KStructure (SPoly on [(VStr $"x", l)]) true None) in
  let tests := [($"required", VBool true); ($"constant", VBool false)] in
  prunable (selected env0 tests) true (f [t; a; b])
  /\ pruned (selected env0 tests) true (f [t; a; b]) = Some (f [a; t])
  /\ match filter_tree env0 3 (f [t; a; b]) true tests with
     | Ok (Rebuilt g) => alike g (f [a; t])
     | _ => False
     end.
Proof.
  cbv zeta. split; [|split; vm_compute; reflexivity]. intros _. split; [|split; [|exact I]].
  - eexists. split; [right; left; reflexivity|discriminate].
  - repeat split; cbn; discriminate || auto.
Qed.
@end *)

(** @prop C46 When the value of a map, the item of a sequence or a field of a tuple is not selected (in the mode that applies to it), filtering a selected field raises CannotFilterError.  For a tuple: unless filtering a field before it raises. *)
Lemma filter_cannot :
  forall E n p k g all tests, selected E tests all p k = true ->
    (exists key rk, k = KMap g key rk) /\ pruned (selected E tests) true g = None
    \/ (exists a b u, k = KSequence g a b u) /\ pruned (selected E tests) all g = None
    \/ (exists l1 l2, k = KTuple (l1 ++ g :: l2)
           /\ forall h, In h l1 -> exists r, filter_tree E (S n) h all tests = Ok r)
       /\ pruned (selected E tests) all g = None ->
    filter_tree E (S (S n)) (Fld p k) all tests = py CannotFilterError.
Proof.
  intros E n p k g all tests Hsel H.
  assert (Hd : forall all, pruned (selected E tests) all g = None -> filter_tree E (S n) g all tests = Ok Dropped).
  { intros al Hn. destruct g as [i|q kd]; [discriminate|]. apply filter_drops. cbn [pruned] in Hn.
    destruct (selected E tests al q kd); [discriminate|reflexivity]. }
  remember (S n) as m eqn:Hm. cbn [filter_tree]. rewrite field_filter_selected, Hsel.
  destruct H as [[[key [rk ->]] Hn]|[[[a [b [u ->]]] Hn]|[[l1 [l2 [-> Hl]]] Hn]]]; try (rewrite (Hd _ Hn); reflexivity).
  assert (He : filter_fields (fun h => filter_tree E m h all tests) (l1 ++ g :: l2) = py CannotFilterError).
  { clear Hsel. induction l1 as [|h l1 IH]; cbn [app filter_fields]; [rewrite (Hd _ Hn); reflexivity|].
    destruct (Hl h (or_introl eq_refl)) as [r ->]. cbn [bind]. rewrite IH by (intros; apply Hl; right; assumption).
    destruct r; reflexivity. }
  rewrite He. reflexivity.
Qed.
(** @example
Example C46_example_cannot :
  filter_tree env0 2 (Fld p_req (KMap (Fld p0 KBoolean) None None)) true [($"required", VBool true)] = py CannotFilterError.
Proof. reflexivity. Qed.
@end *)

(** @prop C46 REFUTED for a structure none of whose fields is selected: it is returned unchanged, with fields that fail the tests. *)
Lemma filter_empty_refuted :
  exists p name q k tests,
    sound env0 (Fld p (KStructure (SPlain [(name, Fld q k)]) true None))
    /\ selected env0 tests true q k = false
    /\ filter_tree env0 2 (Fld p (KStructure (SPlain [(name, Fld q k)]) true None)) true tests = Ok Kept.
Proof.
  exists p_req, $"a", (p_named $"a"), KBoolean, [($"required", VBool true)]. split; [|split; reflexivity].
  apply sound_Fld. split; [repeat split; reflexivity|]. split.
  - split; [discriminate|]. constructor; [|constructor]. split; discriminate.
  - cbn. intros g [<-|[]]. apply sound_Fld. split; [repeat split; reflexivity|]. split; [exact I|intros ? []].
Qed.
(** @example
Example C46_example_empty :
  filter_tree env0 2 (Fld p_req (KStructure (SPlain [($"a", Fld (p_named $"a") KBoolean);
      ($"b", Fld (p_named $"b") KBoolean)]) true None)) true [($"required", VBool true)] = Ok Kept.
Proof. reflexivity. Qed.
@end *)

(** @prop C46 REFUTED in any mode for fields of structures: a field that passes one of the tests is dropped from its structure. *)
Lemma filter_any_refuted :
  exists f name q k tests g,
    sound env0 f /\ selected env0 tests false q k = true
    /\ (exists p l s o, f = Fld p (KStructure (SPlain l) s o) /\ aget name l = Some (Fld q k))
    /\ filter_tree env0 2 f false tests = Ok (Rebuilt g)
    /\ (exists p l s o, g = Fld p (KStructure (SPlain l) s o) /\ aget name l = None).
Proof.
  pose (a := ($"a", Fld (set_name (Some $"a") p_req) KBoolean)).
  pose (b := ($"b", Fld (set_name (Some $"b") p_req) (KInteger None None))).
  pose (f := Fld p_req (KStructure (SPlain [a; b]) true None)).
  pose (tests := [($"required", VBool true); ($"type", VStr $"boolean")]).
  destruct (filter_tree env0 2 f false tests) as [[| |g]|e] eqn:Hf; try (vm_compute in Hf; discriminate).
  exists f, $"b", (set_name (Some $"b") p_req), (KInteger None None : kind), tests, g.
  split; [|split; [reflexivity|split; [|split; [exact Hf|]]]].
  - apply sound_Fld. split; [repeat split; reflexivity|]. split.
    + split; [discriminate|]. repeat constructor; discriminate.
    + cbn. intros h [<-|[<-|[]]]; (apply sound_Fld; split; [repeat split; reflexivity|]; split; [exact I|intros ? []]).
  - repeat eexists.
  - vm_compute in Hf. injection Hf as <-. repeat eexists.
Qed.
(** @example
Example C46_example_any :
  selected env0 [($"required", VBool true); ($"type", VStr $"boolean")] false (set_name (Some $"b") p_req) (KInteger None None) = true
  /\ selected env0 [($"required", VBool true); ($"type", VStr $"boolean")] true (set_name (Some $"b") p_req) (KInteger None None) = false.
Proof. split; reflexivity. Qed.
@end *)

(** ** Transforming *)

Lemma with_name_named s f : with_name s f = named s f.
Proof. destruct f as [i|p k]; [reflexivity|]. cbn. destruct (p_name p) as [[|]|]; reflexivity. Qed.

Definition transform_spec E tr n f : Prop :=
  if touched tr f then exists g, transform E tr n f = Ok (TNew g) /\ alike g (rewritten tr f)
  else transform E tr n f = Ok TSame /\ rewritten tr f = f.

Lemma transform_fields_spec E tr n l : (forall g, In g l -> transform_spec E tr n g) ->
  exists l', transform_fields (transform E tr n) l = Ok (l', existsb (touched tr) l)
    /\ map undocumented l' = map undocumented (map (rewritten tr) l)
    /\ (existsb (touched tr) l = false -> map (rewritten tr) l = l).
Proof.
  induction l as [|f l IH]; intros H; [exists []; repeat split|].
  destruct IH as [l' [H1 [H2 H3]]]; [intros; apply H; right; assumption|].
  specialize (H f (or_introl eq_refl)). unfold transform_spec in H. cbn [transform_fields existsb map].
  destruct (touched tr f).
  - destruct H as [g [Hf Ha]]. exists (g :: l'). rewrite Hf. cbn [bind]. rewrite H1. cbn [bind fst snd orb].
    split; [reflexivity|]. split; [cbn [map]; rewrite H2, Ha; reflexivity|discriminate].
  - destruct H as [Hf He]. exists (f :: l'). rewrite Hf. cbn [bind]. rewrite H1. cbn [bind fst snd orb].
    split; [reflexivity|]. split; [cbn [map]; rewrite H2, He; reflexivity|]. intros Hb. rewrite H3, He by exact Hb. reflexivity.
Qed.

Lemma alike_named s f g : alike f g -> alike (named s f) (named s g).
Proof.
  intros H. destruct g as [i|p k].
  - destruct f as [j|q kq]; [exact H|discriminate].
  - apply alike_inv in H. destruct H as [q [kq [-> [Hb Hk]]]]. cbn [named]. rewrite (proj1 (bare_name _ _ Hb)).
    destruct (p_name p) as [[|]|]; apply alike_Fld; (split; [|exact Hk]); try exact Hb;
      unfold bare, set_name in *; cbn in *; injection Hb; intros; f_equal; assumption.
Qed.

Lemma transform_items_spec E tr n l : (forall kf, In kf l -> transform_spec E tr n (snd kf)) -> Forall has_name l ->
  let final := map (fun kf => (fst kf, with_name (fst kf) (rewritten tr (snd kf)))) l in
  exists l', transform_items (transform E tr n) l = Ok (l', existsb (fun kf => touched tr (snd kf)) l)
    /\ map uf (map (fun kf => (fst kf, named (fst kf) (snd kf))) l') = map uf final
    /\ (existsb (fun kf => touched tr (snd kf)) l = false -> final = l).
Proof.
  cbv zeta. induction l as [|[s f] l IH]; intros H Hn; [exists []; repeat split|].
  inversion Hn as [|? ? Hn1 Hn2]; subst.
  destruct IH as [l' [H1 [H2 H3]]]; [intros; apply H; right; assumption|exact Hn2|].
  specialize (H (s, f) (or_introl eq_refl)). cbn [snd] in H. unfold transform_spec in H. cbn [transform_items existsb map fst snd].
  destruct (touched tr f).
  - destruct H as [g [Hf Ha]]. exists ((s, g) :: l'). rewrite Hf. cbn [bind]. rewrite H1. cbn [bind fst snd orb].
    split; [reflexivity|]. split; [|discriminate]. cbn [map]. rewrite H2. f_equal. unfold uf. cbn [fst snd]. f_equal.
    rewrite with_name_named. apply alike_named, Ha.
  - destruct H as [Hf He]. exists ((s, f) :: l'). rewrite Hf. cbn [bind]. rewrite H1. cbn [bind fst snd orb].
    split; [reflexivity|]. rewrite He, with_name_named. split; [cbn [map]; rewrite H2; reflexivity|].
    intros Hb. rewrite H3 by exact Hb. rewrite named_same by exact Hn1. reflexivity.
Qed.

Lemma transform_ok E tr n : forall f, within n f -> sound E f -> everywhere (fun _ k => not_polymorphic k) f -> transform_spec E tr n f.
Proof.
  induction n as [|n IH]; intros f Hw Hs Hp; [contradiction|].
  destruct (sound_inv E f Hs) as [p [k ->]]. pose proof Hs as Hs'. apply sound_Fld in Hs'. destruct Hs' as [_ [Hk Hsub]].
  cbn [within] in Hw. inversion Hp as [|? ? Hp1 Hp2]; subst.
  assert (IH' : forall g, In g (subfields k) -> transform_spec E tr n g).
  { intros g Hg. apply IH; [apply Hw, Hg|apply Hsub, Hg|apply Hp2, Hg]. }
  unfold transform_spec. cbn [touched transform rewritten].
  destruct (tr (Fld p k)) as [|g| |]; [split; reflexivity|exists g; split; reflexivity|split; reflexivity|].
  destruct k as [ | | | | | | | | | | | | v key rk | | it a b u | d s o | | | | | l | l | ]; try (split; reflexivity).
  - assert (Hv : transform_spec E tr n v) by (apply IH'; destruct key; left; reflexivity). unfold transform_spec in Hv.
    destruct (touched tr v).
    + destruct Hv as [h [-> Ha]]. cbn [bind].
      destruct (clone_value E n p v key rk h) as [g' [-> Hg]]; [exact Hw|exact Hs|]. cbn [bind]. exists g'. split; [reflexivity|].
      apply (alike_trans _ _ _ Hg). apply alike_Fld. split; [reflexivity|]. unfold kalike. cbn. rewrite Ha. reflexivity.
    + destruct Hv as [-> ->]. split; reflexivity.
  - assert (Hv : transform_spec E tr n it) by (apply IH'; left; reflexivity). unfold transform_spec in Hv.
    destruct (touched tr it).
    + destruct Hv as [h [-> Ha]]. cbn [bind].
      destruct (clone_item E n p it a b u h) as [g' [-> Hg]]; [exact Hw|exact Hs|]. cbn [bind]. exists g'. split; [reflexivity|].
      apply (alike_trans _ _ _ Hg). apply alike_Fld. split; [reflexivity|]. unfold kalike. cbn. rewrite Ha. reflexivity.
    + destruct Hv as [-> ->]. split; reflexivity.
  - destruct d as [l|on vs]; [|contradiction]. cbn [constructed_kind] in Hk. destruct Hk as [_ Hn].
    destruct (transform_items_spec E tr n l) as [l' [H1 [H2 H3]]]; [|exact Hn|].
    { intros kf Hi. apply IH'. cbn. apply in_map, Hi. }
    rewrite H1. cbn [bind fst snd]. destruct (existsb (fun kf => touched tr (snd kf)) l).
    + destruct (clone_structure E n p l s o l') as [g' [-> Hg]]; [exact Hw|exact Hs|]. cbn [bind]. exists g'. split; [reflexivity|].
      apply (alike_trans _ _ _ Hg). apply alike_Fld. split; [reflexivity|].
      unfold kalike. cbn [kmap]. unfold sdef_map. do 2 f_equal. exact H2.
    + split; [reflexivity|]. rewrite H3 by reflexivity. reflexivity.
  - destruct (transform_fields_spec E tr n l IH') as [l' [H1 [H2 H3]]].
    rewrite H1. cbn [bind fst snd]. destruct (existsb (touched tr) l).
    + cbn [constructed_kind] in Hk. destruct (clone_values E n p l l') as [g' [-> Hg]]; [exact Hw|exact Hs| |].
      { intros ->. apply Hk. cbn [map] in H2. symmetry in H2. apply map_eq_nil, map_eq_nil in H2. exact H2. }
      cbn [bind]. exists g'. split; [reflexivity|]. apply (alike_trans _ _ _ Hg). apply alike_Fld. split; [reflexivity|].
      unfold kalike. cbn [kmap]. f_equal. exact H2.
    + split; [reflexivity|]. rewrite H3 by reflexivity. reflexivity.
  - destruct (transform_fields_spec E tr n l IH') as [l' [H1 [H2 H3]]].
    rewrite H1. cbn [bind fst snd]. destruct (existsb (touched tr) l).
    + cbn [constructed_kind] in Hk. destruct (clone_fields E n p l l') as [g' [-> Hg]]; [exact Hw|exact Hs| |].
      { intros ->. apply Hk. cbn [map] in H2. symmetry in H2. apply map_eq_nil, map_eq_nil in H2. exact H2. }
      cbn [bind]. exists g'. split; [reflexivity|]. apply (alike_trans _ _ _ Hg). apply alike_Fld. split; [reflexivity|].
      unfold kalike. cbn [kmap]. f_equal. exact H2.
    + split; [reflexivity|]. rewrite H3 by reflexivity. reflexivity.
Qed.

(** @prop C47 Without polymorphic structures: when no field that is visited is replaced the result is the same object (and nothing was to be rewritten); otherwise it is the tree in which exactly those fields are replaced, up to documentation.  Missing for the full claim: it fails for polymorphic structures (refuted below). *)
Lemma transform_rewrites_partial :
  forall E tr n f, within n f -> sound E f -> everywhere (fun _ k => not_polymorphic k) f ->
    if touched tr f then exists g, transform E tr n f = Ok (TNew g) /\ alike g (rewritten tr f)
    else transform E tr n f = Ok TSame /\ rewritten tr f = f.
Proof. exact transform_ok. Qed.
(** @example
Example C47_example :
  let tr f := match f with Fld p (KInteger _ _) => AField (Fld p0 KBoolean) | _ => AOther end in
  let inner k := Fld p0 (KStructure (SPlain [($"a", Fld (p_named $"a") k)]) true None) in
  let f k := Fld p0 (KTuple [inner k; Fld p0 KUUID]) in
  within 3 (f (KInteger None None)) /\ sound env0 (f (KInteger None None))
  /\ everywhere (fun _ k => not_polymorphic k) (f (KInteger None None))
  /\ touched tr (f (KInteger None None)) = true
  /\ rewritten tr (f (KInteger None None)) = f KBoolean
  /\ touched tr (f KObject) = false.
Proof.
  cbv zeta. split; [|split; [|split; [|repeat split]]].
  - cbn. intros g [<-|[<-|[]]]; [|intros ? []]. cbn. intros h [<-|[]]. intros ? [].
  - apply sound_Fld. split; [repeat split; reflexivity|]. split; [discriminate|]. cbn. intros g [<-|[<-|[]]];
      (apply sound_Fld; split; [repeat split; reflexivity|]); (split; [try exact I|try solve [intros ? []]]).
    + split; [discriminate|]. repeat constructor; discriminate.
    + cbn. intros h [<-|[]]. apply sound_Fld. split; [repeat split; reflexivity|]. split; [exact I|intros ? []].
  - constructor; [exact I|]. cbn. intros g [<-|[<-|[]]]; (constructor; [exact I|]); [|intros ? []].
    cbn. intros h [<-|[]]. constructor; [exact I|intros ? []].
Qed.
@end *)

(** @prop C47 REFUTED for polymorphic structures: transforming one with a transformer that changes nothing raises AttributeError instead of returning the structure. *)
Lemma transform_polymorphic_refuted :
  exists f, sound env0 f /\ rewritten (fun _ => AOther) f = f
    /\ forall n, transform env0 (fun _ => AOther) (S n) f = py AttributeError.
Proof.
  pose (q := set_name (Some $"type") p_req).
  pose (c := Fld (with_constant q (VStr $"x")) (KText None None None true)).
  exists (Fld p0 (KStructure (SPoly (Fld q (KText None None None true)) [(VStr $"x", [($"type", c)])]) true None)).
  split; [|split; reflexivity].
  apply sound_Fld. split; [repeat split; reflexivity|]. split.
  - split; [discriminate|]. exists q, (KText None None None true), $"type". split; [reflexivity|]. split; [reflexivity|].
    split; [reflexivity|]. constructor; [|constructor]. cbn [fst snd]. split; [discriminate|]. split; [reflexivity|].
    split; [constructor; [|constructor]; split; discriminate|]. exists c. split; reflexivity.
  - cbn. intros g [<-|[<-|[]]]; (apply sound_Fld; split; [repeat split; reflexivity|]; split; [split; exact I|intros ? []]).
Qed.
(** @example
Example C47_example_polymorphic :
  transform env0 (fun _ => AOther) 3 (Fld p0 (KStructure (SPoly (Fld p_req KBoolean)
      [(VBool true, [($"type", Fld p_req KBoolean)])]) true None)) = py AttributeError.
Proof. reflexivity. Qed.
@end *)

(** ** Extending and replacing *)

Lemma extend_items_ok only d : only_fields d -> NoDup (map fst d) -> forall l,
  exists l', extend_items only l d = Ok l'
    /\ map fst l' = map fst l ++ (if only then [] else List.filter (absent l) (map fst d))
    /\ forall key, aget key l' = match aget key d with
                                 | Some (VField g) => if only && absent l key then None else Some (renamed key g)
                                 | _ => aget key l
                                 end.
Proof.
  induction d as [|[name v] d IH]; intros Ho Hn l.
  - exists l. cbn. split; [reflexivity|]. split; [destruct only; rewrite app_nil_r; reflexivity|reflexivity].
  - inversion Ho as [|? ? [p [k Hv]] Ho']; subst. cbn [snd] in Hv. subst v. cbn [map fst] in Hn. inversion Hn as [|? ? Hn1 Hn2]; subst.
    cbn [extend_items].
    set (l1 := if only then match aget name l with Some _ => aset name (renamed name (Fld p k)) l | None => l end
               else aset name (renamed name (Fld p k)) l).
    destruct (IH Ho' Hn2 l1) as [l' [H1 [H2 H3]]]. exists l'. split; [exact H1|].
    assert (Hg : forall key, key <> name -> aget key l1 = aget key l).
    { intros key Hk. unfold l1. destruct only; [destruct (aget name l); [|reflexivity]|]; apply aset_get_other, Hk. }
    assert (Hgn : aget name l1 = if only && absent l name then None else Some (renamed name (Fld p k))).
    { unfold l1, absent. destruct only; [|apply aset_get_same]. destruct (aget name l) eqn:He; cbn; [apply aset_get_same|exact He]. }
    assert (Hab : forall key, key <> name -> absent l1 key = absent l key) by (intros key Hk; unfold absent; rewrite Hg by exact Hk; reflexivity).
    split.
    + rewrite H2. cbn [map fst List.filter]. destruct only.
      * rewrite !app_nil_r. unfold l1. destruct (aget name l) eqn:He; [|reflexivity]. apply aset_in_keys. apply aget_Some_in. eauto.
      * assert (Hf : List.filter (absent l1) (map fst d) = List.filter (absent l) (map fst d)).
        { apply filter_ext_in. intros key Hi. apply Hab. intros ->. contradiction. }
        rewrite Hf. unfold l1. unfold absent at 2. destruct (aget name l) eqn:He.
        -- rewrite aset_in_keys by (apply aget_Some_in; eauto). reflexivity.
        -- rewrite aset_notin by (apply aget_None; exact He). rewrite map_app, <- app_assoc. reflexivity.
    + intros key. rewrite H3. cbn [aget]. destruct (str_eqb_spec key name) as [-> |Hne].
      * rewrite (proj2 (aget_None name d)) by exact Hn1. exact Hgn.
      * rewrite Hab, Hg by exact Hne. reflexivity.
Qed.

Lemma extend_items_bad only d : ~ only_fields d -> forall l, extend_items only l d = py TypeError.
Proof.
  induction d as [|[name v] d IH]; intros H l; [contradiction H; constructor|]. cbn [extend_items].
  destruct v; try reflexivity. destruct f; [reflexivity|]. apply IH. intros Hd. apply H. constructor; [|exact Hd]. cbn. eauto.
Qed.

Lemma clone_plain E n p l s o : within n (Fld p (KStructure (SPlain l) s o)) -> sound E (Fld p (KStructure (SPlain l) s o)) ->
  exists p' l', clone E n (Fld p (KStructure (SPlain l) s o)) [] = Ok (Fld p' (KStructure (SPlain l') s o))
    /\ bare p' = bare p /\ map uf l' = map uf l.
Proof.
  intros Hw Hs. destruct (clone_ok E n p _ [] Hw Hs (Forall_nil _)) as [g [Hg [Ha _]]]. rewrite replaced_nil, rekind_nil in Ha.
  apply alike_inv in Ha. destruct Ha as [p' [k' [-> [Hb Hk]]]]. unfold kalike in Hk. destruct k'; try discriminate.
  destruct d; try discriminate. cbn in Hk. injection Hk as Hl -> ->. eauto.
Qed.

Lemma uf_both l' l key : map uf l' = map uf l -> both_alike (aget key l') (aget key l).
Proof.
  revert l'. induction l as [|[s f] l IH]; intros [|[s' f'] l'] H; try discriminate; [exact I|].
  cbn in H. injection H as Hs Hf Hl. subst s'. cbn. destruct (str_eqb key s); [exact Hf|apply IH, Hl].
Qed.
Lemma uf_keys l' l : map uf l' = map uf l -> map fst l' = map fst l.
Proof.
  revert l'. induction l as [|[s f] l IH]; intros [|[s' f'] l'] H; try discriminate; [reflexivity|].
  cbn in H. injection H as Hs Hf Hl. subst s'. cbn. f_equal. apply IH, Hl.
Qed.
Lemma absent_keys {A B} (l : list (str * A)) (m : list (str * B)) key : map fst l = map fst m -> absent l key = absent m key.
Proof.
  intros H. unfold absent. destruct (aget key l) eqn:H1, (aget key m) eqn:H2; try reflexivity; exfalso.
  - apply aget_None in H2. apply H2. rewrite <- H. apply aget_Some_in. eauto.
  - apply aget_None in H1. apply H1. rewrite H. apply aget_Some_in. eauto.
Qed.

(** @prop C49 extend: the result has the parameters of the structure, its keys in order followed by the new ones, the new fields (named after their keys) where the argument has one, and fields alike to the old ones elsewhere. *)
Lemma extend_exact :
  forall E n p l s o d,
    within n (Fld p (KStructure (SPlain l) s o)) -> sound E (Fld p (KStructure (SPlain l) s o)) ->
    only_fields d -> NoDup (map fst d) ->
    exists p' l', extend E n (Fld p (KStructure (SPlain l) s o)) d = Ok (Fld p' (KStructure (SPlain l') s o))
      /\ bare p' = bare p
      /\ map fst l' = map fst l ++ List.filter (absent l) (map fst d)
      /\ forall key, match aget key d with
                     | Some (VField g) => aget key l' = Some (renamed key g)
                     | _ => both_alike (aget key l') (aget key l)
                     end.
Proof.
  intros E n p l s o d Hw Hs Hd Hn. destruct (clone_plain E n p l s o Hw Hs) as [p' [l1 [Hc [Hb Hl]]]].
  destruct (extend_items_ok false d Hd Hn l1) as [l' [H1 [H2 H3]]]. exists p', l'. unfold extend. rewrite Hc. cbn [bind structure_of].
  rewrite H1. cbn [bind]. split; [reflexivity|]. split; [exact Hb|]. split.
  - rewrite H2, (uf_keys _ _ Hl). f_equal. apply filter_ext. intros key. apply absent_keys, uf_keys, Hl.
  - intros key. rewrite H3. pose proof (uf_both l1 l key Hl) as Hx. destruct (aget key d) as [[]|]; try exact Hx. reflexivity.
Qed.
(** @example
Example C49_example_extend :
  let f := Fld p0 (KStructure (SPlain [($"a", Fld (p_named $"a") KBoolean); ($"b", Fld (p_named $"b") KBoolean)]) true None) in
  extend env0 3 f [($"c", VField (Fld p0 KUUID)); ($"a", VField (Fld p_req KUUID))]
  = Ok (Fld p0 (KStructure (SPlain [($"a", Fld (set_name (Some $"a") p_req) KUUID);
       ($"b", Fld (p_named $"b") KBoolean); ($"c", Fld (p_named $"c") KUUID)]) true None)).
Proof. reflexivity. Qed.
@end *)

(** @prop C49 replace: when no key of the argument is present the structure itself is returned; otherwise the result has the parameters and exactly the keys of the structure, the new fields (named after their keys) where both have the key, and fields alike to the old ones elsewhere. *)
Lemma replace_exact :
  forall E n p l s o d,
    within n (Fld p (KStructure (SPlain l) s o)) -> sound E (Fld p (KStructure (SPlain l) s o)) ->
    only_fields d -> NoDup (map fst d) ->
    ((forall key, In key (map fst d) -> ~ In key (map fst l)) ->
       replace E n (Fld p (KStructure (SPlain l) s o)) d = Ok None)
    /\ ((exists key, In key (map fst d) /\ In key (map fst l)) ->
       exists p' l', replace E n (Fld p (KStructure (SPlain l) s o)) d = Ok (Some (Fld p' (KStructure (SPlain l') s o)))
         /\ bare p' = bare p
         /\ map fst l' = map fst l
         /\ forall key, match aget key d with
                        | Some (VField g) => In key (map fst l) -> aget key l' = Some (renamed key g)
                        | _ => both_alike (aget key l') (aget key l)
                        end).
Proof.
  intros E n p l s o d Hw Hs Hd Hn. unfold replace. cbn [bind structure_of].
  set (b := existsb _ d). assert (Hb : b = true <-> exists key, In key (map fst d) /\ In key (map fst l)).
  { unfold b. rewrite existsb_exists. split.
    - intros [kv [Hi Hg]]. exists (fst kv). split; [apply in_map, Hi|]. apply aget_Some_in. destruct (aget (fst kv) l); [eauto|discriminate].
    - intros [key [Hi Hg]]. apply in_map_iff in Hi. destruct Hi as [kv [<- Hi]]. exists kv. split; [exact Hi|].
      apply aget_Some_in in Hg. destruct Hg as [f ->]. reflexivity. }
  split.
  - intros H. destruct b; [|reflexivity]. destruct (proj1 Hb eq_refl) as [key [H1 H2]]. destruct (H _ H1 H2).
  - intros H. rewrite (proj2 Hb H). destruct (clone_plain E n p l s o Hw Hs) as [p' [l1 [Hc [Hbare Hl]]]].
    destruct (extend_items_ok true d Hd Hn l1) as [l' [H1 [H2 H3]]]. exists p', l'. rewrite Hc. cbn [bind structure_of].
    rewrite H1. cbn [bind]. split; [reflexivity|]. split; [exact Hbare|]. rewrite app_nil_r in H2. split; [rewrite H2; apply uf_keys, Hl|].
    intros key. rewrite H3. pose proof (uf_both l1 l key Hl) as Hx. destruct (aget key d) as [[]|]; try exact Hx.
    intros Hi. rewrite (absent_keys l1 l key) by (apply uf_keys, Hl). unfold absent. apply aget_Some_in in Hi. destruct Hi as [g ->]. reflexivity.
Qed.
(** @example
Example C49_example_replace :
  let f := Fld p0 (KStructure (SPlain [($"a", Fld (p_named $"a") KBoolean); ($"b", Fld (p_named $"b") KBoolean)]) true None) in
  replace env0 3 f [($"c", VField (Fld p0 KUUID)); ($"a", VField (Fld p_req KUUID))]
  = Ok (Some (Fld p0 (KStructure (SPlain [($"a", Fld (set_name (Some $"a") p_req) KUUID);
       ($"b", Fld (p_named $"b") KBoolean)]) true None)))
  /\ replace env0 3 f [($"c", VField (Fld p0 KUUID))] = Ok None.
Proof. split; reflexivity. Qed.
@end *)

(** ** Objects *)

Lemma store_length h : forall a f, length (store h a f) = length h.
Proof. induction h as [|g h IH]; intros [|a] f; cbn; auto. Qed.
Lemma store_same h : forall a f, (a < length h)%nat -> deref (store h a f) a = f.
Proof. unfold deref. induction h as [|g h IH]; intros [|a] f Ha; cbn in *; try lia; [reflexivity|]. apply IH. lia. Qed.
Lemma store_other h : forall a b f, a <> b -> deref (store h a f) b = deref h b.
Proof.
  unfold deref. induction h as [|g h IH]; intros [|a] [|b] f Ha; cbn; try reflexivity; [contradiction|]. apply IH. congruence.
Qed.

Lemma put_objects_frame only d : forall h l h' l', put_objects only h l d = Ok (h', l') ->
  length h' = length h /\ forall a, ~ In a (map snd d) -> deref h' a = deref h a.
Proof.
  induction d as [|[name a] d IH]; intros h l h' l' H; cbn [put_objects] in H.
  - injection H as <- <-. auto.
  - destruct (deref h a) as [|p k]; [discriminate|]. apply IH in H. destruct H as [H1 H2]. rewrite store_length in H1.
    split; [exact H1|]. intros b Hb. cbn in Hb. rewrite H2 by tauto. apply store_other. intros ->. tauto.
Qed.

Lemma put_objects_refines only d : forall h l h' l', NoDup (map snd d) -> NoDup (map fst d) ->
  (forall ka, In ka d -> (snd ka < length h)%nat) ->
  (forall ka kb, In ka d -> In kb l -> snd ka <> snd kb) ->
  put_objects only h l d = Ok (h', l') ->
  extend_items only (read_dict h l) (map (fun ka => (fst ka, VField (deref h (snd ka)))) d) = Ok (read_dict h' l').
Proof.
  assert (Haset : forall (h : heap) name a l, read_dict h (aset name a l) = aset name (deref h a) (read_dict h l)).
  { intros h name a l. unfold read_dict. induction l as [|[k b] l IH]; [reflexivity|]. cbn. destruct (str_eqb name k); [reflexivity|].
    cbn. f_equal. exact IH. }
  assert (Hget : forall (h : heap) name l, aget name (read_dict h l) = option_map (deref h) (aget name l)).
  { intros h name l. unfold read_dict. induction l as [|[k b] l IH]; [reflexivity|]. cbn. destruct (str_eqb name k); [reflexivity|exact IH]. }
  induction d as [|[name a] d IH]; intros h l h' l' Hn Hk Hlt Hdis H; cbn [put_objects] in H.
  - injection H as <- <-. reflexivity.
  - cbn [map fst snd] in *. inversion Hn as [|? ? Hn1 Hn2]; subst. inversion Hk as [|? ? Hk1 Hk2]; subst.
    destruct (deref h a) as [|p k] eqn:Ha; [discriminate|]. cbn [extend_items].
    set (g := renamed name (Fld p k)) in *. set (h1 := store h a g) in *.
    set (l1 := if only then match aget name l with Some _ => aset name a l | None => l end else aset name a l) in *.
    assert (Hlta : (a < length h)%nat) by apply (Hlt (name, a) (or_introl eq_refl)).
    assert (Hread : read_dict h1 l = read_dict h l).
    { unfold read_dict. apply map_ext_in. intros [kb b] Hb. cbn. f_equal. apply store_other.
      apply (Hdis (name, a) (kb, b) (or_introl eq_refl) Hb). }
    assert (Hd : map (fun ka => (fst ka, VField (deref h1 (snd ka)))) d = map (fun ka => (fst ka, VField (deref h (snd ka)))) d).
    { apply map_ext_in. intros [kb b] Hb. cbn. do 2 f_equal. apply store_other. intros ->. apply Hn1. apply (in_map snd) in Hb. exact Hb. }
    assert (Hl1 : read_dict h1 l1 = if only then match aget name (read_dict h l) with Some _ => aset name g (read_dict h l) | None => read_dict h l end
                                    else aset name g (read_dict h l)).
    { unfold l1. rewrite Hget. destruct only; [destruct (aget name l); cbn [option_map]|]; rewrite ?Haset, Hread; try reflexivity;
        unfold h1; rewrite store_same by exact Hlta; reflexivity. }
    specialize (IH h1 l1 h' l' Hn2 Hk2). rewrite Hd, Hl1 in IH. apply IH.
    + intros ka Hi. unfold h1. rewrite store_length. apply Hlt. right. exact Hi.
    + intros ka kb Hi Hj. assert (Hj' : snd kb = a \/ In kb l).
      { clear -Hj. unfold l1 in Hj. assert (Hx : In kb (aset name a l) -> snd kb = a \/ In kb l).
        { clear. induction l as [|[x y] l IH]; cbn; [intros [<-|[]]; auto|]. destruct (str_eqb name x); cbn.
          - intros [<-|Hi]; auto.
          - intros [<-|Hi]; [auto|]. destruct (IH Hi); auto. }
        destruct only; [destruct (aget name l)|]; auto. }
      destruct Hj' as [-> |Hj']; [|apply Hdis; [right; exact Hi|exact Hj']].
      intros He. apply Hn1. rewrite <- He. apply in_map, Hi.
    + exact H.
Qed.

Lemma read_new (h : heap) (l : list (str * field)) :
  read_dict (h ++ map snd l) (combine (map fst l) (seq (length h) (length l))) = l.
Proof.
  revert h. induction l as [|[s f] l IH]; intros h; [reflexivity|]. cbn [map fst snd length seq combine]. unfold read_dict. cbn [map fst snd].
  unfold deref at 1. rewrite nth_middle. f_equal. specialize (IH (h ++ [f])). rewrite <- app_assoc, app_length in IH. cbn [length app] in IH.
  rewrite Nat.add_1_r in IH. exact IH.
Qed.

(** @prop C49 With objects that may be shared: extend and replace change at most the field objects given in the argument, all other objects keep their contents, in particular a structure none of whose fields is given in the argument is unchanged.  Given distinct objects, the new structure reads as the pure functions above say.  Missing for the full claim: the original is changed when the argument contains one of its fields (refuted below). *)
Lemma extend_frame_partial :
  forall E n only h p l s o d h' p' l' s' o',
    edited_clone E n only h p l s o d = Ok (h', (p', l', s', o')) ->
    (forall ka, In ka d -> (snd ka < length h)%nat) ->
    (forall a, (a < length h)%nat -> ~ In a (map snd d) -> deref h' a = deref h a)
    /\ (forall m, (forall ka, In ka m -> (snd ka < length h)%nat /\ ~ In (snd ka) (map snd d)) ->
          read_dict h' m = read_dict h m)
    /\ (NoDup (map snd d) -> NoDup (map fst d) ->
        let f := Fld p (KStructure (SPlain (read_dict h l)) s o) in
        let d' := map (fun ka => (fst ka, VField (deref h (snd ka)))) d in
        let new := Fld p' (KStructure (SPlain (read_dict h' l')) s' o') in
        if only
        then (exists key, In key (map fst d) /\ In key (map fst l)) -> replace E n f d' = Ok (Some new)
        else extend E n f d' = Ok new).
Proof.
  intros E n only h p l s o d h' p' l' s' o' H Hlt. unfold edited_clone in H.
  apply bind_Ok in H. destruct H as [g [Hc H]]. apply bind_Ok in H. destruct H as [[[[p1 fields] s1] o1] [Hg H]].
  apply bind_Ok in H. destruct H as [[h1 l1] [Hp H]]. cbn [fst snd] in H. injection H as -> -> -> -> ->.
  destruct (put_objects_frame _ _ _ _ _ _ Hp) as [Hlen Hframe].
  assert (H1 : forall a, (a < length h)%nat -> ~ In a (map snd d) -> deref h' a = deref h a).
  { intros a Ha Hn. rewrite Hframe by exact Hn. unfold deref. apply app_nth1. exact Ha. }
  split; [exact H1|]. split.
  - intros m Hm. unfold read_dict. apply map_ext_in. intros [key a] Hi. cbn. f_equal.
    destruct (Hm _ Hi) as [Ha Hb]. apply H1; assumption.
  - intros Hn Hk. cbv zeta.
    assert (Hd : map (fun ka => (fst ka, VField (deref (h ++ map snd fields) (snd ka)))) d
                 = map (fun ka => (fst ka, VField (deref h (snd ka)))) d).
    { apply map_ext_in. intros [key a] Hi. cbn. do 2 f_equal. unfold deref. apply app_nth1. apply (Hlt _ Hi). }
    pose proof (put_objects_refines only d (h ++ map snd fields) (combine (map fst fields) (seq (length h) (length fields)))
                  h' l' Hn Hk) as Hr.
    rewrite read_new, Hd in Hr.
    assert (Hx : extend_items only fields (map (fun ka => (fst ka, VField (deref h (snd ka)))) d) = Ok (read_dict h' l')).
    { apply Hr; [| |exact Hp].
      - intros ka Hi. rewrite app_length. specialize (Hlt _ Hi). lia.
      - intros ka kb Hi Hj. destruct kb as [kb b]. apply in_combine_r in Hj. apply in_seq in Hj. specialize (Hlt _ Hi). cbn. lia. }
    destruct only.
    + intros [key [Hi Hj]]. unfold replace. cbn [bind structure_of].
      rewrite (proj2 (existsb_exists _ _)).
      * rewrite Hc. cbn [bind]. rewrite Hg. cbn [bind]. rewrite Hx. reflexivity.
      * apply in_map_iff in Hi. destruct Hi as [ka [<- Hi]]. exists (fst ka, VField (deref h (snd ka))). split.
        -- apply (in_map (fun ka => (fst ka, VField (deref h (snd ka))))), Hi.
        -- cbn [fst]. assert (Hj' : In (fst ka) (map fst (read_dict h l))) by (unfold read_dict; rewrite map_map; exact Hj).
           apply aget_Some_in in Hj'. destruct Hj' as [x ->]. reflexivity.
    + unfold extend. rewrite Hc. cbn [bind]. rewrite Hg. cbn [bind]. rewrite Hx. reflexivity.
Qed.
(** @example
Example C49_example_frame :
  let h := [Fld (p_named $"a") KBoolean; Fld p0 KUUID] in
  match edited_clone env0 3 false h p0 [($"a", O)] true None [($"b", 1%nat)] with
  | Ok (h', (_, l', _, _)) =>
      read_dict h' [($"a", O)] = read_dict h [($"a", O)]
      /\ read_dict h' l' = [($"a", Fld (p_named $"a") KBoolean); ($"b", Fld (p_named $"b") KUUID)]
  | Raise _ => False
  end.
Proof. vm_compute. split; reflexivity. Qed.
@end *)

(** @prop C49 REFUTED: "the original structure is unchanged" fails when the argument contains a field of the structure under another key; extend renames that field inside the original. *)
Lemma extend_aliasing_refuted :
  exists h p l s o d h' r,
    sound env0 (Fld p (KStructure (SPlain (read_dict h l)) s o))
    /\ edited_clone env0 3 false h p l s o d = Ok (h', r)
    /\ read_dict h' l <> read_dict h l.
Proof.
  pose (h := [Fld (p_named $"a") KBoolean]).
  destruct (edited_clone env0 3 false h p0 [($"a", O)] true None [($"b", O)]) as [[h' r]|e] eqn:He;
    [|vm_compute in He; discriminate].
  exists h, p0, [($"a", O)], true, None, [($"b", O)], h', r. split; [|split; [exact He|]].
  - apply sound_Fld. split; [repeat split; reflexivity|]. split.
    + split; [discriminate|]. repeat constructor; discriminate.
    + cbn. intros g [<-|[]]. apply sound_Fld. split; [repeat split; reflexivity|]. split; [exact I|intros ? []].
  - vm_compute in He. injection He as <- _. vm_compute. discriminate.
Qed.
(** @example
Example C49_example_aliasing :
  match edited_clone env0 3 false [Fld (p_named $"a") KBoolean] p0 [($"a", O)] true None [($"b", O)] with
  | Ok (h', _) => read_dict h' [($"a", O)] = [($"a", Fld (p_named $"b") KBoolean)]
  | Raise _ => False
  end.
Proof. vm_compute. reflexivity. Qed.
@end *)

(** ** Editing in place *)

(** @prop C50 insert: a field with a name goes under that name unless the name is used and overwriting is off, in which case nothing changes; no other key changes; what is not a field or has no name changes nothing. *)
Lemma insert_exact :
  forall v overwrite l,
    match v with
    | VField (Fld p k) =>
        match p_name p with
        | Some (c :: s) =>
            snd (insert v overwrite l) = Ok tt
            /\ (forall key, key <> c :: s -> aget key (fst (insert v overwrite l)) = aget key l)
            /\ (overwrite = true \/ ~ In (c :: s) (map fst l) -> aget (c :: s) (fst (insert v overwrite l)) = Some (Fld p k))
            /\ (overwrite = false -> In (c :: s) (map fst l) -> fst (insert v overwrite l) = l)
        | _ => insert v overwrite l = (l, py ValueError)
        end
    | _ => insert v overwrite l = (l, py TypeError)
    end.
Proof.
  intros v overwrite l. destruct v; try reflexivity. destruct f as [i|p k]; [reflexivity|]. cbn [insert].
  destruct (p_name p) as [[|c s]|]; try reflexivity.
  destruct (aget (c :: s) l) as [f|] eqn:Hg.
  - assert (Hin : In (c :: s) (map fst l)) by (apply aget_Some_in; eauto).
    destruct overwrite; cbn [orb fst snd]; (split; [reflexivity|]).
    + split; [intros; apply aset_get_other; assumption|]. split; [intros _; apply aset_get_same|discriminate].
    + split; [reflexivity|]. split; [intros [H|H]; [discriminate|contradiction]|reflexivity].
  - rewrite orb_true_r. cbn [fst snd]. split; [reflexivity|]. split; [intros; apply aset_get_other; assumption|].
    split; [intros _; apply aset_get_same|]. intros _ Hi. apply aget_Some_in in Hi. destruct Hi as [f Hi]. congruence.
Qed.
(** @example
Example C50_example_insert :
  let a := ($"a", Fld (p_named $"a") KBoolean) in
  fst (insert (VField (Fld (p_named $"a") KUUID)) false [a]) = [a]
  /\ fst (insert (VField (Fld (p_named $"b") KUUID)) false [a]) = [a; ($"b", Fld (p_named $"b") KUUID)]
  /\ fst (insert (VField (Fld (p_named $"a") KUUID)) true [a]) = [($"a", Fld (p_named $"a") KUUID)].
Proof. repeat split; reflexivity. Qed.
@end *)

Lemma adel_filter {A} key (l : list (str * A)) : adel key l = List.filter (fun kv => negb (str_eqb key (fst kv))) l.
Proof. induction l as [|[k a] l IH]; cbn; [reflexivity|]. destruct (str_eqb key k); cbn; rewrite IH; reflexivity. Qed.
Lemma filter_twice {A} (f g : A -> bool) l : List.filter f (List.filter g l) = List.filter (fun x => g x && f x) l.
Proof. induction l as [|x l IH]; cbn; [reflexivity|]. destruct (g x); cbn; rewrite IH; reflexivity. Qed.
Lemma filter_true {A} (f : A -> bool) l : (forall x, In x l -> f x = true) -> List.filter f l = l.
Proof.
  induction l as [|x l IH]; intros H; cbn; [reflexivity|]. rewrite (H x) by (left; reflexivity). f_equal. apply IH. intros; apply H; right; assumption.
Qed.

(** @prop C50 remove: exactly the entries under the given names disappear, the others keep their order. *)
Lemma remove_exact :
  forall names l, remove_names names l = List.filter (fun kf => negb (smem (fst kf) names)) l.
Proof.
  induction names as [|name names IH]; intros l; cbn [remove_names].
  - symmetry. apply filter_true. reflexivity.
  - rewrite IH.
    assert (H : match aget name l with Some _ => adel name l | None => l end = List.filter (fun kv => negb (str_eqb name (fst kv))) l).
    { destruct (aget name l) eqn:Hg; [apply adel_filter|]. symmetry. apply filter_true. intros [s f] Hi. cbn.
      apply Bool.negb_true_iff, str_eqb_neq. intros ->. apply aget_None in Hg. apply Hg. apply (in_map fst) in Hi. exact Hi. }
    rewrite H, filter_twice. apply filter_ext. intros [s f]. cbn [fst]. change (smem s (name :: names)) with (str_eqb s name || smem s names).
    rewrite (str_eqb_sym s name). destruct (str_eqb name s); reflexivity.
Qed.
(** @example
Example C50_example_remove :
  remove_names [$"b"; $"x"] [($"a", Fld p0 KUUID); ($"b", Fld p0 KUUID); ($"c", Fld p0 KUUID)]
  = [($"a", Fld p0 KUUID); ($"c", Fld p0 KUUID)].
Proof. reflexivity. Qed.
@end *)

Lemma merge_entry E n p k name : within n (Fld p k) -> sound E (Fld p k) ->
  exists g, (if match p_name p with Some s => str_eqb s name | None => false end
             then Ok (Fld p k) else clone E n (Fld p k) [($"name", VStr name)]) = Ok g
    /\ alike g (renamed name (Fld p k)).
Proof.
  intros Hw Hs. destruct (match p_name p with Some s => str_eqb s name | None => false end) eqn:Hb.
  - exists (Fld p k). split; [reflexivity|]. destruct (p_name p) as [s|] eqn:Hn; [|discriminate]. apply str_eqb_eq in Hb. subst s.
    apply alike_Fld. split; [|apply kalike_refl]. unfold bare, set_name. rewrite Hn. reflexivity.
  - destruct (clone_ok E n p k [($"name", VStr name)] Hw Hs) as [g [Hg [Ha _]]].
    + constructor; [|constructor]. left. cbn. auto.
    + exists g. split; [exact Hg|]. apply (alike_trans _ _ _ Ha). apply alike_Fld. split; [|]; [reflexivity|].
      replace (rekind [($"name", VStr name)] k) with k by (destruct k; reflexivity). apply kalike_refl.
Qed.

Definition mergeable E n (d : list (str * val)) : Prop :=
  Forall (fun kv => exists p k, snd kv = VField (Fld p k) /\ within n (Fld p k) /\ sound E (Fld p k)) d.

(** @prop C50 merge without prefer: the existing fields stay as they are, and behind them come, in order, the entries of the argument before its first key that is already used, each under its name; that key and everything after it are dropped, without an exception. *)
Lemma merge_stops :
  forall E n d l,
    Forall (fun kv => exists p k, snd kv = VField (Fld p k) /\ within n (Fld p k) /\ sound E (Fld p k)) d ->
    NoDup (map fst d) ->
    exists new, merge E n d false l = (l ++ new, Ok tt)
      /\ Forall2 (fun kf kv => fst kf = fst kv /\ exists f, snd kv = VField f /\ alike (snd kf) (renamed (fst kv) f))
                 new (before_clash l d).
Proof.
  intros E n d. induction d as [|[name v] d IH]; intros l Hd Hn; cbn [merge before_clash].
  - exists []. rewrite app_nil_r. split; [reflexivity|constructor].
  - inversion Hd as [|? ? [p [k [Hv [Hw Hs]]]] Hd']; subst. cbn [snd] in Hv. subst v. cbn [map fst] in Hn. inversion Hn as [|? ? Hn1 Hn2]; subst.
    unfold absent. destruct (aget name l) as [f|] eqn:Hg; cbn [negb].
    + exists []. rewrite app_nil_r. split; [reflexivity|constructor].
    + destruct (merge_entry E n p k name Hw Hs) as [g [-> Ha]]. rewrite aset_notin by (apply aget_None; exact Hg).
      destruct (IH (l ++ [(name, g)]) Hd' Hn2) as [new [H1 H2]]. exists ((name, g) :: new). rewrite H1, <- app_assoc.
      split; [reflexivity|]. constructor; [split; [reflexivity|]; exists (Fld p k); split; [reflexivity|exact Ha]|].
      assert (Hbc : forall d : list (str * val), ~ In name (map fst d) -> before_clash (l ++ [(name, g)]) d = before_clash l d).
      { clear -name. induction d as [|[s v] d IH]; intros H; [reflexivity|]. cbn in H. cbn [before_clash].
        unfold absent. rewrite aget_app. cbn [aget]. rewrite (proj2 (str_eqb_neq s name)) by (intros ->; tauto).
        rewrite IH by tauto. destruct (aget s l); reflexivity. }
      rewrite Hbc in H2 by exact Hn1. exact H2.
Qed.
(** @example
Example C50_example_merge :
  let e s := (s, VField (Fld (p_named s) KUUID)) in
  fst (merge env0 2 [e $"x"; e $"a"; e $"y"] false [($"a", Fld (p_named $"a") KBoolean)])
  = [($"a", Fld (p_named $"a") KBoolean); ($"x", Fld (p_named $"x") KUUID)].
Proof. reflexivity. Qed.
@end *)

(** @prop C50 merge with prefer: the entries of the argument take their places, the other keys keep their fields. *)
Lemma merge_prefers :
  forall E n d l,
    Forall (fun kv => exists p k, snd kv = VField (Fld p k) /\ within n (Fld p k) /\ sound E (Fld p k)) d ->
    NoDup (map fst d) ->
    exists l', merge E n d true l = (l', Ok tt)
      /\ forall key, match aget key d with
                     | Some (VField f) => exists g, aget key l' = Some g /\ alike g (renamed key f)
                     | _ => aget key l' = aget key l
                     end.
Proof.
  intros E n d. induction d as [|[name v] d IH]; intros l Hd Hn; cbn [merge].
  - exists l. split; reflexivity.
  - inversion Hd as [|? ? [p [k [Hv [Hw Hs]]]] Hd']; subst. cbn [snd] in Hv. subst v. cbn [map fst] in Hn. inversion Hn as [|? ? Hn1 Hn2]; subst.
    replace (match aget name l with Some _ => negb true | None => false end) with false by (destruct (aget name l); reflexivity).
    destruct (merge_entry E n p k name Hw Hs) as [g [-> Ha]]. destruct (IH (aset name g l) Hd' Hn2) as [l' [H1 H2]].
    exists l'. split; [exact H1|]. intros key. specialize (H2 key). cbn [aget]. destruct (str_eqb_spec key name) as [-> |Hne].
    + rewrite (proj2 (aget_None name d)) in H2 by exact Hn1. exists g. rewrite H2, aset_get_same. split; [reflexivity|exact Ha].
    + rewrite aset_get_other in H2 by exact Hne. exact H2.
Qed.
(** @example
Example C50_example_prefer :
  let e s := (s, VField (Fld (p_named s) KUUID)) in
  fst (merge env0 2 [e $"x"; e $"a"; e $"y"] true [($"a", Fld (p_named $"a") KBoolean)])
  = [($"a", Fld (p_named $"a") KUUID); ($"x", Fld (p_named $"x") KUUID); ($"y", Fld (p_named $"y") KUUID)].
Proof. reflexivity. Qed.
@end *)

Lemma merge_frame E n prefer d : forall l key,
  (prefer = true -> ~ In key (map fst d)) -> (prefer = false -> In key (map fst l) \/ ~ In key (map fst d)) ->
  aget key (fst (merge E n d prefer l)) = aget key l.
Proof.
  induction d as [|[name v] d IH]; intros l key H1 H2; cbn [merge]; [reflexivity|].
  destruct v; try reflexivity. destruct f as [i|p k]; [reflexivity|].
  destruct (match aget name l with Some _ => negb prefer | None => false end) eqn:Hc; [reflexivity|].
  destruct (if match p_name p with Some s => str_eqb s name | None => false end then Ok (Fld p k) else clone E n (Fld p k) [($"name", VStr name)])
    as [g|e]; [|reflexivity].
  assert (Hne : key <> name).
  { intros ->. destruct prefer; [apply (H1 eq_refl); left; reflexivity|].
    destruct (aget name l) eqn:Hg; [discriminate|]. apply aget_None in Hg.
    destruct (H2 eq_refl) as [Hx|Hx]; [contradiction|apply Hx; left; reflexivity]. }
  rewrite IH; [apply aset_get_other, Hne| |].
  - intros Hp Hi. apply (H1 Hp). right. exact Hi.
  - intros Hp. destruct (H2 Hp) as [Hx|Hx]; [left; apply aset_keys; right; exact Hx|right; intros Hi; apply Hx; right; exact Hi].
Qed.

Lemma run_edit_keeps E n e l key f : aget key l = Some f -> ~ may_change key e -> aget key (run_edit E n e l) = Some f.
Proof.
  intros Hg Hc. destruct e as [v o|names|d prefer]; cbn [run_edit].
  - destruct v; try exact Hg. destruct f0 as [i|p k]; [exact Hg|]. cbn [insert]. destruct (p_name p) as [[|c s]|] eqn:Hn; try exact Hg.
    destruct (str_eqb_spec key (c :: s)) as [-> |Hne].
    + rewrite Hg. destruct o; cbn [orb fst]; [|exact Hg]. exfalso. apply Hc. exact Hn.
    + destruct (o || _); cbn [fst]; [rewrite aset_get_other by exact Hne|]; exact Hg.
  - rewrite remove_exact. cbn in Hc. induction l as [|[s g] l IH]; [discriminate|]. cbn in *. destruct (str_eqb_spec key s) as [-> |Hne].
    + rewrite (proj2 (smem_false s names)) by exact Hc. cbn. rewrite str_eqb_refl. exact Hg.
    + destruct (smem s names); cbn; [apply IH, Hg|]. rewrite (proj2 (str_eqb_neq key s)) by exact Hne. apply IH, Hg.
  - rewrite merge_frame; [exact Hg| |].
    + intros ->. exact Hc.
    + intros _. left. apply aget_Some_in. eauto.
Qed.

(** @prop C50 Through any history of inserts, removals and merges, also ones that raise midway, a key keeps its field as long as no edit removes it, inserts over it or merges over it with preference. *)
Lemma edits_keep :
  forall E n es l key f, aget key l = Some f -> (forall e, In e es -> ~ may_change key e) ->
    aget key (run_edits E n es l) = Some f.
Proof.
  intros E n es. induction es as [|e es IH]; intros l key f Hg Hc; [exact Hg|]. cbn [run_edits]. apply IH.
  - apply run_edit_keeps; [exact Hg|]. apply Hc. left. reflexivity.
  - intros e' Hi. apply Hc. right. exact Hi.
Qed.
(** @example
Example C50_example_keep :
  let es := [EInsert (VField (Fld (p_named $"a") KUUID)) false; ERemove [$"b"];
             EMerge [($"a", VField (Fld p0 KUUID))] false] in
  aget $"a" (run_edits env0 2 es [($"a", Fld (p_named $"a") KBoolean)]) = Some (Fld (p_named $"a") KBoolean)
  /\ forall e, In e es -> ~ may_change $"a" e.
Proof.
  split; [reflexivity|]. intros e [<-|[<-|[<-|[]]]]; cbn; [intros H; exact H| |intros H; exact H].
  intros [H|[]]. discriminate.
Qed.
@end *)

Lemma run_edit_absent E n e l key : ~ In key (map fst l) -> ~ may_create key e -> ~ In key (map fst (run_edit E n e l)).
Proof.
  intros Hg Hc. rewrite <- aget_None in Hg. rewrite <- aget_None. destruct e as [v o|names|d prefer]; cbn [run_edit].
  - destruct v; try exact Hg. destruct f as [i|p k]; [exact Hg|]. cbn [insert]. destruct (p_name p) as [[|c s]|] eqn:Hn; try exact Hg.
    destruct (str_eqb_spec key (c :: s)) as [-> |Hne]; [exfalso; apply Hc; exact Hn|].
    destruct (o || _); cbn [fst]; [rewrite aset_get_other by exact Hne|]; exact Hg.
  - rewrite remove_exact. apply aget_None. apply aget_None in Hg. intros Hi. apply Hg. apply in_map_iff in Hi.
    destruct Hi as [x [<- Hi]]. apply filter_In in Hi. apply in_map, Hi.
  - rewrite merge_frame; [exact Hg| |]; intros _; [|right]; intros Hi; apply Hc; exact Hi.
Qed.

(** @prop C50 ... and a key that is absent (for instance because it was just removed) stays absent until some insert or merge names it; in particular edits create no other keys. *)
Lemma edits_create_only :
  forall E n es l key, ~ In key (map fst l) -> (forall e, In e es -> ~ may_create key e) ->
    ~ In key (map fst (run_edits E n es l)).
Proof.
  intros E n es. induction es as [|e es IH]; intros l key Hg Hc; [exact Hg|]. cbn [run_edits]. apply IH.
  - apply run_edit_absent; [exact Hg|]. apply Hc. left. reflexivity.
  - intros e' Hi. apply Hc. right. exact Hi.
Qed.
(** @example
Example C50_example_create :
  map fst (run_edits env0 2 [ERemove [$"a"]; EInsert (VField (Fld (p_named $"b") KUUID)) false;
                             EMerge [($"c", VField (Fld p0 KUUID))] false] [($"a", Fld (p_named $"a") KBoolean)])
  = [$"b"; $"c"].
Proof. reflexivity. Qed.
@end *)

Lemma aset_distinct {A} k (a : A) l : NoDup (map fst l) -> NoDup (map fst (aset k a l)).
Proof.
  intros H. destruct (in_dec str_dec k (map fst l)) as [Hi|Hi].
  - rewrite aset_in_keys by exact Hi. exact H.
  - rewrite aset_notin by exact Hi. rewrite map_app. cbn. apply (Permutation.Permutation_NoDup (Permutation.Permutation_cons_append _ _)). constructor; assumption.
Qed.

Lemma run_edit_distinct E n e l : NoDup (map fst l) -> NoDup (map fst (run_edit E n e l)).
Proof.
  intros H. destruct e as [v o|names|d prefer]; cbn [run_edit].
  - destruct v; try exact H. destruct f as [i|p k]; [exact H|]. cbn [insert]. destruct (p_name p) as [[|c s]|]; try exact H.
    destruct (o || _); cbn [fst]; [apply aset_distinct|]; exact H.
  - rewrite remove_exact. induction l as [|[s f] l IH]; [constructor|]. cbn in *. inversion H as [|? ? H1 H2]; subst.
    destruct (smem s names); cbn; [apply IH, H2|]. constructor; [|apply IH, H2]. intros Hi. apply H1.
    apply in_map_iff in Hi. destruct Hi as [x [<- Hi]]. apply filter_In in Hi. apply in_map, Hi.
  - revert l H. induction d as [|[name v] d IH]; intros l H; cbn [merge]; [exact H|].
    destruct v; try exact H. destruct f as [i|p k]; [exact H|].
    destruct (match aget name l with Some _ => negb prefer | None => false end); [exact H|].
    destruct (if match p_name p with Some s => str_eqb s name | None => false end then Ok (Fld p k) else clone E n (Fld p k) [($"name", VStr name)])
      as [g|x]; [|exact H]. apply IH, aset_distinct, H.
Qed.

(** @prop C50 ... and keys stay distinct through any history. *)
Lemma edits_distinct :
  forall E n es l, NoDup (map fst l) -> NoDup (map fst (run_edits E n es l)).
Proof.
  intros E n es. induction es as [|e es IH]; intros l H; [exact H|]. cbn [run_edits]. apply IH, run_edit_distinct, H.
Qed.
(** @example
Example C50_example_distinct :
  map fst (run_edits env0 2 [EInsert (VField (Fld (p_named $"a") KUUID)) true;
                             EMerge [($"a", VField (Fld p0 KUUID)); ($"b", VField (Fld p0 KUUID))] true] [($"a", Fld (p_named $"a") KBoolean)])
  = [$"a"; $"b"].
Proof. reflexivity. Qed.
@end *)

(** ** Defaults *)

(** @prop C51 generate_defaults of a structure that is not polymorphic (placeholders resolved): one entry per key, in order, holding the default of the field, else its constant, else None; entries without either are left out when sparse.  An identity is a ValueError. *)
Lemma generate_defaults_exact :
  forall E l (ps : list (str * params)) sparse identity,
    Forall2 (fun kf sp => fst kf = fst sp /\ (exists k, snd kf = Fld (snd sp) k
                          \/ exists i, snd kf = FUndef i /\ e_undef E i = Some (Fld (snd sp) k))) l ps ->
    generate_defaults E (SPlain l) identity sparse
    = match identity with VNone => Ok (VDict false (default_entries sparse ps)) | _ => py ValueError end.
Proof.
  intros E l ps sparse identity H. cbn [generate_defaults].
  assert (Hd : default_values E sparse l = Ok (default_entries sparse ps)).
  { induction H as [|[s f] [s' p] l ps [Hs Hf] Hl IH]; [reflexivity|]. cbn [fst snd] in *. subst s'. cbn [default_values].
    assert (Hp : fparams E f = Some p) by (destruct Hf as [k [-> |[i [-> Hu]]]]; cbn; [|rewrite Hu]; reflexivity).
    rewrite Hp, IH. cbn [bind]. f_equal.
    change (default_entries sparse ((s, p) :: ps)) with
      (match fallback p with VNone => if sparse then [] else [(VStr s, VNone)] | v => [(VStr s, v)] end ++ default_entries sparse ps).
    unfold fallback. destruct (p_default p); cbn [is_none negb]; try (rewrite orb_true_r; reflexivity).
    destruct (p_constant p); cbn [is_none negb]; try (rewrite orb_true_r; reflexivity). destruct sparse; reflexivity. }
  rewrite Hd. destruct identity; reflexivity.
Qed.
(** @example
Example C51_example :
  generate_defaults env0 (SPlain [($"a", Fld (p_def (VInt 3)) (KInteger None None)); ($"b", Fld p0 KBoolean);
                                  ($"c", Fld (p_const (VBool true)) KBoolean)]) VNone true
  = Ok (VDict false [(VStr $"a", VInt 3); (VStr $"c", VBool true)]).
Proof. reflexivity. Qed.
@end *)

(** @prop C51 ... of a polymorphic structure: the entries of the variant asked for (a ValueError when there is none), or without an identity a dict from every identity to its entries. *)
Lemma generate_defaults_polymorphic :
  forall E on vs (ps : list (val * list (str * params))) sparse,
    Forall2 (fun vl vp => fst vl = fst vp
               /\ Forall2 (fun kf sp => fst kf = fst sp /\ exists k, snd kf = Fld (snd sp) k) (snd vl) (snd vp)) vs ps ->
    generate_defaults E (SPoly on vs) VNone sparse
      = Ok (VDict false (map (fun vp => (fst vp, VDict false (default_entries sparse (snd vp)))) ps))
    /\ (forall identity before i entries after, identity <> VNone -> hashable identity = true ->
          ps = before ++ (i, entries) :: after -> veq (e_local E) i identity = true ->
          (forall vp, In vp before -> veq (e_local E) (fst vp) identity = false) ->
          generate_defaults E (SPoly on vs) identity sparse = Ok (VDict false (default_entries sparse entries)))
    /\ (forall identity, identity <> VNone -> hashable identity = true ->
          (forall vp, In vp ps -> veq (e_local E) (fst vp) identity = false) ->
          generate_defaults E (SPoly on vs) identity sparse = py ValueError).
Proof.
  intros E on vs ps sparse H.
  assert (Hd : forall l ps, Forall2 (fun kf sp => fst kf = fst sp /\ exists k, snd kf = Fld (snd sp) k) l ps ->
               default_values E sparse l = Ok (default_entries sparse ps)).
  { intros l ps0 Hl. assert (Hx : Forall2 (fun kf sp => fst kf = fst sp /\ (exists k, snd kf = Fld (snd sp) k
                          \/ exists i, snd kf = FUndef i /\ e_undef E i = Some (Fld (snd sp) k))) l ps0).
    { clear -Hl. induction Hl as [|a b l ps [H1 [k H2]] Hl IH]; constructor; [|exact IH]. split; [exact H1|]. exists k. left. exact H2. }
    pose proof (generate_defaults_exact E l ps0 sparse VNone Hx) as Hg. cbn in Hg. destruct (default_values E sparse l); [|discriminate].
    cbn in Hg. injection Hg as ->. reflexivity. }
  assert (Hfind : forall identity,
     find (fun vl : val * list (str * field) => veq (e_local E) (fst vl) identity) vs = None
       /\ (forall vp, In vp ps -> veq (e_local E) (fst vp) identity = false)
     \/ exists vl vp before after, find (fun vl : val * list (str * field) => veq (e_local E) (fst vl) identity) vs = Some vl
         /\ ps = before ++ vp :: after /\ veq (e_local E) (fst vp) identity = true
         /\ (forall x, In x before -> veq (e_local E) (fst x) identity = false)
         /\ default_values E sparse (snd vl) = Ok (default_entries sparse (snd vp))).
  { intros identity. induction H as [|vl vp vs ps [H1 H2] Hl IH]; [left; split; [reflexivity|intros ? []]|].
    cbn [find]. destruct (veq (e_local E) (fst vl) identity) eqn:Hv.
    - right. exists vl, vp, [], ps. split; [reflexivity|]. split; [reflexivity|]. split; [destruct vl, vp; cbn in H1, Hv |- *; subst; exact Hv|].
      split; [intros ? []|]. apply Hd, H2.
    - destruct IH as [[Hf Hn]|[vl' [vp' [before [after [Hf [-> [Hi [Hb He]]]]]]]]].
      + left. split; [exact Hf|]. intros x [<-|Hx]; [destruct vl, vp; cbn in H1, Hv |- *; subst; exact Hv|apply Hn, Hx].
      + right. exists vl', vp', (vp :: before), after. split; [exact Hf|]. split; [reflexivity|]. split; [exact Hi|].
        split; [|exact He]. intros x [<-|Hx]; [destruct vl, vp; cbn in H1, Hv |- *; subst; exact Hv|apply Hb, Hx]. }
  cbn [generate_defaults]. split; [|split].
  - cbn [is_none]. assert (He : each (fun vl => do items <- default_values E sparse (snd vl); Ok (fst vl, VDict false items)) vs
       = Ok (map (fun vp => (fst vp, VDict false (default_entries sparse (snd vp)))) ps)).
    { clear Hfind. induction H as [|vl vp vs ps [H1 H2] Hl IH]; [reflexivity|]. cbn [each]. rewrite (Hd _ _ H2). cbn [bind].
      rewrite IH. cbn [bind map]. rewrite H1. reflexivity. }
    rewrite He. reflexivity.
  - intros identity before i entries after Hn Hh -> Hv Hb.
    replace (is_none identity) with false by (destruct identity; try reflexivity; contradiction). rewrite Hh.
    destruct (Hfind identity) as [[_ Hno]|[vl [vp [b' [a' [Hf [He [Hi [Hb' Hdv]]]]]]]]].
    + specialize (Hno (i, entries)). rewrite in_app_iff in Hno. cbn in Hno. rewrite Hno in Hv by auto. discriminate.
    + rewrite Hf. destruct vl as [vi vl]. cbn [snd] in Hdv. rewrite Hdv. cbn [bind]. do 3 f_equal.
      clear -He Hi Hv Hb Hb'. revert b' He Hb'. induction before as [|x before IH]; intros [|y b'] He Hb'; cbn in He; injection He as Hx Hr; subst.
      * reflexivity.
      * exfalso. specialize (Hb' _ (or_introl eq_refl)). cbn in Hb'. congruence.
      * exfalso. specialize (Hb _ (or_introl eq_refl)). congruence.
      * apply (IH (fun z Hz => Hb z (or_intror Hz)) b' Hr). intros z Hz. apply Hb'. right. exact Hz.
  - intros identity Hn Hh Hno.
    replace (is_none identity) with false by (destruct identity; try reflexivity; contradiction). rewrite Hh.
    destruct (Hfind identity) as [[Hf _]|[vl [vp [b' [a' [Hf [-> [Hi _]]]]]]]]; [rewrite Hf; reflexivity|].
    specialize (Hno vp). rewrite in_app_iff in Hno. cbn in Hno. rewrite Hno in Hi by auto. discriminate.
Qed.
(** @example
Example C51_example_polymorphic :
  let vs := [(VStr $"x", [($"a", Fld (p_def (VInt 3)) KObject)]); (VStr $"y", [($"b", Fld p0 KObject)])] in
  generate_defaults env0 (SPoly (Fld p_req KUUID) vs) (VStr $"y") false = Ok (VDict false [(VStr $"b", VNone)])
  /\ generate_defaults env0 (SPoly (Fld p_req KUUID) vs) VNone true
     = Ok (VDict false [(VStr $"x", VDict false [(VStr $"a", VInt 3)]); (VStr $"y", VDict false [])])
  /\ generate_defaults env0 (SPoly (Fld p_req KUUID) vs) (VStr $"z") true = py ValueError.
Proof. repeat split; reflexivity. Qed.
@end *)

(** ** Visiting *)

(** @prop C73 Visiting a well formed specification applies the callback exactly to its immediate nested specifications: the value and key of a map, the item of a sequence, the members of a tuple or union, the fields of a structure (of each variant when polymorphic), and to nothing for other types. *)
Lemma visit_exact :
  forall callback o l t items,
    sget $"fieldtype" l = Some (VStr t) -> visited callback l t items ->
    visit callback (VDict o l) = Ok (VDict false items).
Proof.
  intros callback o l t items Ht H. unfold visit. cbn [as_dict]. unfold item at 1. rewrite Ht. cbn [bind hashable].
  destruct H as [v Hv Hk|v k Hv Hk|v Hv|v vs Hv Hl|v vs Hv Hl|o' d Hv Hk|o' d x ds Hv Hx Htr Hd|c Hc].
  - change (find_cls $"map") with (Some CMap). cbn iota beta. unfold item. rewrite Hv. cbn [bind]. rewrite Hk. reflexivity.
  - change (find_cls $"map") with (Some CMap). cbn iota beta. unfold item. rewrite Hv. cbn [bind]. rewrite Hk. reflexivity.
  - change (find_cls $"sequence") with (Some CSequence). cbn iota beta. unfold item. rewrite Hv. reflexivity.
  - change (find_cls $"tuple") with (Some CTuple). cbn iota beta. unfold item. rewrite Hv. cbn [bind].
    unfold visit_all. destruct Hl as [-> | ->]; reflexivity.
  - change (find_cls $"union") with (Some CUnion). cbn iota beta. unfold item. rewrite Hv. cbn [bind].
    unfold visit_all. destruct Hl as [-> | ->]; reflexivity.
  - change (find_cls $"structure") with (Some CStructure). cbn iota beta. unfold item. rewrite Hv. cbn [bind].
    destruct (sget $"polymorphic_on" l) as [x|]; [rewrite (Hk x eq_refl)|]; reflexivity.
  - change (find_cls $"structure") with (Some CStructure). cbn iota beta. unfold item. rewrite Hv. cbn [bind]. rewrite Hx, Htr. subst d.
    unfold dict_items. cbn [as_dict bind].
    rewrite each_map. rewrite (each_total _ (fun kd => (fst kd, VDict false (map (fun kv => (fst kv, callback (snd kv))) (snd (snd kd)))))).
    + reflexivity.
    + intros [i [b e]] _. reflexivity.
  - rewrite find_cls_name. destruct c; try discriminate; reflexivity.
Qed.
(** @example
Example C73_example :
  let spec t l := VDict false ((VStr $"fieldtype", VStr t) :: l) in
  let m := spec $"map" [(VStr $"value", spec $"text" []); (VStr $"key", spec $"uuid" []); (VStr $"title", VStr $"m")] in
  visit (fun v => VList [v]) m
  = Ok (VDict false [(VStr $"value", VList [spec $"text" []]); (VStr $"key", VList [spec $"uuid" []])])
  /\ visit (fun v => VNone) (spec $"structure" [(VStr $"structure", VDict false [(VStr $"a", m)])])
     = Ok (VDict false [(VStr $"structure", VDict false [(VStr $"a", VNone)])]).
Proof. split; reflexivity. Qed.
@end *)

(** @prop C73 ... and what is not a mapping is a TypeError, an unknown or missing type a KeyError. *)
Lemma visit_rejects :
  forall callback v,
    (as_dict v = None -> visit callback v = py TypeError)
    /\ (forall l, as_dict v = Some l ->
          sget $"fieldtype" l = None
          \/ (exists t, sget $"fieldtype" l = Some (VStr t) /\ forall c, cls_name c <> t) ->
          visit callback v = py KeyError).
Proof.
  intros callback v. unfold visit. split; [intros ->; reflexivity|]. intros l -> H. unfold item.
  destruct H as [-> |[t [-> Ht]]]; [reflexivity|]. cbn [bind hashable].
  destruct (find_cls t) as [c|] eqn:Hf; [|reflexivity]. exfalso. apply (Ht c).
  unfold find_cls in Hf. apply find_some in Hf. destruct Hf as [_ Hf]. apply str_eqb_eq in Hf. congruence.
Qed.
(** @example
Example C73_example_rejects :
  visit (fun v => v) (VList []) = py TypeError
  /\ visit (fun v => v) (VDict false [(VStr $"fieldtype", VStr $"matrix")]) = py KeyError.
Proof. split; reflexivity. Qed.
@end *)

(** @prop C73 ... and malformed specifications are rejected: a type that is no hashable value is a TypeError, a missing entry for the nested specifications a KeyError, members that cannot be iterated over a TypeError, fields, or the fields of one of the variants after well formed ones, that are no mapping an AttributeError. *)
Lemma visit_malformed :
  forall callback o l,
    let out := visit callback (VDict o l) in
    (forall t, sget $"fieldtype" l = Some t -> hashable t = false -> out = py TypeError)
    /\ (forall t key, sget $"fieldtype" l = Some (VStr t) -> nests t key -> sget key l = None -> out = py KeyError)
    /\ (forall t key v, sget $"fieldtype" l = Some (VStr t) -> nests t key -> t = $"tuple" \/ t = $"union" ->
          sget key l = Some v -> py_iter v = None -> out = py TypeError)
    /\ (forall v, sget $"fieldtype" l = Some (VStr $"structure") -> sget $"structure" l = Some v -> as_dict v = None ->
          out = py AttributeError)
    /\ (forall x o' pre i v post, sget $"fieldtype" l = Some (VStr $"structure") ->
          sget $"polymorphic_on" l = Some x -> truthy x = true ->
          sget $"structure" l = Some (VDict o' (pre ++ (i, v) :: post)) ->
          (forall a y, In (a, y) pre -> as_dict y <> None) -> as_dict v = None ->
          out = py AttributeError).
Proof.
  intros callback o l out. unfold out, visit. cbn [as_dict]. unfold item.
  split; [|split; [|split; [|split]]].
  - intros t Ht Hh. rewrite Ht. cbn [bind]. rewrite Hh. reflexivity.
  - intros t key Ht Hn Hk. rewrite Ht. cbn [bind hashable].
    destruct Hn; [change (find_cls $"map") with (Some CMap)|change (find_cls $"sequence") with (Some CSequence)
                 |change (find_cls $"tuple") with (Some CTuple)|change (find_cls $"union") with (Some CUnion)
                 |change (find_cls $"structure") with (Some CStructure)]; cbn iota beta; rewrite Hk; reflexivity.
  - intros t key v Ht Hn Hor Hk Hi. rewrite Ht. cbn [bind hashable].
    destruct Hn; destruct Hor as [Hor | Hor]; try discriminate Hor;
      [change (find_cls $"tuple") with (Some CTuple)|change (find_cls $"union") with (Some CUnion)];
      cbn iota beta; rewrite Hk; cbn [bind]; unfold visit_all; rewrite Hi; reflexivity.
  - intros v Ht Hk Hi. rewrite Ht. cbn [bind hashable]. change (find_cls $"structure") with (Some CStructure). cbn iota beta.
    rewrite Hk. cbn [bind]. unfold visit_items, dict_items. rewrite Hi.
    destruct (match sget $"polymorphic_on" l with Some x => truthy x | None => false end); reflexivity.
  - intros x o' pre i v post Ht Hx Htr Hk Hpre Hi. rewrite Ht. cbn [bind hashable].
    change (find_cls $"structure") with (Some CStructure). cbn iota beta. rewrite Hk, Hx, Htr. cbn [bind]. unfold dict_items at 1. cbn [as_dict bind].
    assert (He : each (fun kv => do y <- visit_items callback (snd kv); Ok (fst kv, y)) (pre ++ (i, v) :: post) = py AttributeError); [|rewrite He; reflexivity].
    clear Hk. induction pre as [|[a y] pre IH]; cbn [app each fst snd].
    + unfold visit_items at 1, dict_items. rewrite Hi. reflexivity.
    + unfold visit_items at 1, dict_items. specialize (Hpre a y (or_introl eq_refl)) as Hy. destruct (as_dict y); [|congruence].
      cbn [bind]. rewrite IH; [reflexivity|]. intros b z Hz. apply (Hpre b z). right. exact Hz.
Qed.
(** @example
Example C73_example_malformed :
  visit (fun v => v) (VDict false [(VStr $"fieldtype", VStr $"map")]) = py KeyError
  /\ visit (fun v => v) (VDict false [(VStr $"fieldtype", VStr $"tuple"); (VStr $"values", VInt 3)]) = py TypeError
  /\ visit (fun v => v) (VDict false [(VStr $"fieldtype", VStr $"structure"); (VStr $"structure", VList [])]) = py AttributeError
  /\ visit (fun v => v) (VDict false [(VStr $"fieldtype", VStr $"structure"); (VStr $"polymorphic_on", VStr $"kind");
       (VStr $"structure", VDict false [(VStr $"x", VDict false []); (VStr $"y", VInt 3)])]) = py AttributeError
  /\ visit (fun v => v) (VDict false [(VStr $"fieldtype", VList [])]) = py TypeError.
Proof. repeat split; reflexivity. Qed.
@end *)
