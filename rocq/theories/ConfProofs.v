(** * Soundness, completeness and idempotence of whole schemas (C31 to C33). *)
(* @imports Spec Demo *)
From Coq Require Import ZifyBool ZifyN ZifyNat FinFun.
From Verif Require Import PyBaseFacts Induct Spec Demo ProcessFacts ScalarProofs NumProofs StructFacts
  SeqProofs MapProofs StructProofs RegexProofs.

Lemma conforms_Fld E n p k :
  conforms E n (Fld p k) = conf_body E p (kmap (fun g => (g, conforms E n g)) k).
Proof. destruct n; reflexivity. Qed.

Lemma conforms_FUndef E n i v :
  conforms E n (FUndef i) v =
  match e_undef E i, n with Some (Fld p k), S m => conforms E m (Fld p k) v | _, _ => False end.
Proof. destruct n; reflexivity. Qed.

(** ** Scalars *)


Definition is_structural {F} (k : kindP val F) : bool :=
  match k with
  | KSequence _ _ _ _ | KMap _ _ _ | KTuple _ | KUnion _ | KStructure _ _ _ => true
  | _ => false
  end.

Definition no_snan (l : list val) : Prop := forall x, In x l -> snan_val x = false.

Lemma vmem_r_true L v l : vmem_r L v l = Ok true -> exists x, In x l /\ veq L x v = true.
Proof.
  induction l as [|x l IH]; cbn; [discriminate|]. unfold veq_r.
  destruct (_ || _); [discriminate|]. cbn. destruct (veq L x v) eqn:Hx.
  - intros _. exists x. auto.
  - intros H. destruct (IH H) as [y [Hy1 Hy2]]. eauto.
Qed.

Lemma vmem_r_false L v l : vmem_r L v l = Ok false -> forall x, In x l -> veq L x v = false.
Proof.
  induction l as [|x l IH]; cbn; [intros _ x []|]. unfold veq_r.
  destruct (_ || _); [discriminate|]. cbn. destruct (veq L x v) eqn:Hx; [discriminate|].
  intros H y [<-|Hy]; [exact Hx|auto].
Qed.

Lemma num_eqb_nan_r n : num_eqb n NNan = false.
Proof. destruct n; reflexivity. Qed.

Lemma veq_snan_r L x v : veq L x v = true -> snan_val v = false.
Proof.
  intros H. destruct v; try reflexivity. destruct d; try reflexivity.
  destruct x; cbn in H; rewrite ?num_eqb_nan_r in H; discriminate.
Qed.

Lemma veq_snan_l L x v : veq L x v = true -> snan_val x = false.
Proof.
  intros H. destruct x; try reflexivity. destruct d; try reflexivity.
  cbn in H. destruct (num_of v); discriminate.
Qed.

Lemma vmem_r_nosnan L v l : snan_val v = false -> no_snan l -> vmem_r L v l = Ok (vmem L v l).
Proof.
  intros Hv. unfold no_snan. induction l as [|x l IH]; intros Hl; cbn; [reflexivity|].
  unfold veq_r. rewrite (Hl x) by (left; reflexivity). rewrite Hv. cbn.
  destruct (veq L x v); [reflexivity|]. apply IH. intros; apply Hl; right; assumption.
Qed.

Lemma check_length_ok anc mn mx z r r' :
  check_length anc mn mx z r = Ok r' <-> at_least Z.le mn z /\ at_most Z.le mx z /\ r' = r.
Proof.
  assert (H := check_bounds_ok Z.ltb Z.le anc mn mx z r r' zle_lt).
  rewrite <- H. unfold check_length, check_bounds.
  destruct (below Z.ltb z mn); [split; discriminate|].
  destruct (above Z.ltb z mx); [split; discriminate|]. reflexivity.
Qed.

Lemma check_bounds_r_ok {A} (lt : A -> A -> res bool) anc mn mx v r r' :
  check_bounds_r lt anc mn mx v r = Ok r' <->
  at_least (fun a b => lt b a = Ok false) mn v /\ at_most (fun a b => lt b a = Ok false) mx v /\ r' = r.
Proof.
  unfold check_bounds_r, at_least, at_most. split.
  - intros H. apply bind_Ok in H. destruct H as [b [Hb H]]. destruct b; [discriminate|].
    apply bind_Ok in H. destruct H as [a [Ha H]]. destruct a; [discriminate|].
    injection H as <-. split; [|split; [|reflexivity]].
    + intros m ->. exact Hb.
    + intros m ->. exact Ha.
  - intros [H1 [H2 ->]]. destruct mn as [m|]; [rewrite (H1 m eq_refl)|]; cbn [bind];
      (destruct mx as [m'|]; [rewrite (H2 m' eq_refl)|]; reflexivity).
Qed.

Lemma dec_lt_false a b : dec_lt a b = Ok false <-> dec_is_nan a = false /\ dec_is_nan b = false /\ decimal_le b a.
Proof.
  destruct (dec_is_nan a) eqn:Ha; [destruct a; try discriminate; split; [discriminate|intros [H _]; discriminate]|].
  destruct (dec_is_nan b) eqn:Hb; [destruct b; try discriminate; split;
    [destruct a; discriminate|intros [_ [H _]]; discriminate]|].
  destruct (dec_lt_spec a b Ha Hb) as [[-> H]|[-> H]]; split; auto; try tauto; discriminate.
Qed.

Lemma date_lt_refl_spec (a b : date) : date_ltb a b = false <-> (fun x y : date => date_ltb y x = false) b a.
Proof. reflexivity. Qed.
Lemma tod_lt_refl_spec (a b : tod) : tod_ltb a b = false <-> (fun x y : tod => tod_ltb y x = false) b a.
Proof. reflexivity. Qed.

Lemma zlen_length {A} (l : list A) : zlen l = Z.of_nat (length l).
Proof. reflexivity. Qed.

Lemma stripped_idem s t : stripped s t -> stripped t t.
Proof.
  intros [a [b [_ [_ [_ [H1 H2]]]]]]. exists [], []. rewrite app_nil_r. repeat split; auto.
Qed.

Lemma canonical_strip (st : bool) (s : str) :
  let t := if st then strip is_space s else s in canonical_text st s t /\ canonical_text st t t.
Proof.
  destruct st; cbn zeta; [|split; reflexivity].
  assert (H : stripped s (strip is_space s)) by (apply stripped_strip; reflexivity).
  split; [exact H|]. eapply stripped_idem, H.
Qed.

Lemma dt_add_tz dt x d : dt_add dt x = Some d -> dt_tz d = dt_tz dt.
Proof.
  unfold dt_add, of_secs. intros H.
  repeat match type of H with context [match ?b with _ => _ end] => destruct b; try discriminate H end.
  all: injection H as <-; reflexivity.
Qed.

Lemma validate_sound {F} E (k : kindP val F) anc v r :
  is_structural k = false ->
  validate_value E k anc v = Ok r -> scalar_conf E k r /\ (normalises k = false -> r = v).
Proof.
  intros Hk H. destruct k; try discriminate Hk; cbn [validate_value scalar_conf normalises] in *.
  - injection H as <-. auto.
  - destruct v; try discriminate. apply check_length_ok in H. rewrite zlen_length in H.
    destruct H as [H1 [H2 ->]]. split; [eauto|auto].
  - destruct v; try discriminate. injection H as <-. eauto.
  - destruct v; try discriminate.
    + apply (check_bounds_ok _ (fun x y => date_ltb y x = false)) in H; [|apply date_lt_refl_spec].
      destruct H as [H1 [H2 ->]]. split; [left; eauto|auto].
    + destruct mn, mx; try discriminate. injection H as <-. split; [right; eauto|auto].
  - destruct v; try discriminate. apply bind_Ok in H. destruct H as [d [Hd H]].
    apply check_bounds_r_ok in H. destruct H as [H1 [H2 ->]]. split; [|discriminate].
    unfold dt_normalize in Hd. destruct (dt_tz dt) as [z|] eqn:Hz.
    + destruct (tz_is z _) eqn:Hti.
      * injection Hd as <-. exists dt, z. auto.
      * destruct (astimezone _ dt z _) as [d'|] eqn:Ha; [|discriminate]. injection Hd as ->.
        assert (Hdz : dt_tz d = Some (if utc then TzUTC else TzLocal)).
        { unfold astimezone, fromutc in Ha.
          destruct (dt_add _ _) as [u|]; [|discriminate]. cbn zeta in Ha.
          destruct (dt_add (with_tz u _) _) as [u'|] eqn:Hu; [|discriminate].
          apply dt_add_tz in Hu. apply dt_add_tz in Ha. rewrite Ha, Hu. reflexivity. }
        exists d, (if utc then TzUTC else TzLocal). repeat split; auto. destruct utc; reflexivity.
    + injection Hd as <-. eexists _, _. split; [reflexivity|]. split; [reflexivity|].
      split; [destruct utc; reflexivity|auto].
  - destruct v; try discriminate. apply check_bounds_r_ok in H. destruct H as [H1 [H2 ->]].
    split; [|auto]. exists d. split; [reflexivity|]. unfold at_least, at_most in *.
    assert (H1' := fun m Hm => proj1 (dec_lt_false _ _) (H1 m Hm)).
    assert (H2' := fun m Hm => proj1 (dec_lt_false _ _) (H2 m Hm)).
    split.
    + destruct mn as [m|]; [right; apply (H1' m eq_refl)|].
      destruct mx as [m|]; [right; apply (H2' m eq_refl)|]. auto.
    + split; intros m Hm; [destruct (H1' m Hm)|destruct (H2' m Hm)]; tauto.
  - destruct v; try discriminate. destruct f as [|q k']; try discriminate. cbn [as_field] in H.
    split; [|destruct valid as [[|t ts]|]; [congruence| |congruence]].
    + exists q, k'. destruct valid as [[|t ts]|]; try (split; [congruence|exact I]).
      destruct (smem (kind_type k') (t :: ts)) eqn:Hm; [|discriminate].
      split; [congruence|]. apply smem_In, Hm.
    + destruct (smem _ _); [|discriminate]. congruence.
  - destruct v; try discriminate. apply bind_Ok in H. destruct H as [r' [H1 H]].
    apply check_length_ok in H1. rewrite zlen_length in H1. destruct H1 as [H1 [H2 ->]].
    destruct (rmatch_dollar _ s) eqn:Hm; [|discriminate]. injection H as <-. split; [eauto 6|auto].
  - apply bind_Ok in H. destruct H as [b [Hb H]]. destruct b; [|discriminate]. injection H as <-.
    split; [|auto]. apply vmem_r_true in Hb. exact Hb.
  - destruct v; try discriminate. injection H as <-. eauto.
  - destruct v; try discriminate. apply (check_bounds_ok _ (nan_or float_le)) in H; [|apply float_ltb_spec].
    destruct H as [H1 [H2 ->]]. split; [eauto|auto].
  - destruct v; try discriminate. apply (check_bounds_ok _ Z.le) in H; [|apply zle_lt].
    destruct H as [H1 [H2 ->]]. split; [eauto|auto].
  - injection H as <-. auto.
  - destruct v; try discriminate. destruct valid as [[|t ts]|]; try (injection H as <-; split; [eauto 8|auto]).
    destruct (e_identity E impl) as [name|] eqn:Hi; [|discriminate]. destruct (existsb _ _) eqn:Hex; [|discriminate].
    injection H as <-. split; [|auto]. exists impl, schema, version, l. split; [reflexivity|]. exists name. split; [exact Hi|].
    apply existsb_exists in Hex. destruct Hex as [u [Hu1 Hu2]]. apply str_eqb_eq in Hu2. subst u. exact Hu1.
  - destruct v as [| | | |s| | | | | | | | | | | |]; try discriminate. cbn zeta in H.
    destruct (canonical_strip strip s) as [_ Hc]. cbn zeta in Hc.
    assert (Hsame : strip = false -> (if strip then PyBase.strip is_space s else s) = s) by (intros ->; reflexivity).
    set (t := if strip then PyBase.strip is_space s else s) in *. clearbody t.
    apply bind_Ok in H. destruct H as [r' [H1 H]].
    apply check_length_ok in H1. rewrite zlen_length in H1. destruct H1 as [H1 [H2 ->]].
    assert (Hr : r = VStr t /\ forall i, pattern = Some i -> e_pattern E i t = true).
    { destruct pattern as [i|].
      - destruct (e_pattern E i t) eqn:Hp; [|discriminate]. injection H as <-.
        split; [reflexivity|]. intros j [= <-]. exact Hp.
      - injection H as <-. split; [reflexivity|discriminate]. }
    destruct Hr as [-> Hp]. split; [exists t; auto|].
    destruct strip; [discriminate|]. intros _. rewrite Hsame; reflexivity.
  - destruct v; try discriminate. apply (check_bounds_ok _ (fun x y => tod_ltb y x = false)) in H; [|apply tod_lt_refl_spec].
    destruct H as [H1 [H2 ->]]. split; [eauto|auto].
  - destruct v; try discriminate. destruct (rmatch_dollar _ s) eqn:Hm; [|discriminate].
    destruct segments as [m|].
    + destruct (Z.eqb_spec (Z.of_nat (count_char 58 s) + 1) m); [|discriminate]. injection H as <-.
      split; [|auto]. exists s. split; [reflexivity|]. split; [exact Hm|]. intros m' [= <-]. assumption.
    + injection H as <-. split; [|auto]. exists s. split; [reflexivity|]. split; [exact Hm|]. discriminate.
  - destruct v; try discriminate. destruct (rmatch_dollar _ s) eqn:Hm; [|discriminate]. injection H as <-.
    split; eauto.
Qed.

Lemma validate_complete {F} E (k : kindP val F) anc v :
  is_structural k = false ->
  (match k with KEnumeration l _ => no_snan l | _ => True end) ->
  scalar_conf E k v -> validate_value E k anc v = Ok v.
Proof.
  intros Hk Hs H. destruct k; try discriminate Hk; cbn [validate_value scalar_conf] in *.
  - reflexivity.
  - destruct H as [b [-> [H1 H2]]]. apply check_length_ok. auto.
  - destruct H as [b ->]. reflexivity.
  - destruct H as [[d [-> [H1 H2]]]|[[dt ->] [-> ->]]]; [|reflexivity].
    apply (check_bounds_ok _ (fun x y => date_ltb y x = false)); [apply date_lt_refl_spec|auto].
  - destruct H as [dt [z [-> [Hz [Hti [H1 H2]]]]]]. unfold dt_normalize. rewrite Hz, Hti. cbn [bind].
    apply check_bounds_r_ok. auto.
  - destruct H as [d [-> [Hn [H1 H2]]]]. apply check_bounds_r_ok.
    assert (Hd : (exists m, mn = Some m \/ mx = Some m) -> dec_is_nan d = false).
    { intros [m Hm]. destruct Hn as [[-> ->]|Hn]; [destruct Hm; discriminate|exact Hn]. }
    split; [|split; [|reflexivity]]; intros m Hm; apply dec_lt_false.
    + destruct (H1 m Hm). rewrite Hd by eauto. auto.
    + destruct (H2 m Hm). rewrite Hd by eauto. auto.
  - destruct H as [q [k' [-> H]]]. cbn [as_field]. destruct valid as [[|t ts]|]; try reflexivity.
    apply smem_In in H. rewrite H. reflexivity.
  - destruct H as [s [-> [H1 [H2 H3]]]].
    rewrite (proj2 (check_length_ok anc minl maxl (zlen s) (VStr s) (VStr s))) by auto. cbn [bind].
    rewrite H3. reflexivity.
  - destruct H as [x [H1 H2]]. rewrite vmem_r_nosnan; [|eapply veq_snan_r, H2|exact Hs]. cbn [bind].
    assert (Hm : vmem (e_local E) v l = true) by (apply existsb_exists; eauto). rewrite Hm. reflexivity.
  - destruct H as [e ->]. reflexivity.
  - destruct H as [x [-> [H1 H2]]]. apply (check_bounds_ok _ (nan_or float_le)); [apply float_ltb_spec|auto].
  - destruct H as [x [-> [H1 H2]]]. apply (check_bounds_ok _ Z.le); [apply zle_lt|auto].
  - reflexivity.
  - destruct H as [i [s [w [l [-> H]]]]]. destruct valid as [[|t ts]|]; [reflexivity| |reflexivity].
    destruct H as [name [-> Hin]]. assert (Hex : existsb (str_eqb name) (t :: ts) = true).
    { apply existsb_exists. exists name. split; [exact Hin|apply str_eqb_refl]. }
    rewrite Hex. reflexivity.
  - destruct H as [s [-> [Hc [H1 [H2 H3]]]]]. cbn zeta.
    assert (Hst : (if strip then PyBase.strip is_space s else s) = s).
    { destruct strip; [|reflexivity]. symmetry. apply stripped_strip, Hc. }
    rewrite Hst. rewrite (proj2 (check_length_ok anc minl maxl (zlen s) (VStr s) (VStr s))) by auto.
    cbn [bind]. destruct pattern as [i|]; [|reflexivity]. rewrite (H3 i eq_refl). reflexivity.
  - destruct H as [x [-> [H1 H2]]]. apply (check_bounds_ok _ (fun x y => tod_ltb y x = false)); [apply tod_lt_refl_spec|auto].
  - destruct H as [s [-> [H1 H2]]]. rewrite H1. destruct segments as [m|]; [|reflexivity].
    rewrite (proj2 (Z.eqb_eq _ _) (H2 m eq_refl)). reflexivity.
  - destruct H as [s [-> H]]. rewrite H. reflexivity.
Qed.

(** The clause of [conf_body] for scalars. *)
Definition scalar_clause (E : env) (p : params) {F} (k : kindP val F) (v : val) : Prop :=
  (v = VNone /\ p_nonnull p = false)
  \/ v <> VNone /\ scalar_conf E k v
     /\ (p_constant p = VNone \/ normalises k = true \/ veq (e_local E) v (p_constant p) = true)
     /\ (p_preprocessor p = None ->
         (forall l x, kind_ignored k = Some l -> In x l -> veq (e_local E) x v = false)
         /\ match k with
            | KEmail multiple false _ _ => forall s, v = VStr s -> lowers E -> email_normal E multiple s s
            | _ => True
            end).

Lemma is_null_false L p ig anc v :
  is_null L p ig anc v = Ok false ->
  v <> VNone /\ forall l x, ig = Some l -> In x l -> veq L x v = false.
Proof.
  unfold is_null. intros H. apply bind_Ok in H. destruct H as [b [Hb H]].
  destruct (is_none v) eqn:Hn; [cbn in H; destruct (p_nonnull p); discriminate|].
  destruct b; cbn in H; [destruct (p_nonnull p); discriminate|].
  split; [intros ->; discriminate|]. intros l x -> Hx. eapply vmem_r_false; eauto.
Qed.

Lemma is_null_true L p ig anc v : is_null L p ig anc v = Ok true -> p_nonnull p = false.
Proof.
  unfold is_null. intros H. apply bind_Ok in H. destruct H as [b [Hb H]].
  destruct (is_none v || b); [|discriminate]. destruct (p_nonnull p); [discriminate|reflexivity].
Qed.

Lemma is_null_fine L p ig anc v :
  v <> VNone -> (forall l, ig = Some l -> no_snan l /\ snan_val v = false) ->
  (forall l x, ig = Some l -> In x l -> veq L x v = false) ->
  is_null L p ig anc v = Ok false.
Proof.
  intros Hv Hl Hx. unfold is_null.
  assert (Hn : is_none v = false) by (destruct v; try reflexivity; congruence).
  destruct ig as [l|]; [|cbn; rewrite Hn; reflexivity].
  destruct (Hl l eq_refl) as [Hl1 Hl2]. rewrite vmem_r_nosnan by assumption. cbn [bind].
  assert (Hm : vmem L v l = false).
  { destruct (vmem L v l) eqn:Hm; [|reflexivity]. apply existsb_exists in Hm. destruct Hm as [x [H1 H2]].
    rewrite (Hx l x eq_refl H1) in H2. discriminate. }
  rewrite Hm, Hn. reflexivity.
Qed.

Lemma scalar_sound {F} E p (k : kindP val F) unser ser_v ser anc v r :
  is_structural k = false ->
  (forall i w, p_preprocessor p = Some i -> e_pre E i w <> Ok VNone) ->
  (forall a w, unser a w <> Ok VNone \/ w = VNone) ->
  (forall l, kind_ignored k = Some l -> forall a w x, unser a w = Ok x -> x = w) ->
  process_scalar E p k unser ser_v Inbound ser anc v = Ok r ->
  scalar_clause E p k r /\ (v <> VNone -> kind_ignored k = None -> r <> VNone).
Proof.
  intros Hk Hpre Hun Hig H. unfold process_scalar in H. apply bind_Ok in H. destruct H as [nul [Hnul H]].
  destruct nul.
  { injection H as <-. split; [left; split; [reflexivity|]; eapply is_null_true, Hnul|].
    intros Hv Hi. rewrite Hi, is_null_some in Hnul by exact Hv. discriminate. }
  apply is_null_false in Hnul. destruct Hnul as [Hv Hign].
  apply bind_Ok in H. destruct H as [v1 [Hv1 H]]. apply bind_Ok in H. destruct H as [v2 [Hv2 H]].
  apply bind_Ok in H. destruct H as [c [Hc H]]. destruct c; cbn [negb] in H; [|destruct k; discriminate].
  apply bind_Ok in H. destruct H as [v3 [Hv3 H]].
  assert (Hr : r = v3) by (cbn [phase_eqb] in H; rewrite andb_false_r in H; congruence). subst v3. clear H.
  assert (Hn1 : v1 <> VNone).
  { intros ->. destruct (ser && phase_eqb Inbound Inbound); [|congruence].
    destruct (Hun anc v) as [Hx|Hx]; [|contradiction]. exact (Hx Hv1). }
  assert (Hn2 : v2 <> VNone /\ (p_preprocessor p = None -> kind_ignored k <> None -> v2 = v1)).
  { unfold preprocess in Hv2. destruct (p_preprocessor p) as [i|].
    - split; [|discriminate]. intros ->. destruct (e_pre E i v1) eqn:He; [|destruct k; discriminate].
      apply (Hpre i v1 eq_refl). congruence.
    - destruct k; try (injection Hv2 as <-; auto).
      destruct extended; [injection Hv2 as <-; auto|].
      destruct v1; try discriminate. injection Hv2 as <-. split; [discriminate|]. cbn. congruence. }
  destruct Hn2 as [Hn2 Hsame].
  destruct (validate_sound E k anc v2 r Hk Hv3) as [Hconf Hnorm].
  assert (Hrn : r <> VNone).
  { destruct (normalises k) eqn:Hnk; [|rewrite Hnorm by reflexivity; exact Hn2].
    intros ->. destruct k; try discriminate; cbn in Hconf.
    - destruct Hconf as [dt [z [Hx _]]]. discriminate.
    - destruct Hconf as [s [Hx _]]. discriminate. }
  split; [|intros _ _; exact Hrn]. right. split; [exact Hrn|]. split; [exact Hconf|]. split.
  - destruct (is_none (p_constant p)) eqn:Hcn; [left; destruct (p_constant p); try discriminate; reflexivity|].
    right. destruct (normalises k) eqn:Hnk; [left; reflexivity|right]. rewrite Hnorm by reflexivity.
    unfold veq_r in Hc. destruct (_ || _); [discriminate|]. congruence.
  - intros Hp. split; [|].
    2:{ destruct k; try exact I. destruct extended; [exact I|]. intros s -> HE. cbn in Hconf. destruct Hconf as [s' [Hs' [_ [_ Hm]]]]. injection Hs' as <-.
        specialize (Hnorm eq_refl). subst v2. unfold preprocess in Hv2. rewrite Hp in Hv2.
        destruct v1; try discriminate. injection Hv2 as Hv2. rewrite <- Hv2 in Hm |- *. apply email_settled; assumption. }
    intros l x Hl Hx. assert (Hnk : normalises k = false) by (destruct k; try discriminate; reflexivity).
    rewrite (Hnorm Hnk). rewrite Hsame by congruence.
    assert (Hvv : v1 = v).
    { destruct (ser && phase_eqb Inbound Inbound); [|congruence]. eapply Hig; eauto. }
    rewrite Hvv. eauto.
Qed.

Lemma scalar_complete {F} E p (k : kindP val F) unser ser_v anc v :
  is_structural k = false ->
  p_preprocessor p = None -> (normalises k = true -> p_constant p = VNone) ->
  (match k with
   | KEmail _ extended _ _ => extended = true \/ lowers E
   | KEnumeration l ig => no_snan l /\ forall i, ig = Some i -> no_snan i
   | _ => True end) ->
  scalar_clause E p k v ->
  process_scalar E p k unser ser_v Inbound false anc v = Ok v.
Proof.
  intros Hk Hp Hnc Hkind [[-> Hnn]|[Hv [Hconf [Hconst Hig]]]].
  { rewrite scalar_null, Hnn. reflexivity. }
  destruct (Hig Hp) as [Hig' Hem]. clear Hig. rename Hig' into Hig. unfold process_scalar.
  rewrite is_null_fine; auto.
  2:{ intros l' Hl. destruct k; try discriminate Hl. destruct Hkind as [_ Hx]. cbn in Hl.
      split; [auto|]. destruct Hconf as [x [_ Hxv]]. eapply veq_snan_r, Hxv. }
  cbn [bind andb]. unfold preprocess. rewrite Hp.
  assert (Hpre : match k with
     | KEmail multiple extended _ _ =>
          if extended then Ok v
          else match v with
               | VStr s => Ok (VStr (email_preprocess (e_ulower E) multiple extended s))
               | _ => py AttributeError
               end
     | _ => Ok v end = Ok v) .
  { destruct k; try reflexivity. destruct extended; [reflexivity|]. destruct Hkind as [Hkind|HE]; [discriminate|].
    destruct Hconf as [s [-> _]]. specialize (Hem s eq_refl HE). apply email_normal_eq in Hem. rewrite <- Hem. reflexivity. }
  rewrite Hpre. cbn [bind].
  assert (Hc : (if is_none (p_constant p) then Ok true else veq_r (e_local E) v (p_constant p)) = Ok true).
  { destruct (is_none (p_constant p)) eqn:Hcn; [reflexivity|].
    destruct Hconst as [Hx|[Hx|Hx]]; [rewrite Hx in Hcn; discriminate|rewrite (Hnc Hx) in Hcn; discriminate|].
    unfold veq_r. rewrite (veq_snan_l _ _ _ Hx), (veq_snan_r _ _ _ Hx), Hx. reflexivity. }
  rewrite Hc. cbn [bind negb]. rewrite validate_complete; [reflexivity|exact Hk| |exact Hconf].
  destruct k; try exact I. exact (proj1 Hkind).
Qed.

Lemma Forall2_length {A B} (R : A -> B -> Prop) l m : Forall2 R l m -> length l = length m.
Proof. intros H. induction H; cbn; congruence. Qed.

(** ** Structural fields: soundness *)

Section Sound.
Variable E : env.
Notation L := (e_local E).

Definition child_sound (c : child) (P : val -> Prop) : Prop :=
  forall ser anc v r, snd c Inbound ser anc v = Ok r -> P r.

Lemma wrap_Ok f r v : wrap_undef E f r = Ok v <-> r = Ok v.
Proof.
  unfold wrap_undef. destruct r as [|[|[]]]; try reflexivity.
  destruct (undefined E f); split; discriminate.
Qed.

Lemma collect_all_true outs es :
  collect_all outs = Ok (es, true) -> Forall2 (fun o e => o = Ok e) outs es.
Proof.
  revert es. induction outs as [|o outs IH]; intros es H; cbn [collect_all] in H.
  - injection H as <-. constructor.
  - apply bind_Ok in H. destruct H as [[x bx] [Hx H]]. apply bind_Ok in H. destruct H as [[r br] [Hr H]].
    cbn [fst snd] in H. injection H as <- Hb. apply andb_true_iff in Hb. destruct Hb as [-> ->].
    constructor; [|auto]. destruct o as [w|[e|y]]; cbn in Hx; congruence.
Qed.

Lemma below_false z mn : below Z.ltb z mn = false <-> at_least Z.le mn z.
Proof.
  unfold below, at_least. destruct mn as [m|].
  - rewrite Z.ltb_ge. split; [intros H m' [= <-]; exact H|auto].
  - split; [discriminate|reflexivity].
Qed.

Lemma above_false z mx : above Z.ltb z mx = false <-> at_most Z.le mx z.
Proof.
  unfold above, at_most. destruct mx as [m|].
  - rewrite Z.ltb_ge. split; [intros H m' [= <-]; exact H|auto].
  - split; [discriminate|reflexivity].
Qed.

Lemma has_dup_false (l : list val) :
  has_dup E l = false <->
  forall i j x y, (i < j)%nat -> nth_error l i = Some x -> nth_error l j = Some y -> veq L y x = false.
Proof.
  induction l as [|v l IH]; cbn [has_dup].
  - split; [intros _ [|i] j x y _ H; discriminate|reflexivity].
  - rewrite orb_false_iff, IH. split.
    + intros [H1 H2] [|i] [|j] x y Hlt Hx Hy; cbn in Hx, Hy; try lia.
      * injection Hx as <-. destruct (veq L y v) eqn:Hq; [|reflexivity].
        assert (Ht : vmem L v l = true) by (apply existsb_exists; exists y; split; [eapply nth_error_In; eauto|exact Hq]).
        congruence.
      * apply (H2 i j); auto. lia.
    + intros H. split.
      * destruct (vmem L v l) eqn:Hm; [|reflexivity]. apply existsb_exists in Hm. destruct Hm as [y [Hy Hq]].
        apply In_nth_error in Hy. destruct Hy as [j Hj].
        rewrite (H O (S j) v y) in Hq; [discriminate|lia|reflexivity|exact Hj].
      * intros i j x y Hlt Hx Hy. apply (H (S i) (S j)); auto. lia.
Qed.

Lemma seq_sound p c mn mx u ser anc v r P :
  child_sound c P ->
  process_sequence E p c mn mx u Inbound ser anc v = Ok r ->
  conf_body E p (KSequence (fst c, P) mn mx u) r.
Proof.
  intros Hc H. unfold process_sequence in H. apply bind_Ok in H. destruct H as [nul [Hnul H]].
  destruct nul; [injection H as <-; left; split; [reflexivity|eapply is_null_true, Hnul]|].
  right. destruct v; try discriminate H.
  apply bind_Ok in H. destruct H as [v1 [_ H]]. destruct (py_iter v1) as [its|]; [|discriminate].
  destruct (below _ _ _) eqn:Hb; [discriminate|]. destruct (above _ _ _) eqn:Ha; [discriminate|].
  apply below_false in Hb. apply above_false in Ha. rewrite zlen_length in Hb, Ha.
  apply bind_Ok in H. destruct H as [[es b] [Hl H]]. cbn [fst snd] in H. destruct b; cbn [negb] in H; [|discriminate].
  rewrite seq_loop_outs in Hl. apply collect_all_true in Hl.
  assert (Hlen : length es = length its).
  { apply Forall2_length in Hl. rewrite imap_length in Hl. auto. }
  rewrite <- Hlen in Hb, Ha.
  assert (Hall : Forall P es).
  { clear - Hl Hc. revert Hl. generalize 0%nat as i. revert es.
    induction its as [|x its IH]; intros es i Hl; cbn [imap] in Hl; inversion Hl; subst; constructor.
    - apply wrap_Ok in H1. eapply Hc, H1.
    - eapply IH; eauto. }
  assert (Hr : r = VList es /\ (u = true -> forallb hashable es = true /\ has_dup E es = false)).
  { destruct u; [|split; [congruence|discriminate]].
    destruct (forallb hashable es); [|discriminate]. destruct (has_dup E es); [discriminate|].
    split; [congruence|auto]. }
  destruct Hr as [-> Hu]. split; [discriminate|]. exists es. cbn [snd].
  repeat split; auto.
  - destruct (Hu H0) as [H1 _]. apply Forall_forall. rewrite forallb_forall in H1. exact H1.
  - apply has_dup_false. apply Hu. assumption.
Qed.

Lemma tuple_loop_sound (cs : list child) Ps ser anc i v es :
  Forall2 (fun c P => child_sound c P) cs Ps ->
  tuple_loop E cs Inbound ser anc i v = Ok (es, true) ->
  Forall2 (fun (P : val -> Prop) e => P e) Ps es.
Proof.
  intros Hcs. revert i es. induction Hcs as [|c P cs Ps Hc Hcs IH]; intros i es H; cbn [tuple_loop] in H.
  - injection H as <-. constructor.
  - apply bind_Ok in H. destruct H as [w [_ H]].
    apply bind_Ok in H. destruct H as [[x bx] [Hx H]]. apply bind_Ok in H. destruct H as [[rs br] [Hr H]].
    cbn [fst snd] in H. injection H as <- Hb. apply andb_true_iff in Hb. destruct Hb as [-> ->].
    constructor; [|eapply IH, Hr].
    destruct (wrap_undef E (fst c) _) as [y|[e|y]] eqn:Hw; cbn in Hx; try discriminate.
    injection Hx as <-. apply wrap_Ok in Hw. eapply Hc, Hw.
Qed.

Lemma tuple_sound p (cs : list child) Ps ser anc v r :
  Forall2 (fun c P => child_sound c P) cs Ps ->
  process_tuple E p cs Inbound ser anc v = Ok r ->
  conf_body E p (KTuple (combine (map fst cs) Ps)) r.
Proof.
  intros Hcs H. unfold process_tuple in H. apply bind_Ok in H. destruct H as [nul [Hnul H]].
  destruct nul; [injection H as <-; left; split; [reflexivity|eapply is_null_true, Hnul]|].
  right.
  assert (Hx : exists v1 es, tuple_loop E cs Inbound ser anc 0 v1 = Ok (es, true) /\ r = VTuple es).
  { destruct v; try discriminate H;
    (apply bind_Ok in H; destruct H as [v1 [_ H]]; destruct (py_iter v1) as [its|]; [|discriminate];
     destruct (Nat.eqb _ _); [|discriminate];
     apply bind_Ok in H; destruct H as [[es b] [Hl H]]; cbn [fst snd] in H; destruct b; [|discriminate];
     exists v1, es; split; [exact Hl|congruence]). }
  destruct Hx as [v1 [es [Hl ->]]]. split; [discriminate|]. exists es. split; [reflexivity|].
  apply (tuple_loop_sound cs Ps) in Hl; [|exact Hcs].
  clear - Hcs Hl. revert es Hl. induction Hcs as [|c P cs Ps Hc Hcs IH]; intros es Hl; inversion Hl; subst; cbn; constructor; auto.
Qed.

Lemma union_loop_sound (cs : list child) ser anc v r :
  union_loop E cs Inbound ser anc v = Ok r ->
  exists c, In c cs /\ snd c Inbound ser anc v = Ok r.
Proof.
  induction cs as [|c cs IH]; cbn [union_loop]; [discriminate|].
  destruct (wrap_undef E (fst c) _) as [y|[e|y]] eqn:Hw; try discriminate.
  - intros [= <-]. apply wrap_Ok in Hw. exists c. split; [left; reflexivity|exact Hw].
  - destruct (er_cls e); try discriminate. intros H. destruct (IH H) as [c' [H1 H2]]. exists c'. split; [right; exact H1|exact H2].
Qed.

(** Map entries. *)
Lemma dset_keys (k e : val) acc :
  (exists k', In k' (map fst acc) /\ veq L k' k = true /\ map fst (dset L k e acc) = map fst acc)
  \/ ((forall k', In k' (map fst acc) -> veq L k' k = false) /\ dset L k e acc = acc ++ [(k, e)]).
Proof.
  induction acc as [|[k' e'] acc IH]; cbn [dset map fst].
  - right. split; [intros k' []|reflexivity].
  - destruct (veq L k' k) eqn:Hq.
    + left. exists k'. cbn. auto.
    + destruct IH as [[k0 [H1 [H2 H3]]]|[H1 H2]].
      * left. exists k0. split; [right; exact H1|]. split; [exact H2|]. cbn. rewrite H3. reflexivity.
      * right. split; [intros k0 [<-|H0]; [exact Hq|auto]|]. rewrite H2. reflexivity.
Qed.

Lemma dset_distinct k e acc : distinct L (map fst acc) -> distinct L (map fst (dset L k e acc)).
Proof.
  intros Hd. destruct (dset_keys k e acc) as [[k' [_ [_ H]]]|[H1 H2]].
  - rewrite H. exact Hd.
  - rewrite H2, map_app. apply distinct_app. split; [exact Hd|]. split; [cbn; auto; split; [intros ? []|exact I]|].
    intros a b Ha [<-|[]]. cbn. auto.
Qed.

Lemma dset_forall (K V : val -> Prop) k e acc :
  K k -> V e -> Forall (fun kv => K (fst kv) /\ V (snd kv)) acc ->
  Forall (fun kv => K (fst kv) /\ V (snd kv)) (dset L k e acc).
Proof.
  intros Hk He. induction acc as [|[k' e'] acc IH]; intros H; cbn [dset].
  - repeat constructor; assumption.
  - inversion H as [|? ? H1 H2]; subst. cbn in H1. destruct (veq L k' k); constructor; cbn; auto; tauto.
Qed.

Lemma map_loop_sound cv ck Pv (K : val -> Prop) ser anc items acc acc' :
  child_sound cv Pv ->
  (match ck with
   | Some c => forall ser anc v r, snd c Inbound ser anc v = Ok r -> hashable r = true -> percent_s E r <> None -> K r
   | None => forall s, K (VStr s)
   end) ->
  distinct L (map fst acc) ->
  Forall (fun kv => K (fst kv) /\ Pv (snd kv)) acc ->
  map_loop E cv ck Inbound ser anc items acc true = Ok (acc', true) ->
  distinct L (map fst acc') /\ Forall (fun kv => K (fst kv) /\ Pv (snd kv)) acc'.
Proof.
  intros Hcv Hck. revert acc. induction items as [|[k v] items IH]; intros acc Hd Hf H; cbn [map_loop] in H.
  - injection H as <-. auto.
  - apply bind_Ok in H. destruct H as [k' [Hk H]]. apply bind_Ok in H. destruct H as [seg [Hseg H]].
    apply bind_Ok in H. destruct H as [[e b] [Hx H]]. cbn [fst snd] in H.
    destruct (hashable k') eqn:Hh; [|discriminate].
    assert (Hb : b = true).
    { destruct b; [reflexivity|]. rewrite map_loop_traverse in H. apply bind_Ok in H. destruct H as [rs [_ H]].
      cbn in H. discriminate. }
    subst b. cbn [andb] in H.
    assert (HK : K k').
    { assert (Hpc : percent_s E k' <> None).
      { rewrite key_seg_percent in Hseg. destruct (percent_s E k'); discriminate. }
      destruct ck as [c|].
      - apply bind_Ok in Hk. destruct Hk as [seg' [_ Hk]].
        match type of Hk with match ?x with _ => _ end = _ => destruct x as [w|[e'|y]] eqn:Hc; try discriminate end.
        injection Hk as <-. eapply Hck; eauto.
      - destruct k; try discriminate. injection Hk as <-. apply Hck. }
    assert (HP : Pv e).
    { destruct (wrap_undef E (fst cv) _) as [y|[e'|y]] eqn:Hw; cbn in Hx; try discriminate.
      injection Hx as <-. apply wrap_Ok in Hw. eapply Hcv, Hw. }
    apply IH in H; [exact H| |].
    + apply dset_distinct, Hd.
    + apply dset_forall; assumption.
Qed.

Lemma map_required_sound anc req acc valid acc' :
  map_required E anc req acc valid = Ok (acc', true) ->
  valid = true /\ acc' = acc /\ forall x, In x req -> exists kv, In kv acc /\ veq L (fst kv) x = true.
Proof.
  revert acc valid. induction req as [|x req IH]; intros acc valid H; cbn [map_required] in H.
  - injection H as <- ->. repeat split. intros x [].
  - destruct (hashable x); [|discriminate]. destruct (dmem L x acc) eqn:Hm.
    + apply IH in H. destruct H as [-> [-> H]]. repeat split. intros y [<-|Hy]; [|auto].
      rewrite dmem_keys in Hm. apply existsb_exists in Hm. destruct Hm as [k [Hk Hq]].
      apply in_map_iff in Hk. destruct Hk as [kv [<- Hkv]]. eauto.
    + apply IH in H. destruct H as [H _]. discriminate.
Qed.

Lemma map_sound p cv ck req Pv Pk ser anc v r :
  child_sound cv Pv ->
  (match ck, Pk with Some c, Some P => child_sound (c) (snd P) | None, None => True | _, _ => False end) ->
  process_map E p cv ck req Inbound ser anc v = Ok r ->
  conf_body E p (KMap (fst cv, Pv) Pk req) r.
Proof.
  intros Hcv Hck H. unfold process_map in H. apply bind_Ok in H. destruct H as [nul [Hnul H]].
  destruct nul; [injection H as <-; left; split; [reflexivity|eapply is_null_true, Hnul]|].
  right. destruct (as_dict v) as [l0|]; [|discriminate]. apply bind_Ok in H. destruct H as [v1 [_ H]].
  destruct (as_dict v1) as [items|]; [|discriminate]. apply bind_Ok in H. destruct H as [[a1 b1] [Hl H]].
  apply bind_Ok in H. destruct H as [[a2 b2] [Hr H]]. cbn [fst snd] in H.
  destruct b2; [|discriminate]. injection H as <-.
  assert (Hreq : b1 = true /\ a2 = a1 /\ forall l x, req = Some l -> In x l -> exists kv, In kv a1 /\ veq L (fst kv) x = true).
  { destruct req as [l|].
    - apply map_required_sound in Hr. destruct Hr as [H1 [H2 H3]]. cbn in *. repeat split; auto.
      intros l' x [= <-]. auto.
    - injection Hr as <- <-. repeat split. discriminate. }
  destruct Hreq as [-> [-> Hreq]].
  apply (map_loop_sound cv ck Pv (fun k => match Pk with Some c => snd c k | None => exists s, k = VStr s end
           /\ hashable k = true /\ percent_s E k <> None)) in Hl.
  - destruct Hl as [Hd Hf]. split; [discriminate|]. exists a1. split; [reflexivity|]. split; [exact Hd|].
    split; [|exact Hreq]. eapply Forall_impl; [|exact Hf]. cbn. tauto.
  - exact Hcv.
  - destruct ck as [c|], Pk as [P|]; try contradiction.
    + intros ser' anc' v' r' Hc Hh Hp. split; [eapply Hck, Hc|auto].
    + intros s. split; [eauto|]. split; [reflexivity|discriminate].
  - exact I.
  - constructor.
Qed.

(** Structures. *)
Lemma kept_sublist order rs : sublist (map fst (kept order rs)) (map VStr order).
Proof.
  revert rs. induction order as [|k order IH]; intros rs; unfold kept; cbn [combine flat_map map].
  - constructor.
  - destruct rs as [|[x|] rs]; cbn [combine flat_map map snd fst app].
    + apply sublist_skip. specialize (IH []). unfold kept in IH. destruct order; exact IH.
    + apply sublist_take. apply IH.
    + apply sublist_skip. apply IH.
Qed.

Lemma sublist_nil_l {A} (l : list A) : sublist [] l.
Proof. induction l; constructor; assumption. Qed.

Definition defn_sound (defn : list (str * child)) (cdefn : list (str * cchild)) : Prop :=
  Forall2 (fun a b => fst a = fst b /\ fst (snd a) = fst (snd b) /\ child_sound (snd a) (snd (snd b))) defn cdefn.

Lemma defn_sound_get defn cdefn k c :
  defn_sound defn cdefn -> aget k defn = Some c ->
  exists b, In (k, b) cdefn /\ fst b = fst c /\ child_sound c (snd b).
Proof.
  intros H. induction H as [|[k1 c1] [k2 c2] defn cdefn [H1 [H2 H3]] Hrest IH]; cbn [aget]; [discriminate|].
  cbn in H1, H2, H3. subst k2. destruct (str_eqb_spec k k1) as [<-|Hne].
  - intros [= <-]. exists c2. cbn. auto.
  - intros Hg. destruct (IH Hg) as [b [Hb Hb']]. exists b. split; [right; exact Hb|exact Hb'].
Qed.

Lemma defn_sound_keys defn cdefn : defn_sound defn cdefn -> map fst defn = map fst cdefn.
Proof. intros H. induction H as [|a b defn cdefn [H1 _] _ IH]; [reflexivity|]. cbn [map]. f_equal; assumption. Qed.

Lemma defn_sound_aget defn cdefn k b :
  defn_sound defn cdefn -> NoDup (map fst defn) -> In (k, b) cdefn ->
  exists c, aget k defn = Some c /\ fst c = fst b.
Proof.
  intros H. induction H as [|[k1 c1] [k2 c2] defn cdefn [H1 [H2 H3]] Hrest IH]; intros Hnd Hin; [destruct Hin|].
  cbn in H1, H2, H3. subst k2. cbn [map fst] in Hnd. inversion Hnd as [|? ? Hnin Hnd']; subst. cbn [aget].
  destruct Hin as [Heq|Hin].
  - injection Heq as <- <-. rewrite str_eqb_refl. eauto.
  - destruct (str_eqb_spec k k1) as [<-|Hne]; [|auto].
    exfalso. apply Hnin. rewrite (defn_sound_keys _ _ Hrest). apply (in_map fst) in Hin. exact Hin.
Qed.

Lemma struct_run_sound defn cdefn strict ko identity ser anc items r :
  defn_sound defn cdefn -> NoDup (map fst defn) ->
  match ko with Some o => NoDup o /\ incl o (map fst defn) | None => True end ->
  (ko <> None -> identity = VNone) ->
  struct_run E defn strict ko identity false Inbound ser anc items = Ok r ->
  exists rs, let order := match ko with Some (k :: ks) => k :: ks | _ => map fst cdefn end in
    traverse (sstep E defn items false Inbound ser anc) order = Ok rs
    /\ fine rs = true /\ r = VDict (has_order ko) (kept order rs)
    /\ struct_conf E cdefn ko (kept order rs).
Proof.
  intros Hdefn Hnd Hko Hid H. unfold struct_run in H. rewrite <- (defn_sound_keys _ _ Hdefn).
  set (order := match ko with Some (k :: ks) => k :: ks | _ => map fst defn end).
  assert (Ho : match ko with Some (o :: os) => poly_order (o :: os) identity | _ => Ok (map fst defn) end = Ok order).
  { unfold order. destruct ko as [[|o os]|]; try reflexivity. rewrite Hid by discriminate. reflexivity. }
  rewrite Ho in H. cbn [bind] in H.
  assert (Hndo : NoDup order /\ incl order (map fst defn)).
  { unfold order. destruct ko as [[|o os]|]; [split; [exact Hnd|apply incl_refl]|exact Hko|split; [exact Hnd|apply incl_refl]]. }
  destruct Hndo as [Hndo Hincl].
  rewrite struct_loop_traverse in H; [|exact Hndo|intros; apply kmem_sget|reflexivity].
  apply bind_Ok in H. destruct H as [[[names acc] valid] [Ht H]].
  apply bind_Ok in Ht. destruct Ht as [rs [Ht Heq]]. injection Heq as <- <- <-. cbn [app] in H.
  exists rs. cbn zeta. split; [exact Ht|].
  destruct (fine rs) eqn:Hfine; cbn [andb] in H; [|discriminate].
  assert (Hr : r = VDict (has_order ko) (kept order rs)).
  { destruct strict; cbn [negb orb] in H; [|injection H as <-; reflexivity].
    destruct (fold_left _ order _); [|discriminate]. cbn in H. injection H as <-. reflexivity. }
  split; [reflexivity|]. split; [exact Hr|]. clear H Hr. apply traverse_ok in Ht.
  unfold struct_conf. rewrite <- (defn_sound_keys _ _ Hdefn). fold order. split; [apply kept_sublist|]. split.
  - intros k y Hin. clear - Ht Hfine Hin Hdefn. revert Hin. induction Ht as [|k' x order rs Hs Ht IH]; intros Hin; [destruct Hin|].
    unfold kept in Hin. cbn [combine flat_map snd fst] in Hin. cbn [fine forallb] in Hfine. apply andb_true_iff in Hfine.
    destruct Hfine as [Hx Hfine]. apply in_app_or in Hin. destruct Hin as [Hin|Hin]; [|apply IH; assumption].
    destruct x as [[e b]|]; [|destruct Hin]. destruct Hin as [Hin|[]]. cbn in Hin. injection Hin as <- <-. cbn in Hx. subst b.
    unfold sstep in Hs. destruct (aget k' defn) as [c|] eqn:Hg; [|discriminate].
    destruct (defn_sound_get _ _ _ _ Hdefn Hg) as [b [Hb1 [Hb2 Hb3]]].
    exists b. split; [exact Hb1|].
    apply bind_Ok in Hs. destruct Hs as [d [Hd Hs]]. destruct d as [| |w]; try discriminate.
    destruct (fparams E (fst c)); [|discriminate]. destruct (_ && _); [discriminate|].
    apply bind_Ok in Hs. destruct Hs as [[e' b'] [Hc Hs]]. injection Hs as -> ->.
    destruct (wrap_undef E (fst c) _) as [z|[z|z]] eqn:Hw; cbn in Hc; try discriminate.
    injection Hc as <-. apply wrap_Ok in Hw. eapply Hb3, Hw.
  - intros k c Hin Hc Habs.
    destruct (defn_sound_aget _ _ _ _ Hdefn Hnd Hc) as [c' [Hg Hf]]. rewrite <- Hf.
    clear - Ht Hin Hg Habs. induction Ht as [|k' x order rs Hs Ht IH]; [destruct Hin|].
    unfold kept in Habs. cbn [combine flat_map snd fst] in Habs. rewrite map_app in Habs.
    destruct Hin as [->|Hin].
    2:{ apply IH; [exact Hin|]. intros Hx. apply Habs. apply in_or_app. right. exact Hx. }
    destruct x as [[e b]|]; [exfalso; apply Habs; left; reflexivity|].
    unfold sstep in Hs. rewrite Hg in Hs. apply bind_Ok in Hs. destruct Hs as [d [Hd Hs]].
    unfold decide in Hd. destruct (sget k items) as [w|].
    + injection Hd as <-. destruct (fparams E (fst c')) as [q|] eqn:Hq; [|discriminate].
      exists q. split; [apply defined_fparams, Hq|]. left.
      destruct (p_ignore_null q); [reflexivity|]. cbn [andb] in Hs. apply bind_Ok in Hs. destruct Hs as [? [_ Hs]]. discriminate.
    + destruct (fparams E (fst c')) as [q|] eqn:Hq; [|discriminate].
      exists q. split; [apply defined_fparams, Hq|].
      destruct (is_none (p_default q)) eqn:Hdn; cbn in Hd.
      * right. destruct (p_required q); [injection Hd as <-; discriminate|].
        split; [reflexivity|]. destruct (p_default q); try discriminate. reflexivity.
      * injection Hd as <-. destruct (p_ignore_null q); [left; reflexivity|]. cbn [andb] in Hs.
        apply bind_Ok in Hs. destruct Hs as [? [_ Hs]]. discriminate.
Qed.

Lemma kept_in order rs k x :
  In (k, Some x) (combine order rs) -> In (VStr k, fst x) (kept order rs).
Proof.
  intros Hin. unfold kept. apply in_flat_map. exists (k, Some x). split; [exact Hin|left; reflexivity].
Qed.

Lemma traverse_in {A B} (f : A -> res B) l bs a :
  traverse f l = Ok bs -> In a l -> exists b, f a = Ok b /\ In (a, b) (combine l bs).
Proof.
  intros H. apply traverse_ok in H. induction H as [|x y l bs Hx Hl IH]; intros [].
  - subst. exists y. split; [exact Hx|left; reflexivity].
  - destruct (IH H) as [b [H1 H2]]. exists b. split; [exact H1|right; exact H2].
Qed.

End Sound.

Lemma scalar_same {F} E q c (k : kindP val F) unser ser_v ph ser anc v r1 r2 :
  process_scalar E (with_constant q c) k unser ser_v ph ser anc v = Ok r1 ->
  process_scalar E q k unser ser_v ph ser anc v = Ok r2 -> r1 = r2.
Proof.
  unfold process_scalar. change (is_null (e_local E) (with_constant q c)) with (is_null (e_local E) q).
  intros H1 H2. destruct (is_null _ q _ anc v) as [[]|]; cbn [bind] in *; try congruence.
  destruct (if ser && phase_eqb ph Inbound then unser anc v else Ok v) as [v1|]; cbn [bind] in *; [|discriminate].
  change (preprocess E (with_constant q c) k v1) with (preprocess E q k v1) in H1.
  destruct (match preprocess E q k v1 with Ok w => Ok w | Raise _ => construct_invalid k anc end) as [v2|];
    cbn [bind] in *; [|discriminate].
  apply bind_Ok in H1. destruct H1 as [[] [_ H1]]; cbn [negb] in H1; [|destruct k; discriminate].
  apply bind_Ok in H2. destruct H2 as [[] [_ H2]]; cbn [negb] in H2; [|destruct k; discriminate].
  congruence.
Qed.

Lemma find_map_snd {A B C} (P : A -> bool) (g : B -> C) (l : list (A * B)) :
  find (fun vd => P (fst vd)) (map (fun vd => (fst vd, g (snd vd))) l)
  = option_map (fun vd => (fst vd, g (snd vd))) (find (fun vd => P (fst vd)) l).
Proof.
  induction l as [|[a b] l IH]; [reflexivity|]. cbn. destruct (P a); [reflexivity|exact IH].
Qed.

Lemma everywhere_sub P p k g : everywhere P (Fld p k) -> In g (subfields k) -> everywhere P g.
Proof. intros H. inversion H; subst. auto. Qed.
Lemma everywhere_top P p k : everywhere P (Fld p k) -> P p k.
Proof. intros H. inversion H; subst. auto. Qed.

Lemma defn_children_sound (proc : field -> procfun) (conf : field -> val -> Prop) (d : list (str * field)) :
  (forall kf, In kf d -> child_sound (snd kf, proc (snd kf)) (conf (snd kf))) ->
  defn_sound (map (fun kf => (fst kf, (snd kf, proc (snd kf)))) d)
             (map (fun kf => (fst kf, (snd kf, conf (snd kf)))) d).
Proof.
  intros H. unfold defn_sound. induction d as [|kf d IH]; cbn [map]; constructor.
  - cbn. repeat split; auto. apply (H kf). left. reflexivity.
  - apply IH. intros kf' Hkf. apply H. right. exact Hkf.
Qed.

Lemma unser_nonnull {F} E recon (k : kindP val F) :
  (k = KObject -> forall s, e_import E s <> Some VNone) ->
  forall a w, unserialize_value E recon k a w <> Ok VNone \/ w = VNone.
Proof.
  intros Himp a w.
  assert (Ho : forall (X : Type) (inj : X -> val) o, (forall x, inj x <> VNone) -> or_invalid a inj o <> Ok VNone).
  { intros X inj [x|] Hinj; cbn; [intros [= H]; exact (Hinj x H)|discriminate]. }
  destruct (is_none w) eqn:Hw; [right; destruct w; try discriminate; reflexivity|left].
  assert (Hw' : w <> VNone) by (intros ->; discriminate).
  destruct k; cbn [unserialize_value]; try (intros [= Hx]; congruence).
  - destruct w; try discriminate. destruct (b64_decode b); discriminate.
  - destruct w; try discriminate. apply Ho. discriminate.
  - destruct w; try discriminate. apply Ho. discriminate.
  - apply Ho. discriminate.
  - destruct (recon w); discriminate.
  - destruct w; try discriminate. destruct l as [|x [|y [|z l]]]; try discriminate.
    unfold err_unserialize. destruct (py_iter x); discriminate.
  - apply Ho. discriminate.
  - destruct w; try (apply Ho; discriminate). discriminate.
  - destruct w as [| | | |s| | | | | | | | | | | |]; try discriminate; try congruence.
    destruct (e_import E s) eqn:He; [|discriminate].
    intros [= ->]. exact (Himp eq_refl s He).
  - destruct w; try discriminate. apply Ho. discriminate.
Qed.

Lemma surr_unser_nonnull E recon unser a w : surr_unserialize E recon unser a w <> Ok VNone.
Proof.
  unfold surr_unserialize. intros H.
  repeat first
    [ discriminate H
    | apply bind_Ok in H; destruct H as [? [_ H]]
    | match type of H with context [match ?x with _ => _ end] => destruct x; try discriminate H end ].
Qed.

(** Only fields that ignore values, placeholders and unions return null for something else. *)
Lemma not_nullified E desc recon n p k ser anc v :
  null_free E p k -> v <> VNone -> ~ may_nullify (Fld p k) ->
  process_gen E desc recon n (Fld p k) false Inbound ser anc v <> Ok VNone.
Proof.
  intros [Hpre Himp] Hv Hk H. rewrite process_Fld in H. unfold process_body in H.
  set (path := match anc with [] => _ | _ => _ end) in H. clearbody path.
  assert (Hscal : is_structural k = false ->
            forall unser ser_v,
            process_scalar E p k unser ser_v Inbound ser path v = Ok VNone ->
            (forall a w, unser a w <> Ok VNone \/ w = VNone) ->
            (forall l, kind_ignored k = Some l -> forall a w x, unser a w = Ok x -> x = w) -> False).
  { intros Hs unser ser_v Hx H1 H2. apply scalar_sound in Hx; auto. destruct Hx as [_ Hx].
    apply Hx; [exact Hv| |reflexivity]. destruct (kind_ignored k) eqn:Hi; [|reflexivity].
    exfalso. apply Hk. destruct k; try discriminate Hi. cbn in Hi |- *. congruence. }
  assert (Hun := unser_nonnull E recon k Himp).
  destruct k; cbn [kmap] in H.
  all: try (apply Hscal in H; [exact H|reflexivity|exact Hun|intros l0 Hl0; try discriminate Hl0; intros a w x [= <-]; reflexivity]).
  - unfold process_map in H. rewrite is_null_some in H by exact Hv. cbn [bind] in H.
    repeat first
    [ discriminate H
    | apply bind_Ok in H; destruct H as [? [_ H]]
    | match type of H with context [match ?x with _ => _ end] => destruct x; try discriminate H end ].
  - unfold process_sequence in H. rewrite is_null_some in H by exact Hv. cbn [bind] in H.
    repeat first
    [ discriminate H
    | apply bind_Ok in H; destruct H as [? [_ H]]
    | match type of H with context [match ?x with _ => _ end] => destruct x; try discriminate H end ].
  - unfold process_structure in H. rewrite is_null_some in H by exact Hv. cbn [bind] in H.
    unfold struct_run in H.
    repeat first
    [ discriminate H
    | apply bind_Ok in H; destruct H as [? [_ H]]
    | match type of H with context [match ?x with _ => _ end] => destruct x; try discriminate H end ].
  - apply Hscal in H; [exact H|reflexivity| |discriminate].
    intros a w. left. apply surr_unser_nonnull.
  - unfold process_tuple in H. rewrite is_null_some in H by exact Hv. cbn [bind] in H.
    repeat first
    [ discriminate H
    | apply bind_Ok in H; destruct H as [? [_ H]]
    | match type of H with context [match ?x with _ => _ end] => destruct x; try discriminate H end ].
  - apply Hk. exact I.
Qed.

Lemma combine_map_r {A B} (g : A -> B) l : combine l (map g l) = map (fun x => (x, g x)) l.
Proof. induction l as [|x l IH]; cbn; congruence. Qed.

(** ** C31 *)

(** @prop C31 Soundness for whole schemas: whatever an Inbound [process] returns, of serialized or
    native input, at any nesting, conforms to the field: types, bounds, lengths, patterns,
    enumerations and constants, required keys, and no value where null is refused.  Hypotheses:
    definitions are dicts as the constructor leaves them, user preprocessors and imports do not
    return null. *)
Lemma process_sound :
  forall E desc recon n f ser anc v r,
    throughout E well_keyed f -> throughout E (null_free E) f ->
    process_gen E desc recon n f false Inbound ser anc v = Ok r ->
    conforms E n f r.
Proof.
  intros E desc recon n f ser anc v r [Hf Hu] [Hnf Hnu]. revert f Hf Hnf ser anc v r.
  induction n as [n IHn] using lt_wf_ind.
  intros f. induction f as [i|p k IH] using field_ind'; intros Hf Hnf ser anc v r H.
  - rewrite process_FUndef in H. rewrite conforms_FUndef. destruct (e_undef E i) as [[|q k]|] eqn:He; try discriminate.
    destruct n as [|m]; [discriminate|]. eapply IHn; [lia| | |exact H]; [eapply Hu, He|eapply Hnu, He].
  - rewrite process_Fld in H. rewrite conforms_Fld. unfold process_body in H.
    set (path := match anc with [] => _ | _ => _ end) in H. clearbody path.
    assert (Hsub : forall g, In g (subfields k) ->
              child_sound (g, process_gen E desc recon n g false) (conforms E n g)).
    { intros g Hg ser' anc' v' r'. cbn [snd]. apply (IH g Hg); eapply everywhere_sub; eauto. }
    destruct (everywhere_top _ _ _ Hnf) as [Hpre Himp].
    assert (Hscal : is_structural k = false ->
              forall unser ser_v,
              process_scalar E p k unser ser_v Inbound ser path v = Ok r ->
              (forall a w, unser a w <> Ok VNone \/ w = VNone) ->
              (forall l, kind_ignored k = Some l -> forall a w x, unser a w = Ok x -> x = w) ->
              scalar_clause E p k r).
    { intros Hk unser ser_v Hx H1 H2. eapply scalar_sound; eauto. }
    assert (Hun := unser_nonnull E recon k Himp).
    destruct k; cbn [kmap] in H |- *.
    all: try (apply Hscal in H; [exact H|reflexivity|exact Hun|intros l0 Hl0; try discriminate Hl0; intros a w x [= <-]; reflexivity]).
    + (* map *)
      assert (Hv : In value (subfields (KMap value key required_keys : kind)))
        by (destruct key; left; reflexivity).
      apply (map_sound E p _ _ _ (conforms E n value) (option_map (fun g => (g, conforms E n g)) key)) in H.
      * exact H.
      * exact (Hsub value Hv).
      * destruct key as [kf|]; cbn [option_map]; [|exact I]. apply (Hsub kf). right. left. reflexivity.
    + (* sequence *)
      apply (seq_sound E p _ _ _ _ _ _ _ _ (conforms E n item)) in H; [exact H|].
      apply Hsub. left. reflexivity.
    + (* structure *)
      unfold process_structure in H. apply bind_Ok in H. destruct H as [nul [Hnul H]].
      destruct nul; [injection H as <-; left; split; [reflexivity|eapply is_null_true, Hnul]|].
      right. destruct (as_dict v) as [l0|]; [|discriminate]. apply bind_Ok in H. destruct H as [v1 [_ H]].
      destruct (as_dict v1) as [items|]; [|discriminate].
      assert (Hwk := everywhere_top _ _ _ Hf). cbn [well_keyed] in Hwk.
      destruct d as [d|on vs]; cbn [sdef_map] in H |- *.
      * destruct Hwk as [Hnd Hko].
        apply (struct_run_sound E _ (map (fun kf => (fst kf, (snd kf, conforms E n (snd kf)))) d)) in H.
        -- destruct H as [rs [_ [_ [-> Hc]]]]. split; [discriminate|]. eexists. split; [reflexivity|exact Hc].
        -- apply (defn_children_sound (fun g => process_gen E desc recon n g false) (conforms E n)). intros kf Hkf. apply Hsub. cbn [subfields sdef_fields].
           apply in_map, Hkf.
        -- rewrite map_map. exact Hnd.
        -- rewrite map_map. exact Hko.
        -- reflexivity.
      * destruct Hwk as [-> [q [kd [name [-> [Hname [Hb [Hkig Hvs]]]]]]]].
        cbn [fst fparams] in H. rewrite Hname in H.
        destruct (sget name items) as [ident|] eqn:Hget; [|discriminate].
        destruct (is_none ident) eqn:Hin; [destruct ident; discriminate|].
        assert (H' : (do ident' <- process_gen E desc recon n (Fld q kd) false Inbound ser (path ++ [$"." ++ name]) ident;
                   if hashable ident' then
                     match find (fun vd => veq (e_local E) (fst vd) ident')
                             (map (fun vl => (fst vl, map (fun kf => (fst kf, (snd kf, process_gen E desc recon n (snd kf) false))) (snd vl))) vs) with
                     | Some (_, (kf :: rest)) => struct_run E (kf :: rest) strict None ident' false Inbound ser path items
                     | _ => verr path $"unrecognized"
                     end
                   else py TypeError) = Ok r) by (destruct ident; try discriminate Hin; exact H).
        clear H. apply bind_Ok in H'. destruct H' as [y [Hy H]].
        destruct (hashable y) eqn:Hh; [|discriminate].
        rewrite (find_map_snd (fun a => veq (e_local E) a y)) in H.
        destruct (find (fun vd => veq (e_local E) (fst vd) y) vs) as [[vk d]|] eqn:Hfind; [|discriminate].
        cbn [option_map fst snd] in H.
        assert (Hrun : struct_run E (map (fun kf => (fst kf, (snd kf, process_gen E desc recon n (snd kf) false))) d)
                         strict None y false Inbound ser path items = Ok r) by (destruct d; [discriminate|exact H]).
        clear H. apply find_some in Hfind as Hfs. destruct Hfs as [Hin_vs _].
        rewrite Forall_forall in Hvs. destruct (Hvs _ Hin_vs) as [Hnd Hdisc]. cbn [fst snd] in Hnd, Hdisc.
        assert (Hsubd : forall kf, In kf d -> In (snd kf) (subfields (KStructure (SPoly (Fld q kd) vs) strict None : kind))).
        { intros kf Hkf. cbn [subfields sdef_fields]. right. apply in_flat_map. exists (vk, d).
          split; [exact Hin_vs|]. apply in_map, Hkf. }
        apply (struct_run_sound E _ (map (fun kf => (fst kf, (snd kf, conforms E n (snd kf)))) d)) in Hrun.
        -- destruct Hrun as [rs [Ht [Hfine [-> Hc]]]]. split; [discriminate|].
           assert (Hord : In name (map fst (map (fun kf : str * field => (fst kf, (snd kf, conforms E n (snd kf)))) d))).
           { rewrite map_map. apply (in_map fst) in Hdisc. exact Hdisc. }
           destruct (traverse_in _ _ _ _ Ht Hord) as [o [Ho Hcomb]].
           assert (Hvn : ident <> VNone) by (intros ->; discriminate).
           assert (Hyn : y <> VNone).
           { rewrite process_basic in Hy by exact Hb. eapply scalar_sound in Hy; eauto.
             - destruct Hy as [_ Hy]. apply Hy; assumption.
             - destruct kd; try reflexivity; discriminate.
             - apply (everywhere_top _ _ _ (everywhere_sub _ _ _ (Fld q kd) Hnf (or_introl eq_refl))).
             - apply unser_nonnull.
               apply (everywhere_top _ _ _ (everywhere_sub _ _ _ (Fld q kd) Hnf (or_introl eq_refl))).
             - intros l1 Hl1. rewrite Hkig in Hl1. discriminate. }
           assert (Hyv : o = Some (y, true)).
           { unfold sstep in Ho. rewrite Hget in Ho.
             rewrite (aget_NoDup_In name (Fld (with_constant q vk) kd, process_gen E desc recon n (Fld (with_constant q vk) kd) false)) in Ho.
             - cbn [decide bind fst fparams snd] in Ho. rewrite Hin, andb_false_r in Ho.
               apply bind_Ok in Ho. destruct Ho as [[e b] [Hcol Ho]]. injection Ho as <-.
               assert (Hbt : b = true).
               { clear - Hcomb Hfine. unfold fine in Hfine. rewrite forallb_forall in Hfine.
                 apply in_combine_r in Hcomb. exact (Hfine _ Hcomb). }
               subst b.
               destruct (wrap_undef E _ _) as [z|[z|z]] eqn:Hw; cbn in Hcol; try discriminate.
               injection Hcol as <-. apply wrap_Ok in Hw.
               rewrite process_basic in Hw, Hy by exact Hb.
               change (path_of (with_constant q vk) kd) with (path_of q kd) in Hw.
               rewrite (scalar_same _ _ _ _ _ _ _ _ _ _ _ _ Hw Hy). reflexivity.
             - rewrite map_map. exact Hnd.
             - apply in_map_iff. exists (name, Fld (with_constant q vk) kd). split; [reflexivity|exact Hdisc]. }
           subst o. apply kept_in in Hcomb. cbn [fst] in Hcomb.
           eexists _, name, q, y, vk, _. split; [reflexivity|]. split; [reflexivity|]. split; [exact Hname|].
           split; [exact Hcomb|]. split; [exact Hyn|]. split; [|split; [exact Hh|]].
           ++ apply (Hsub (Fld q kd)) in Hy; [exact Hy|left; reflexivity].
           ++ split; [|exact Hc]. rewrite (find_map_snd (fun a => veq (e_local E) a y)), Hfind. reflexivity.
        -- apply (defn_children_sound (fun g => process_gen E desc recon n g false) (conforms E n)). intros kf Hkf. apply Hsub, Hsubd, Hkf.
        -- rewrite map_map. exact Hnd.
        -- exact I.
        -- congruence.
    + (* surrogate *)
      apply Hscal in H; [exact H|reflexivity| |discriminate].
      intros a w. left. apply surr_unser_nonnull.
    + (* tuple *)
      apply (tuple_sound E p _ (map (fun g => conforms E n g) values)) in H.
      * rewrite map_map in H. cbn [fst] in H. rewrite map_id in H.
        rewrite combine_map_r in H. exact H.
      * assert (Hs : forall g, In g values -> child_sound (g, process_gen E desc recon n g false) (conforms E n g))
          by (intros g Hg; apply Hsub, Hg).
        clear - Hs. induction values as [|g gs IHg]; cbn; constructor; [apply Hs; left; reflexivity|].
        apply IHg. intros g' Hg'. apply Hs. right. exact Hg'.
    + (* union *)
      unfold process_union in H. apply bind_Ok in H. destruct H as [nul [Hnul H]].
      destruct nul; [injection H as <-; left; split; [reflexivity|eapply is_null_true, Hnul]|].
      apply union_loop_sound in H. destruct H as [c [Hc H]]. apply in_map_iff in Hc. destruct Hc as [g [<- Hg]].
      apply is_null_false in Hnul. destruct Hnul as [Hnv _].
      right. split.
      { intros ->. exists (g, conforms E n g). split; [apply in_map_iff; exists g; auto|]. cbn [fst snd] in H |- *.
        destruct g as [i|q k]; [exact I|].
        assert (Hd : may_nullify (Fld q k) \/ ~ may_nullify (Fld q k))
          by (cbn; destruct k; cbn; try (left; exact I); try (right; congruence); match goal with ig : option (list val) |- _ => destruct ig end; [left|right]; congruence).
        destruct Hd as [Hd|Hd]; [exact Hd|exfalso].
        eapply not_nullified; [|exact Hnv|exact Hd|exact H].
        eapply everywhere_top, everywhere_sub; eauto. }
      apply (Hsub g) in H; [|exact Hg].
      exists (g, conforms E n g). split; [|exact H].
      apply in_map_iff. exists g. auto.
Qed.

(** @example
(* The result of unserializing a nested document conforms to the schema; [conforms] is not trivial:
   it refuses other values. *)
Example C31_example :
  let f := Fld p0 (KStructure (SPlain [($"a", Fld p_req (KInteger (Some 1%Z) None));
                                       ($"b", Fld p_nn (KSequence (Fld p_nn (KText None None None true)) None None true))])
                              true None) in
  run0 f Inbound true (VDict false [(VStr $"b", VList [VStr $" x "; VStr $"y"]); (VStr $"a", VStr $"7")])
  = Ok (VDict false [(VStr $"a", VInt 7); (VStr $"b", VList [VStr $"x"; VStr $"y"])])
  /\ throughout env0 well_keyed f
  /\ ~ conforms env0 5 f (VDict false [(VStr $"a", VInt 0)]).
Proof.
  split; [reflexivity|]. split.
  - split; [|discriminate]. constructor.
    + cbn. split; [|exact I]. repeat constructor; cbn; intuition discriminate.
    + intros g [<-|[<-|[]]]; constructor; [exact I|intros ? []|exact I|].
      intros ? [<-|[]]. constructor; [exact I|intros ? []].
  - intros [[H _]|[_ [l [H [_ [Hc _]]]]]]; [discriminate|]. injection H as <-.
    destruct (Hc $"a" (VInt 0) (or_introl eq_refl)) as [c [[Hin|[Hin|[]]] Hx]]; [|discriminate].
    injection Hin as <-. destruct Hx as [[H _]|[_ [[z [Hz [H _]]] _]]]; [discriminate|].
    injection Hz as <-. specialize (H 1%Z eq_refl). lia.
Qed.
@end *)

(** ** Completeness *)

Section Complete.
Variable E : env.
Notation L := (e_local E).

Definition child_complete (c : child) (P : val -> Prop) : Prop :=
  forall anc v, P v -> snd c Inbound false anc v = Ok v.

Lemma wrap_of_Ok f r v : r = Ok v -> wrap_undef E f r = Ok v.
Proof. intros ->. reflexivity. Qed.

Lemma seq_loop_complete (c : child) P anc i l :
  child_complete c P -> Forall P l -> seq_loop E c Inbound false anc i l = Ok (l, true).
Proof.
  intros Hc H. revert i. induction H as [|x l Hx Hl IH]; intros i; cbn [seq_loop]; [reflexivity|].
  rewrite (wrap_of_Ok _ _ x) by (apply Hc, Hx). cbn [collect bind]. rewrite IH. reflexivity.
Qed.

Lemma seq_complete p (c : child) mn mx u anc v P :
  p_preprocessor p = None -> child_complete c P ->
  conf_body E p (KSequence (fst c, P) mn mx u) v ->
  process_sequence E p c mn mx u Inbound false anc v = Ok v.
Proof.
  intros Hp Hc [[-> Hnn]|[Hv [l [-> [H1 [H2 [Hl Hu]]]]]]]; unfold process_sequence.
  - rewrite is_null_none, Hnn. reflexivity.
  - rewrite is_null_some by discriminate. cbn [bind]. unfold pre_raw. rewrite Hp. cbn [bind py_iter].
    apply below_false in H1. apply above_false in H2. rewrite zlen_length, H1, H2.
    rewrite (seq_loop_complete c P) by assumption. cbn [bind fst snd negb].
    destruct u; [|reflexivity]. destruct (Hu eq_refl) as [Hh Hd].
    assert (Hh' : forallb hashable l = true) by (apply forallb_forall; rewrite Forall_forall in Hh; exact Hh).
    apply has_dup_false in Hd. rewrite Hh', Hd. reflexivity.
Qed.

Lemma tuple_loop_complete (cs : list child) Ps anc pre l :
  Forall2 child_complete cs Ps -> Forall2 (fun (P : val -> Prop) x => P x) Ps l ->
  tuple_loop E cs Inbound false anc (length pre) (VTuple (pre ++ l)) = Ok (l, true).
Proof.
  intros Hcs. revert pre l. induction Hcs as [|c P cs Ps Hc Hcs IH]; intros pre l Hl; inversion Hl as [|? x ? l' Hx Hl']; subst; cbn [tuple_loop]; [reflexivity|].
  cbn [py_index py_iter]. rewrite nth_error_app2 by lia. rewrite Nat.sub_diag. cbn [nth_error bind].
  rewrite (wrap_of_Ok _ _ x) by (apply Hc, Hx). cbn [collect bind].
  specialize (IH (pre ++ [x]) l' Hl'). rewrite app_length, <- app_assoc in IH. cbn [length app] in IH.
  rewrite Nat.add_1_r in IH. rewrite IH. reflexivity.
Qed.

Lemma tuple_complete p (cs : list child) Ps anc v :
  p_preprocessor p = None -> Forall2 child_complete cs Ps ->
  conf_body E p (KTuple (combine (map fst cs) Ps)) v ->
  process_tuple E p cs Inbound false anc v = Ok v.
Proof.
  intros Hp Hc [[-> Hnn]|[Hv [l [-> Hl]]]]; unfold process_tuple.
  - rewrite is_null_none, Hnn. reflexivity.
  - rewrite is_null_some by discriminate. cbn [bind]. unfold pre_raw. rewrite Hp. cbn [bind py_iter].
    assert (Hl' : Forall2 (fun (P : val -> Prop) x => P x) Ps l).
    { clear - Hc Hl. revert l Hl. induction Hc as [|c P cs Ps Hc Hcs IH]; intros l Hl; inversion Hl; subst; constructor; auto. }
    assert (Hlen : length l = length cs).
    { apply Forall2_length in Hc. apply Forall2_length in Hl'. congruence. }
    rewrite Hlen, Nat.eqb_refl.
    assert (Ht := tuple_loop_complete cs Ps anc [] l Hc Hl'). cbn [length app] in Ht. rewrite Ht. reflexivity.
Qed.

Lemma map_loop_complete (cv : child) (ck : option child) Pv (Pk : option cchild) anc l acc :
  child_complete cv Pv ->
  (match ck, Pk with Some c, Some P => child_complete c (snd P) | None, None => True | _, _ => False end) ->
  Forall (fun kv => match Pk with Some c => snd c (fst kv) | None => exists s, fst kv = VStr s end
                    /\ hashable (fst kv) = true /\ percent_s E (fst kv) <> None /\ Pv (snd kv)) l ->
  map_loop E cv ck Inbound false anc l acc true = Ok (set_all L l acc, true).
Proof.
  intros Hcv Hck H. rewrite map_loop_traverse.
  assert (Ht : traverse (map_step E cv ck Inbound false anc) l = Ok (map (fun kv => (kv, true)) l)).
  { apply traverse_ok. induction H as [|[k v] l Hx Hl IH]; cbn [map]; constructor; [|exact IH].
    cbn [fst snd] in Hx. destruct Hx as [Hk [Hh [Hp Hv]]]. unfold map_step. cbn [fst snd].
    rewrite !key_seg_percent. destruct (percent_s E k) as [s|] eqn:Hs; [|congruence]. cbn [bind].
    assert (Hkk : match ck with
              | Some c => match snd c Inbound false (anc ++ [key_segment s]) k with
                          | Raise (XErr _) => verr anc $"invalidkeys" | r => r end
              | None => match k with VStr _ => Ok k | _ => verr anc $"invalidkeys" end
              end = Ok k).
    { destruct ck as [c|], Pk as [P|]; try contradiction.
      - rewrite (Hck _ _ Hk). reflexivity.
      - destruct Hk as [s' ->]. reflexivity. }
    rewrite Hkk. cbn [bind]. rewrite key_seg_percent, Hs. cbn [bind].
    rewrite (wrap_of_Ok _ _ v) by (apply Hcv, Hv). cbn [collect bind]. rewrite Hh. reflexivity. }
  rewrite Ht. cbn [bind]. rewrite map_map. cbn [fst]. rewrite map_id. f_equal. f_equal.
  cbn [andb]. apply forallb_forall. intros x Hx. apply in_map_iff in Hx. destruct Hx as [kv [<- _]]. reflexivity.
Qed.

Lemma map_required_complete anc req acc :
  Forall (fun x => hashable x = true) req ->
  (forall x, In x req -> exists kv, In kv acc /\ veq L (fst kv) x = true) ->
  map_required E anc req acc true = Ok (acc, true).
Proof.
  induction req as [|x req IH]; intros Hh H; cbn [map_required]; [reflexivity|].
  inversion Hh as [|? ? Hx Hreq]; subst. rewrite Hx.
  assert (Hm : dmem L x acc = true).
  { rewrite dmem_keys. destruct (H x (or_introl eq_refl)) as [kv [H1 H2]].
    apply existsb_exists. exists (fst kv). split; [apply in_map, H1|exact H2]. }
  rewrite Hm. apply IH; [exact Hreq|]. intros y Hy. apply H. right. exact Hy.
Qed.

Lemma map_complete p (cv : child) (ck : option child) req Pv (Pk : option cchild) anc v :
  p_preprocessor p = None -> child_complete cv Pv ->
  (match ck, Pk with Some c, Some P => child_complete c (snd P) | None, None => True | _, _ => False end) ->
  (forall l, req = Some l -> Forall (fun x => hashable x = true) l) ->
  conf_body E p (KMap (fst cv, Pv) Pk req) v ->
  process_map E p cv ck req Inbound false anc v = Ok v.
Proof.
  intros Hp Hcv Hck Hreqh [[-> Hnn]|[Hv [l [-> [Hd [Hl Hreq]]]]]]; unfold process_map.
  - rewrite is_null_none, Hnn. reflexivity.
  - rewrite is_null_some by discriminate. cbn [bind as_dict]. unfold pre_raw. rewrite Hp. cbn [bind as_dict].
    rewrite (map_loop_complete cv ck Pv Pk) by assumption. cbn [bind fst snd].
    rewrite set_all_new by exact Hd. cbn [app].
    destruct req as [r|]; cbn [bind fst snd]; [|reflexivity].
    rewrite map_required_complete; [reflexivity|auto|]. intros x Hx. eapply Hreq; eauto.
Qed.

Definition defn_complete (defn : list (str * child)) (cdefn : list (str * cchild)) : Prop :=
  Forall2 (fun a b => fst a = fst b /\ fst (snd a) = fst (snd b) /\ child_complete (snd a) (snd (snd b))
                      /\ (forall q, fparams E (fst (snd a)) = Some q -> p_ignore_null q = false)
                      /\ (fparams E (fst (snd a)) = None -> forall v, ~ (snd (snd b) : val -> Prop) v)) defn cdefn.

Lemma sublist_In {A} (l m : list A) x : sublist l m -> In x l -> In x m.
Proof.
  intros H. induction H; intros Hx; [exact Hx|right; auto|].
  destruct Hx as [<-|Hx]; [left; reflexivity|right; auto].
Qed.

Lemma sublist_NoDup {A} (l m : list A) : sublist l m -> NoDup m -> NoDup l.
Proof.
  intros H. induction H; intros Hn; [exact Hn| |]; inversion Hn; subst; auto.
  constructor; auto. intros Hx. eapply sublist_In in Hx; eauto.
Qed.

Lemma sget_NoDup k v (l : list (val * val)) :
  NoDup (map fst l) -> In (VStr k, v) l -> sget k l = Some v.
Proof.
  induction l as [|[k' v'] l IH]; cbn [map fst]; intros Hn Hin; [destruct Hin|].
  inversion Hn as [|? ? Hnin Hn']; subst. destruct Hin as [Heq|Hin].
  - injection Heq as -> ->. cbn. rewrite str_eqb_refl. reflexivity.
  - cbn. destruct k'; auto. destruct (str_eqb_spec k s) as [<-|]; [|auto].
    exfalso. apply Hnin. apply (in_map fst) in Hin. exact Hin.
Qed.

(** The steps of the structure rebuild the entries. *)
Lemma kept_rebuild (f : str -> res (option (val * bool))) order l :
  NoDup order -> sublist (map fst l) (map VStr order) ->
  (forall k, In k order -> f k = Ok (option_map (fun y => (y, true)) (sget k l))) ->
  exists rs, traverse f order = Ok rs /\ kept order rs = l /\ fine rs = true.
Proof.
  revert l. induction order as [|k order IH]; intros l Hnd Hsub Hf.
  - cbn in Hsub. inversion Hsub as [Hl| |]. destruct l; [|discriminate]. exists []. auto.
  - inversion Hnd as [|? ? Hnin Hnd']; subst. cbn [map] in Hsub. inversion Hsub as [|? ? ? Hs|? l' ? Hs Hl]; subst.
    + assert (Hg : sget k l = None).
      { apply sget_None. intros v Hin. apply (in_map fst) in Hin. eapply sublist_In in Hin; [|exact Hs].
        apply in_map_iff in Hin. destruct Hin as [k' [Hk Hin]]. injection Hk as ->. contradiction. }
      destruct (IH l Hnd' Hs) as [rs [H1 [H2 H3]]]; [intros k' Hk'; apply Hf; right; exact Hk'|].
      exists (None :: rs). cbn [traverse]. rewrite (Hf k) by (left; reflexivity). rewrite Hg. cbn [option_map bind].
      rewrite H1. cbn [bind]. split; [reflexivity|]. split; [exact H2|exact H3].
    + destruct l as [|[k' y] l]; [discriminate|]. cbn [map fst] in Hl. injection Hl as Hk1 Hk2. subst k' l'.
      destruct (IH l Hnd' Hs) as [rs [H1 [H2 H3]]].
      { intros k' Hk'. rewrite Hf by (right; exact Hk'). cbn [sget].
        destruct (str_eqb_spec k' k) as [->|]; [contradiction|reflexivity]. }
      exists (Some (y, true) :: rs). cbn [traverse]. rewrite (Hf k) by (left; reflexivity).
      cbn [sget]. rewrite str_eqb_refl. cbn [option_map bind]. rewrite H1. cbn [bind].
      split; [reflexivity|]. split; [|exact H3]. unfold kept. cbn [combine flat_map snd fst app].
      f_equal. exact H2.
Qed.

Lemma struct_run_complete defn cdefn strict ko identity anc l :
  defn_complete defn cdefn -> NoDup (map fst defn) ->
  match ko with Some o => NoDup o /\ incl o (map fst defn) | None => True end ->
  (ko <> None -> identity = VNone) ->
  struct_conf E cdefn ko l ->
  struct_run E defn strict ko identity false Inbound false anc l = Ok (VDict (has_order ko) l).
Proof.
  intros Hdefn Hnd Hko Hid [Hsub [Hent Habs]].
  assert (Hkeys : map fst defn = map fst cdefn).
  { clear - Hdefn. induction Hdefn as [|a b defn cdefn [H1 _] _ IH]; [reflexivity|]. cbn [map]. f_equal; assumption. }
  rewrite <- Hkeys in Hsub, Habs. unfold struct_run.
  set (order := match ko with Some (k :: ks) => k :: ks | _ => map fst defn end) in *.
  assert (Ho : match ko with Some (o :: os) => poly_order (o :: os) identity | _ => Ok (map fst defn) end = Ok order).
  { unfold order. destruct ko as [[|o os]|]; try reflexivity. rewrite Hid by discriminate. reflexivity. }
  rewrite Ho. cbn [bind].
  assert (Hndo : NoDup order /\ incl order (map fst defn)).
  { unfold order. destruct ko as [[|o os]|]; [split; [exact Hnd|apply incl_refl]|exact Hko|split; [exact Hnd|apply incl_refl]]. }
  destruct Hndo as [Hndo Hincl].
  assert (Hndv : NoDup (map VStr order)).
  { apply Injective_map_NoDup; [|exact Hndo]. intros a b [= H]. exact H. }
  assert (Hndl : NoDup (map fst l)) by (eapply sublist_NoDup; eauto).
  rewrite struct_loop_traverse; [|exact Hndo|intros; apply kmem_sget|reflexivity].
  destruct (kept_rebuild (sstep E defn l false Inbound false anc) order l Hndo Hsub) as [rs [H1 [H2 H3]]].
  - intros k Hk. unfold sstep.
    assert (Hd : exists c b, aget k defn = Some c /\ In (k, b) cdefn /\ fst c = fst b /\ child_complete c (snd b)
                   /\ (forall q, fparams E (fst c) = Some q -> p_ignore_null q = false)
                   /\ (fparams E (fst c) = None -> forall v, ~ (snd b : val -> Prop) v)).
    { apply Hincl in Hk. clear - Hdefn Hk. induction Hdefn as [|[k1 c1] [k2 c2] defn cdefn [G1 [G2 [G3 [G4 G5]]]] Hrest IH]; [destruct Hk|].
      cbn in G1, G2, G3, G4, G5. subst k2. cbn [aget]. destruct (str_eqb_spec k k1) as [<-|Hne].
      - exists c1, c2. repeat split; auto. left. reflexivity.
      - cbn [map fst] in Hk. destruct Hk as [Hk|Hk]; [congruence|].
        destruct (IH Hk) as [c [b [J1 [J2 J3]]]]. exists c, b. split; [exact J1|]. split; [right; exact J2|exact J3]. }
    destruct Hd as [c [b [Hg [Hb [Hfc [Hcc [Hig Hno]]]]]]]. rewrite Hg.
    destruct (sget k l) as [y|] eqn:Hs; cbn [decide bind option_map].
    + apply sget_In in Hs. destruct (Hent k y Hs) as [b' [Hb' Hy]].
      assert (Hbb : b' = b).
      { rewrite Hkeys in Hnd. apply aget_NoDup_In in Hb; [|exact Hnd]. apply aget_NoDup_In in Hb'; [|exact Hnd]. congruence. }
      subst b'. assert (Hrun : forall a, snd c Inbound false a y = Ok y) by (intros a; apply Hcc, Hy).
      destruct (fparams E (fst c)) as [q|] eqn:Hq.
      * rewrite (Hig q eq_refl). cbn [andb]. rewrite (wrap_of_Ok _ _ y) by apply Hrun. reflexivity.
      * exfalso. exact (Hno eq_refl y Hy).
    + assert (Hn : ~ In (VStr k) (map fst l)).
      { intros Hx. apply in_map_iff in Hx. destruct Hx as [[k' v'] [Hkk Hx]]. cbn in Hkk. subst k'.
        exact (proj1 (sget_None k l) Hs v' Hx). }
      destruct (Habs k b Hk Hb Hn) as [q [Hq Hor]]. rewrite <- Hfc in Hq. apply defined_fparams in Hq.
      rewrite Hq. rewrite (Hig q Hq) in Hor. destruct Hor as [Hx|[Hr Hdn]]; [discriminate|].
      rewrite Hdn, Hr. reflexivity.
  - rewrite H1. cbn [bind app]. rewrite H2, H3. cbn [andb].
    assert (Hnames : fold_left (fun ns k => kdel k ns) order (map fst l) = []).
    { destruct (fold_left _ order _) as [|x xs] eqn:Hx; [reflexivity|exfalso].
      assert (Hin : In x (fold_left (fun ns k => kdel k ns) order (map fst l))) by (rewrite Hx; left; reflexivity).
      apply kdel_all in Hin. destruct Hin as [Hin Hne]. eapply sublist_In in Hin; [|exact Hsub].
      apply in_map_iff in Hin. destruct Hin as [k [<- Hk]]. exact (Hne k Hk eq_refl). }
    rewrite Hnames. cbn. rewrite orb_true_r. destruct strict; reflexivity.
Qed.

End Complete.

(** ** Unions *)

Lemma conforms_type E n p k v : conforms E n (Fld p k) v -> v <> VNone -> native_type E k v.
Proof.
  intros H Hv. rewrite conforms_Fld in H. destruct H as [[Hn _]|[_ H]]; [contradiction|].
  destruct k; cbn [kmap] in H; cbn [native_type]; try exact I;
    try (destruct H as [l [-> _]]; eauto; fail);
    try (destruct H as [[x [-> _]] _]; eauto; fail).
  all: cbn [scalar_conf] in H.
  all: try (destruct H as [H _]; destruct v; try contradiction; eauto; fail).
  all: try (destruct H as [[x [y [-> _]]] _]; eauto; fail).
  all: try (destruct H as [[x [y [z [w [-> _]]]]] _]; eauto; fail).
  all: try (destruct H as [H _]; exact H).
  destruct H as [[[d [-> _]]|[[dt ->] _]] _]; eauto.
  destruct d; cbn [sdef_map] in H.
  - destruct H as [l0 [-> _]]; eauto.
  - destruct H as [l0 [name [q [y [vk [d [-> _]]]]]]]. eauto.
Qed.

Lemma vmem_no_num L v l : Forall (fun x => is_num x = false) l -> exists b, vmem_r L v l = Ok b.
Proof.
  induction 1 as [|x l Hx Hl IH]; cbn [vmem_r]; [eauto|].
  unfold veq_r. assert (Hs : snan_val x = false) by (destruct x; try discriminate Hx; reflexivity).
  rewrite Hs, Hx, andb_false_r. cbn [andb orb bind]. destruct (veq L x v); eauto.
Qed.

Definition by_type (r : res val) : Prop := exists e, r = Raise (XErr e) /\ er_cls e = CInvalidType.

Lemma refused_by_type E desc recon n p k ph ser anc v :
  ser && phase_eqb ph Inbound = false -> p_preprocessor p = None -> p_constant p = VNone -> ~ may_nullify (Fld p k) -> v <> VNone ->
  match k with KEnumeration _ _ => False | _ => True end -> ~ input_type E k v ->
  by_type (process_gen E desc recon n (Fld p k) false ph ser anc v).
Proof.
  intros Hnat Hp Hc Hm Hv Hk Ht. rewrite process_Fld. unfold process_body.
  set (path := match anc with [] => _ | _ => _ end). clearbody path. unfold by_type.
  assert (Hnot : ~ native_type E k v) by (intros H; apply Ht; left; exact H).
  destruct k; cbn [kmap]; try contradiction; try (exfalso; apply Hnot; exact I).
  all: try (unfold process_scalar, preprocess; rewrite is_null_some by exact Hv; rewrite Hnat, Hp, Hc; cbn [bind andb is_none negb validate_value]).
  all: try (destruct v; try (eexists; split; reflexivity);
            exfalso; apply Hnot; cbn [native_type]; eauto; fail).
  - destruct extended; cbn [bind]; destruct v; try (eexists; split; reflexivity); exfalso; apply Hnot; cbn [native_type]; eauto.
  - unfold process_map. rewrite is_null_some by exact Hv. cbn [bind].
    destruct v; try (eexists; split; reflexivity); exfalso; apply Ht; [left|right]; cbn [native_type]; eauto.
  - unfold process_sequence. rewrite is_null_some by exact Hv. cbn [bind].
    destruct v; try (eexists; split; reflexivity); exfalso; apply Hnot; cbn [native_type]; eauto.
  - unfold process_structure. rewrite is_null_some by exact Hv. cbn [bind].
    destruct v; try (eexists; split; reflexivity); exfalso; apply Ht; [left|right]; cbn [native_type]; eauto.
  - unfold process_tuple. rewrite is_null_some by exact Hv. cbn [bind].
    destruct v; try (eexists; split; reflexivity); exfalso; apply Ht; [right|left]; cbn [native_type]; eauto.
Qed.

(** Whether natively, serializing or, where that is all the same, unserializing. *)
Lemma decided E desc recon n p k anc v :
  p_preprocessor p = None -> p_constant p = VNone -> v <> VNone -> decisive k ->
  process_gen E desc recon n (Fld p k) false Inbound false anc v = Ok v
  \/ by_type (process_gen E desc recon n (Fld p k) false Inbound false anc v)
     /\ (forall anc, by_type (process_gen E desc recon n (Fld p k) false Outbound true anc v))
     /\ match k with
        | KBoolean | KUUID | KToken None | KText None None None false | KEnumeration _ None =>
            forall anc, by_type (process_gen E desc recon n (Fld p k) false Inbound true anc v)
        | _ => True
        end.
Proof.
  intros Hp Hc Hv Hd.
  Ltac step Hp Hc Hv := rewrite process_Fld; unfold process_body; cbn [kmap];
    unfold process_scalar, preprocess; cbn [kind_ignored]; rewrite is_null_some by exact Hv; rewrite Hp, Hc;
    cbn [bind andb is_none negb validate_value phase_eqb unserialize_value].
  Ltac refuse Hp Hc Hv := right; split; [step Hp Hc Hv; eexists; split; reflexivity|];
    split; [|try exact I]; intros; step Hp Hc Hv; eexists; split; reflexivity.
  destruct k; cbn [decisive] in Hd; try contradiction.
  all: repeat match type of Hd with context [match ?x with _ => _ end] => destruct x; try contradiction end.
  all: try (destruct v; first [refuse Hp Hc Hv | left; step Hp Hc Hv; reflexivity]; fail).
  - match type of Hd with Forall _ ?l => destruct (vmem_no_num (e_local E) v l Hd) as [b Hb] end.
    destruct b; [left; step Hp Hc Hv; rewrite Hb; reflexivity|].
    right. split; [|split]; intros; step Hp Hc Hv; rewrite Hb; eexists; split; reflexivity.
  - destruct v; try (refuse Hp Hc Hv; fail).
    destruct (rmatch_dollar (token_re (e_uword E)) s) eqn:Hb; [left; step Hp Hc Hv; rewrite Hb; reflexivity|].
    right. split; [|split]; intros; step Hp Hc Hv; rewrite Hb; eexists; split; reflexivity.
  - destruct v; try (refuse Hp Hc Hv; fail).
    destruct (rmatch_dollar uuid_re s) eqn:Hb; [left; step Hp Hc Hv; rewrite Hb; reflexivity|].
    right. split; [|split]; intros; step Hp Hc Hv; rewrite Hb; eexists; split; reflexivity.
Qed.

Lemma decided_conforms E desc recon n p k anc v :
  p_preprocessor p = None -> decisive k ->
  process_gen E desc recon n (Fld p k) false Inbound false anc v = Ok v -> conforms E n (Fld p k) v.
Proof.
  intros Hp Hd H. rewrite process_Fld in H. unfold process_body in H. rewrite conforms_Fld.
  set (path := match anc with [] => _ | _ => _ end) in H. clearbody path.
  assert (Hscal : is_structural k = false -> forall ser_v,
            process_scalar E p k (unserialize_value E recon k) ser_v Inbound false path v = Ok v -> scalar_clause E p k v).
  { intros Hk ser_v Hx. eapply scalar_sound; [exact Hk| | | |exact Hx].
    - congruence.
    - apply unser_nonnull. intros ->. destruct Hd.
    - intros l Hl a w x. destruct k; try discriminate Hl. intros [= <-]. reflexivity. }
  destruct k; try contradiction; cbn [kmap] in H |- *; match type of H with process_scalar _ _ _ _ ?sv _ _ _ _ = _ => exact (Hscal eq_refl sv H) end.
Qed.

(** ** C32 *)

(** @prop C32 Completeness: in a schema without preprocessors, ignored nulls, constants on fields that
    normalise, and unions of which an earlier alternative stands in the way of a later one, every conforming native value is accepted, at any nesting, and returned unchanged. *)
Lemma process_complete_partial :
  forall E desc recon n f anc v,
    throughout E well_keyed f -> throughout E (tidy E) f ->
    conforms E n f v ->
    process_gen E desc recon n f false Inbound false anc v = Ok v.
Proof.
  intros E desc recon n f anc v [Hf Hu] [Ht Htu]. revert f Hf Ht anc v.
  induction n as [n IHn] using lt_wf_ind.
  intros f. induction f as [i|p k IH] using field_ind'; intros Hf Ht anc v H.
  - rewrite conforms_FUndef in H. rewrite process_FUndef. destruct (e_undef E i) as [[|q k]|] eqn:He; try contradiction.
    destruct n as [|m]; [contradiction|]. apply IHn; [lia|eapply Hu, He|eapply Htu, He|exact H].
  - rewrite conforms_Fld in H. rewrite process_Fld. unfold process_body.
    set (path := match anc with [] => _ | _ => _ end). clearbody path.
    assert (Hsub : forall g, In g (subfields k) ->
              child_complete (g, process_gen E desc recon n g false) (conforms E n g)).
    { intros g Hg anc' v'. cbn [snd]. apply (IH g Hg); eapply everywhere_sub; eauto. }
    assert (Htidy := everywhere_top _ _ _ Ht). assert (Hwk := everywhere_top _ _ _ Hf).
    destruct Htidy as [Hp [_ [Hnc Hkind]]].
    assert (Hscal : is_structural k = false ->
              scalar_clause E p k v ->
              forall unser ser_v, process_scalar E p k unser ser_v Inbound false path v = Ok v).
    { intros Hk Hs unser ser_v. apply scalar_complete; auto.
      destruct k; try exact I; [exact Hkind|].
      split; [intros x Hx; apply Hkind; left; exact Hx|].
      intros l' -> x Hx. apply Hkind. right. exact Hx. }
    assert (Hchild : forall d : list (str * field), (forall kf, In kf d -> In (snd kf) (subfields k)) ->
      defn_complete E (map (fun kf => (fst kf, (snd kf, process_gen E desc recon n (snd kf) false))) d)
                      (map (fun kf => (fst kf, (snd kf, conforms E n (snd kf)))) d)).
    { intros d Hd. unfold defn_complete. induction d as [|kf d IHd]; cbn [map]; constructor.
      - cbn [fst snd]. assert (Hkf := Hd kf (or_introl eq_refl)).
        split; [reflexivity|]. split; [reflexivity|]. split; [exact (Hsub _ Hkf)|].
        assert (Hev := everywhere_sub _ _ _ _ Ht Hkf). split.
        + intros q Hq. destruct (snd kf) as [i|q' k'] eqn:Hs.
          * cbn in Hq. destruct (e_undef E i) as [[|q' k']|] eqn:He; try discriminate. injection Hq as <-.
            assert (Ht' := everywhere_top _ _ _ (Htu _ _ He)). apply Ht'.
          * injection Hq as <-. assert (Ht' := everywhere_top _ _ _ Hev). apply Ht'.
        + intros Hq w Hw. destruct (snd kf) as [i|q' k'] eqn:Hs; [|discriminate].
          rewrite conforms_FUndef in Hw. cbn in Hq. destruct (e_undef E i) as [[|q' k']|]; try contradiction. discriminate.
      - apply IHd. intros kf' Hkf'. apply Hd. right. exact Hkf'. }
    destruct k; cbn [kmap] in H |- *.
    all: try (apply Hscal; [reflexivity|exact H]).
    + (* map *)
      assert (Hv : In value (subfields (KMap value key required_keys : kind)))
        by (destruct key; left; reflexivity).
      apply (map_complete E p _ _ _ (conforms E n value) (option_map (fun g => (g, conforms E n g)) key)).
      * exact Hp.
      * exact (Hsub value Hv).
      * destruct key as [kf|]; cbn [option_map]; [|exact I]. apply (Hsub kf). right. left. reflexivity.
      * intros l ->. exact Hkind.
      * exact H.
    + (* sequence *)
      apply (seq_complete E p _ _ _ _ _ _ (conforms E n item)); [exact Hp| |exact H].
      apply Hsub. left. reflexivity.
    + (* structure *)
      destruct H as [[-> Hnn]|[Hv H]]; unfold process_structure; [rewrite is_null_none, Hnn; reflexivity|].
      rewrite is_null_some by exact Hv. cbn [bind]. unfold pre_raw. rewrite Hp. cbn [bind].
      cbn [well_keyed] in Hwk. destruct d as [d|on vs]; cbn [sdef_map] in H |- *.
      * destruct H as [l [-> Hc]]. cbn [as_dict]. destruct Hwk as [Hnd Hko].
        apply (struct_run_complete E _ (map (fun kf => (fst kf, (snd kf, conforms E n (snd kf)))) d)).
        -- apply Hchild. intros kf Hkf. cbn [subfields sdef_fields]. apply in_map, Hkf.
        -- rewrite map_map. exact Hnd.
        -- rewrite map_map. exact Hko.
        -- reflexivity.
        -- exact Hc.
      * destruct H as [l [name [q [y [vk [d [-> [Hq [Hname [Hin [Hyn [Hy [Hh [Hfind Hc]]]]]]]]]]]]]].
        destruct Hwk as [-> [q' [kd [name' [-> [Hname' [Hb [Hkig Hvs]]]]]]]]. cbn [as_dict fst fparams].
        cbn in Hq. subst q'. rewrite Hname in Hname'. injection Hname' as <-. rewrite Hname.
        rewrite (find_map_snd (fun a => veq (e_local E) a y)) in Hfind.
        destruct (find (fun vd => veq (e_local E) (fst vd) y) vs) as [[vk' d']|] eqn:Hf'; [|discriminate].
        cbn [option_map fst snd] in Hfind. injection Hfind as <- <-.
        apply find_some in Hf' as Hfs. destruct Hfs as [Hin_vs _].
        rewrite Forall_forall in Hvs. destruct (Hvs _ Hin_vs) as [Hnd Hdisc]. cbn [fst snd] in Hnd, Hdisc.
        assert (Hget : sget name l = Some y).
        { apply sget_NoDup; [|exact Hin]. destruct Hc as [Hsl _]. eapply sublist_NoDup; [exact Hsl|].
          apply Injective_map_NoDup; [intros a b [= Hab]; exact Hab|]. cbn beta iota. rewrite map_map. exact Hnd. }
        rewrite Hget.
        assert (Hon : forall a, process_gen E desc recon n (Fld q kd) false Inbound false a y = Ok y).
        { intros a. apply (Hsub (Fld q kd)); [left; reflexivity|exact Hy]. }
        assert (Hgoal : (do ident' <- process_gen E desc recon n (Fld q kd) false Inbound false (path ++ [$"." ++ name]) y;
                   if hashable ident' then
                     match find (fun vd => veq (e_local E) (fst vd) ident')
                             (map (fun vl => (fst vl, map (fun kf => (fst kf, (snd kf, process_gen E desc recon n (snd kf) false))) (snd vl))) vs) with
                     | Some (_, (kf :: rest)) => struct_run E (kf :: rest) strict None ident' false Inbound false path l
                     | _ => verr path $"unrecognized"
                     end
                   else py TypeError) = Ok (VDict false l)).
        { rewrite Hon. cbn [bind]. rewrite Hh.
          rewrite (find_map_snd (fun a => veq (e_local E) a y)), Hf'. cbn [option_map fst snd].
          assert (Hrun : struct_run E (map (fun kf => (fst kf, (snd kf, process_gen E desc recon n (snd kf) false))) d')
                           strict None y false Inbound false path l = Ok (VDict false l)).
          { apply (struct_run_complete E _ (map (fun kf => (fst kf, (snd kf, conforms E n (snd kf)))) d') strict None).
            - apply Hchild. intros kf Hkf. cbn [subfields sdef_fields]. right. apply in_flat_map. exists (vk', d').
              split; [exact Hin_vs|]. apply in_map, Hkf.
            - rewrite map_map. exact Hnd.
            - exact I.
            - congruence.
            - exact Hc. }
          destruct d' as [|kf d']; [destruct Hdisc|]. exact Hrun. }
        cbn [snd]. destruct y; try congruence; exact Hgoal.
    + (* tuple *)
      apply (tuple_complete E p _ (map (fun g => conforms E n g) values)).
      * exact Hp.
      * assert (Hs : forall g, In g values -> child_complete (g, process_gen E desc recon n g false) (conforms E n g))
          by (intros g Hg; apply Hsub, Hg).
        clear - Hs. induction values as [|g gs IHg]; cbn; constructor; [apply Hs; left; reflexivity|].
        apply IHg. intros g' Hg'. apply Hs. right. exact Hg'.
      * rewrite map_map. cbn [fst]. rewrite map_id, combine_map_r. exact H.
    + (* union *)
      destruct Hkind as [Hmn Hpass].
      destruct H as [[-> Hnn]|[Hv H]]; unfold process_union; [rewrite is_null_none, Hnn; reflexivity|].
      assert (Hvn : v <> VNone).
      { intros Hx. destruct (Hv Hx) as [c [Hc Hm]]. apply in_map_iff in Hc. destruct Hc as [g [<- Hg]].
        rewrite Forall_forall in Hmn. exact (Hmn g Hg Hm). }
      rewrite is_null_some by exact Hvn. cbn [bind].
      destruct H as [c [Hc Hx]]. apply in_map_iff in Hc. destruct Hc as [g [<- Hg]]. cbn [snd] in Hx.
      cbn [subfields] in Hsub.
      assert (Htd : forall q k, In (Fld q k) fields -> p_preprocessor q = None).
      { intros q k Hin. assert (Hev := everywhere_sub _ _ _ _ Ht Hin). apply everywhere_top in Hev. apply Hev. }
      clear - Hmn Hpass Hsub Hg Hx Hvn Htd.
      induction fields as [|f fs IHf]; [destruct Hg|]. cbn [map union_loop fst snd].
      inversion Hmn as [|? ? Hm1 Hm2]; subst. inversion Hpass as [|? ? Hp1 Hp2]; subst.
      destruct Hg as [->|Hg].
      * assert (Hok := Hsub g (or_introl eq_refl) path v Hx). cbn [snd] in Hok. rewrite Hok. reflexivity.
      * rewrite Forall_forall in Hp1. specialize (Hp1 g Hg). destruct f as [i|q k]; [contradiction|].
        destruct g as [i|q' k']; [contradiction|]. destruct Hp1 as [Hcn Hdec].
        assert (Hpre := Htd q k (or_introl eq_refl)).
        assert (Hor : process_gen E desc recon n (Fld q k) false Inbound false path v = Ok v
                      \/ by_type (process_gen E desc recon n (Fld q k) false Inbound false path v)).
        { destruct Hdec as [Hdec|[He Hdis]]; [edestruct decided as [Hd|[Hd _]]; eauto|].
          right. apply refused_by_type; auto. intros Hin. eapply Hdis; [exact Hin|]. eapply conforms_type; eauto. }
        destruct Hor as [-> | [e [-> He]]]; [reflexivity|]. cbn [wrap_undef]. rewrite He.
        apply IHf; auto; [intros; apply Hsub; right; assumption|intros q0 k0 Hin; eapply Htd; right; exact Hin].
Qed.

(** @example
(* A document with an optional key left out and a null where null is allowed. *)
Example C32_example :
  let f := Fld p0 (KStructure (SPlain [($"a", Fld p_req (KInteger (Some 1%Z) None));
                                       ($"b", Fld p0 (KSequence (Fld p0 (KText None None None true)) None None false));
                                       ($"c", Fld p0 KBoolean)]) true None) in
  let v := VDict false [(VStr $"a", VInt 3); (VStr $"b", VList [VStr $"x"; VNone])] in
  throughout env0 well_keyed f /\ throughout env0 (tidy env0) f /\ conforms env0 0 f v
  /\ run0 f Inbound false v = Ok v.
Proof.
  assert (Hst : stripped $"x" $"x").
  { exists [], []. rewrite app_nil_r. cbn [app]. split; [reflexivity|]. split; [constructor|]. split; [constructor|].
    split; [intros c r [= <- _]; reflexivity|]. intros c r H. destruct r as [|x [|]]; try discriminate.
    injection H as <-. reflexivity. }
  repeat split; try discriminate.
  - constructor.
    + cbn. split; [|exact I]. repeat constructor; cbn; intuition discriminate.
    + intros g [<-|[<-|[<-|[]]]]; constructor; [exact I|intros ? []|exact I| |exact I|intros ? []].
      intros ? [<-|[]]. constructor; [exact I|intros ? []].
  - constructor.
    + repeat split; discriminate.
    + intros g [<-|[<-|[<-|[]]]]; constructor;
        [repeat split; discriminate|intros ? []|repeat split; discriminate| |repeat split; discriminate|intros ? []].
      intros ? [<-|[]]. constructor; [repeat split; reflexivity|]. intros ? [].
  - right. split; [discriminate|]. eexists. split; [reflexivity|]. split; [|split].
    + apply sublist_take, sublist_take, sublist_skip, sublist_nil.
    + intros k y [H|[H|[]]]; injection H as <- <-.
      * eexists. split; [left; reflexivity|]. right. split; [discriminate|]. split; [|split; [left; reflexivity|intros _; split; [discriminate|exact I]]].
        exists 3%Z. split; [reflexivity|]. split; intros m [= <-]; lia.
      * eexists. split; [right; left; reflexivity|]. right. split; [discriminate|].
        eexists. split; [reflexivity|]. split; [discriminate|]. split; [discriminate|].
        split; [|discriminate]. constructor; [right|constructor; [left; auto|constructor]].
        split; [discriminate|]. split; [|split; [left; reflexivity|intros _; split; [discriminate|exact I]]].
        exists $"x". split; [reflexivity|]. split; [exact Hst|]. repeat split; discriminate.
    + intros k c _ Hin Hno. exists p0. destruct Hin as [H|[H|[H|[]]]]; injection H as <- <-.
      * exfalso. apply Hno. left. reflexivity.
      * exfalso. apply Hno. right. left. reflexivity.
      * split; [reflexivity|]. right. split; reflexivity.
Qed.
@end *)

(** @example
(* [Boolean | Enumeration of texts | Integer from 5 | Sequence | Tuple | Text]: the text passes all others.
   [Integer from 5 | Integer] is not such a union. *)
Example C32_union_example :
  let text := Fld p0 (KText None None None true) in
  let f := Fld p0 (KUnion [Fld p0 KBoolean; Fld p0 (KEnumeration [VStr $"all"] None);
                           Fld p0 (KInteger (Some 5%Z) None); Fld p0 (KSequence text None None false);
                           Fld p0 (KTuple [text]); text]) in
  throughout env0 well_keyed f /\ throughout env0 (tidy env0) f
  /\ conforms env0 0 f (VStr $"x") /\ run0 f Inbound false (VStr $"x") = Ok (VStr $"x")
  /\ ~ tidy env0 p0 (KUnion [Fld p0 (KInteger (Some 5%Z) None); Fld p0 (KInteger None None)]).
Proof.
  assert (Hst : stripped $"x" $"x").
  { exists [], []. rewrite app_nil_r. cbn [app]. split; [reflexivity|]. split; [constructor|]. split; [constructor|].
    split; [intros c r [= <- _]; reflexivity|]. intros c r H. destruct r as [|x [|]]; try discriminate.
    injection H as <-. reflexivity. }
  assert (Hte : forall P : params -> kind -> Prop, P p0 (KText None None None true) ->
                everywhere P (Fld p0 (KText None None None true))).
  { intros P HP. constructor; [exact HP|intros ? []]. }
  split; [|split; [|split; [|split; [reflexivity|]]]].
  - split; [|discriminate]. constructor; [exact I|].
    intros g [<-|[<-|[<-|[<-|[<-|[<-|[]]]]]]]; (constructor; [exact I|]); intros ? Hg; cbn in Hg;
      try contradiction; destruct Hg as [<-|[]]; apply Hte; exact I.
  - split; [|discriminate]. constructor.
    + split; [reflexivity|]. split; [reflexivity|]. split; [discriminate|]. split.
      * repeat constructor; cbn; try congruence; intros [].
      * repeat first [apply FOP_cons | apply Forall_cons | apply FOP_nil | apply Forall_nil];
          (split; [reflexivity|]).
        all: try (left; repeat constructor; fail).
        all: right; (split; [exact I|]); intros w Hi Hn; destruct Hi as [Hi|Hi]; cbn in Hi, Hn;
          repeat match goal with H : exists _, _ |- _ => destruct H end; subst; try discriminate; contradiction.
    + intros g [<-|[<-|[<-|[<-|[<-|[<-|[]]]]]]]; (constructor; [repeat split; try discriminate|]); cbn.
      all: try (intros ? Hg; cbn in Hg; try contradiction; destruct Hg as [<-|[]]; apply Hte; repeat split; discriminate).
      intros x [[<-|[]]|[]]; reflexivity.
  - right. split; [discriminate|]. eexists. split; [do 5 right; left; reflexivity|]. right. split; [discriminate|].
    split; [|split; [left; reflexivity|intros _; split; [discriminate|exact I]]].
    exists $"x". split; [reflexivity|]. split; [exact Hst|]. repeat split; discriminate.
  - intros [_ [_ [_ [_ H]]]]. inversion H as [|? ? Hp _]; subst. inversion Hp as [|? ? Hq _]; subst.
    destruct Hq as [_ [[]|[_ Hd]]]. apply (Hd (VInt 3)); [left|]; eexists; reflexivity.
Qed.
@end *)

(** @prop C32 Why not every union is covered: a value that conforms to the second alternative of a union is
    refused when the first one rejects it for another reason than its type. *)
Lemma process_complete_refuted :
  exists E desc recon n f v e,
    throughout E well_keyed f
    /\ conforms E n f v
    /\ process_gen E desc recon n f false Inbound false [] v = Raise (XErr e).
Proof.
  exists env0, nodesc, norecon, O, (Fld p0 (KUnion [Fld p0 (KInteger (Some 5%Z) None); Fld p0 (KInteger None None)])),
    (VInt 3), (own_err CValidation [$"(union)"] $"minimum").
  split; [|split; [|reflexivity]].
  - split; [|discriminate]. constructor; [exact I|]. intros g [<-|[<-|[]]]; (constructor; [exact I|intros g []]).
  - right. split; [discriminate|]. eexists. split; [right; left; reflexivity|]. right. split; [discriminate|].
    split; [|split; [left; reflexivity|intros _; split; [discriminate|exact I]]]. exists 3%Z. repeat split; discriminate.
Qed.

(** ** C33 *)

(** @prop C33 Idempotence: in such a schema, processing a result again returns it unchanged,
    whether the first input was serialized or native. *)
Lemma process_idempotent_partial :
  forall E desc recon n f ser anc anc' v r,
    throughout E well_keyed f -> throughout E (tidy E) f -> throughout E (null_free E) f ->
    process_gen E desc recon n f false Inbound ser anc v = Ok r ->
    process_gen E desc recon n f false Inbound false anc' r = Ok r.
Proof.
  intros E desc recon n f ser anc anc' v r Hw Ht Hn H.
  apply process_complete_partial; [exact Hw|exact Ht|]. eapply process_sound; eauto.
Qed.

(** @example
(* Stripped text and a date time moved to UTC: the second pass changes nothing. *)
Example C33_example :
  let f := Fld p0 (KTuple [Fld p0 (KText None None None true); Fld p0 (KDateTime None None true)]) in
  let r := VTuple [VStr $"x"; VDateTime (DateTime (Date 2020 1 1) (Tod 11 0 0 0) (Some TzUTC))] in
  run0 f Inbound false (VTuple [VStr $" x "; VDateTime (DateTime (Date 2020 1 1) (Tod 12 0 0 0) (Some TzLocal))]) = Ok r
  /\ run0 f Inbound false r = Ok r.
Proof. split; vm_compute; reflexivity. Qed.
(* Addresses are lower-cased and separated by commas once and for all; lower case is as in Unicode. *)
Example C33_email_example :
  let f := Fld p0 (KEmail true false None None) in
  lowers env0
  /\ run0 f Inbound false (VStr $" A@Example.com;  b@example.COM,") = Ok (VStr $"a@example.com,b@example.com")
  /\ run0 f Inbound false (VStr $"a@example.com,b@example.com") = Ok (VStr $"a@example.com,b@example.com").
Proof.
  split; [|split; vm_compute; reflexivity]. intros c Hc. split; [discriminate|]. intros d [<-|[]].
  split; [|split; [lia|reflexivity]]. intros H. unfold separator in H. cbn in H. lia.
Qed.
@end *)

(** @prop C33 Why fields that normalise must not carry a constant: [Text(constant=' a ')] accepts
    [' a '], returns ['a'], and refuses ['a']. *)
Lemma process_idempotent_refuted :
  exists E desc recon n f v r e,
    throughout E well_keyed f
    /\ process_gen E desc recon n f false Inbound false [] v = Ok r
    /\ process_gen E desc recon n f false Inbound false [] r = Raise (XErr e).
Proof.
  exists env0, nodesc, norecon, O, (Fld (p_const (VStr $" a ")) (KText None None None true)),
    (VStr $" a "), (VStr $"a"), (own_err CInvalidType [$"(text)"] $"invalid").
  split; [|split; reflexivity]. split; [|discriminate]. constructor; [exact I|intros g []].
Qed.
