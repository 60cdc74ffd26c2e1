(** * Structure (C24 to C29). *)
(* @imports Spec Demo *)
From Coq Require Import ZifyBool ZifyN ZifyNat.
From Verif Require Import PyBaseFacts Induct Spec Demo ProcessFacts ScalarProofs StructFacts.

(** ** String keys *)

Lemma sget_In k v items : sget k items = Some v -> In (VStr k, v) items.
Proof.
  induction items as [|[k' v'] items IH]; cbn; [discriminate|].
  destruct k'; auto. destruct (str_eqb_spec k s) as [<-|Hne]; [intros [= <-]; auto|auto].
Qed.

Lemma sget_None k items : sget k items = None <-> forall v, ~ In (VStr k, v) items.
Proof.
  induction items as [|[k' v'] items IH]; cbn.
  - split; [intros _ v []|reflexivity].
  - destruct k'; try (rewrite IH; split; [intros H v [Hx|Hx]; [discriminate|exact (H v Hx)] | intros H v Hx; exact (H v (or_intror Hx))]).
    destruct (str_eqb_spec k s) as [<-|Hne].
    + split; [discriminate|]. intros H. exfalso. apply (H v'). auto.
    + rewrite IH. split.
      * intros H v [Hx|Hx]; [congruence|exact (H v Hx)].
      * intros H v Hx. exact (H v (or_intror Hx)).
Qed.

Lemma sget_distinct L k v items :
  distinct L (map fst items) -> (sget k items = Some v <-> In (VStr k, v) items).
Proof.
  intros Hd. split; [apply sget_In|].
  induction items as [|[k' v'] items IH]; [intros []|].
  cbn [map fst distinct] in Hd. destruct Hd as [Hd1 Hd2].
  intros [Heq|Hin].
  - injection Heq as -> ->. cbn. rewrite str_eqb_refl. reflexivity.
  - cbn. destruct k'; auto. destruct (str_eqb_spec k s) as [<-|Hne]; [|auto].
    apply (in_map fst) in Hin. specialize (Hd1 _ Hin). cbn in Hd1. rewrite str_eqb_refl in Hd1. discriminate.
Qed.

Lemma sset_new k v l : sget k l = None -> sset k v l = l ++ [(VStr k, v)].
Proof.
  induction l as [|[k' v'] l IH]; cbn; [reflexivity|].
  destruct k'; try (intros H; rewrite IH by exact H; reflexivity).
  destruct (str_eqb k s); [discriminate|]. intros H. rewrite IH by exact H. reflexivity.
Qed.

Lemma sget_app k l m : sget k (l ++ m) = match sget k l with Some v => Some v | None => sget k m end.
Proof.
  induction l as [|[k' v'] l IH]; cbn; [reflexivity|].
  destruct k'; auto. destruct (str_eqb k s); auto.
Qed.

Lemma kmem_sget k items : kmem k (map fst items) = match sget k items with Some _ => true | None => false end.
Proof.
  unfold kmem. induction items as [|[k' v'] items IH]; cbn; [reflexivity|].
  destruct k'; auto. destruct (str_eqb k s); auto.
Qed.

Lemma kmem_kdel k k' names : k <> k' -> kmem k (kdel k' names) = kmem k names.
Proof.
  intros Hne. unfold kmem, kdel. induction names as [|x names IH]; cbn; [reflexivity|].
  destruct x; cbn; rewrite ?IH; try reflexivity.
  destruct (str_eqb_spec k' s) as [<-|Hs]; cbn; rewrite IH; [|reflexivity].
  apply str_eqb_neq in Hne. rewrite Hne. reflexivity.
Qed.

(** ** The loop *)

Definition sstep (E : env) (defn : list (str * child)) (items : list (val * val)) (partial : bool)
  ph ser anc (name : str) : res (option (val * bool)) :=
  match aget name defn with
  | None => py KeyError
  | Some c =>
      do d <- decide E ph partial (fst c) true (sget name items);
      match d with
      | DSkip => Ok None
      | DRequired => Ok (Some (VErr (own_err CValidation anc $"required"), false))
      | DProcess v =>
          match fparams E (fst c) with
          | None => py UndefinedFieldError
          | Some q =>
              if p_ignore_null q && is_none v then Ok None
              else do x <- collect (wrap_undef E (fst c) (snd c ph ser (anc ++ [$"." ++ name]) v));
                   Ok (Some x)
          end
      end
  end.

Definition kept (order : list str) (rs : list (option (val * bool))) : list (val * val) :=
  flat_map (fun nr => match snd nr with Some x => [(VStr (fst nr), fst x)] | None => [] end)
    (combine order rs).
Definition fine (rs : list (option (val * bool))) : bool :=
  forallb (fun r => match r with Some x => snd x | None => true end) rs.

Lemma struct_loop_traverse E defn items partial ph ser anc order names acc valid :
  NoDup order ->
  (forall k, In k order -> kmem k names = match sget k items with Some _ => true | None => false end) ->
  (forall k, In k order -> sget k acc = None) ->
  struct_loop E defn items partial ph ser anc order names acc valid =
  (do rs <- traverse (sstep E defn items partial ph ser anc) order;
   Ok (fold_left (fun ns k => kdel k ns) order names, acc ++ kept order rs, valid && fine rs)).
Proof.
  revert names acc valid. induction order as [|k order IH]; intros names acc valid Hnd Hk Hacc;
    cbn [struct_loop traverse].
  - cbn. rewrite app_nil_r, andb_true_r. reflexivity.
  - inversion Hnd as [|? ? Hnin Hnd']; subst.
    assert (Hk' : forall k', In k' order -> kmem k' (kdel k names) =
                    match sget k' items with Some _ => true | None => false end).
    { intros k' Hin. rewrite kmem_kdel by (intros ->; contradiction). apply Hk. right. exact Hin. }
    assert (Hacc' : forall e k', In k' order -> sget k' (sset k e acc) = None).
    { intros e k' Hin. rewrite sset_new by (apply Hacc; left; reflexivity).
      rewrite sget_app, (Hacc k') by (right; exact Hin). cbn.
      destruct (str_eqb_spec k' k) as [->|]; [contradiction|reflexivity]. }
    assert (Hacc0 : forall k', In k' order -> sget k' acc = None) by (intros; apply Hacc; right; assumption).
    unfold sstep at 1. destruct (aget k defn) as [c|]; [|reflexivity].
    assert (Hd : decide E ph partial (fst c) (kmem k names) (sget k items)
                 = decide E ph partial (fst c) true (sget k items)).
    { rewrite Hk by (left; reflexivity). destruct (sget k items); reflexivity. }
    cbn zeta. rewrite Hd. clear Hd.
    destruct (decide E ph partial (fst c) true (sget k items)) as [[| |v]|x]; cbn [bind].
    + rewrite IH by assumption. destruct (traverse _ order); reflexivity.
    + rewrite IH by auto. destruct (traverse _ order) as [rs|]; cbn [bind]; [|reflexivity].
      rewrite sset_new by (apply Hacc; left; reflexivity). rewrite <- app_assoc.
      cbn. rewrite andb_false_r. reflexivity.
    + destruct (fparams E (fst c)) as [q|]; [|reflexivity].
      destruct (p_ignore_null q && is_none v).
      * rewrite IH by assumption. destruct (traverse _ order); reflexivity.
      * destruct (collect _) as [[e b]|x]; cbn [bind fst snd]; [|reflexivity].
        rewrite IH by auto. destruct (traverse _ order) as [rs|]; cbn [bind]; [|reflexivity].
        rewrite sset_new by (apply Hacc; left; reflexivity). rewrite <- app_assoc.
        cbn. rewrite andb_assoc. reflexivity.
    + reflexivity.
Qed.

Lemma kdel_all order names x :
  In x (fold_left (fun ns k => kdel k ns) order names) <->
  In x names /\ forall k, In k order -> x <> VStr k.
Proof.
  revert names. induction order as [|k order IH]; intros names; cbn [fold_left].
  - split; [intros H; split; [exact H|intros k []]|tauto].
  - rewrite IH. unfold kdel. rewrite filter_In. split.
    + intros [[H1 H2] H3]. split; [exact H1|]. intros k' [<-|Hk']; [|auto].
      intros ->. cbn in H2. rewrite str_eqb_refl in H2. discriminate.
    + intros [H1 H2]. split; [split; [exact H1|]|intros k' Hk'; apply H2; right; exact Hk'].
      destruct x; try reflexivity. apply negb_true_iff, str_eqb_neq. intros ->.
      apply (H2 s); [left; reflexivity|reflexivity].
Qed.

Lemma kdel_distinct L k names : distinct L names -> distinct L (kdel k names).
Proof.
  unfold kdel. induction names as [|x names IH]; cbn [filter]; [auto|]. intros [H1 H2].
  destruct (match x with VStr s => negb (str_eqb k s) | _ => true end); [|auto].
  split; [|auto]. intros k' Hk'. apply filter_In in Hk'. apply H1, Hk'.
Qed.

Lemma kdel_all_distinct L order names :
  distinct L names -> distinct L (fold_left (fun ns k => kdel k ns) order names).
Proof.
  revert names. induction order as [|k order IH]; intros names H; cbn [fold_left]; [exact H|].
  apply IH, kdel_distinct, H.
Qed.

Lemma add_unknown_new E anc names acc :
  distinct (e_local E) (map fst acc ++ names) ->
  add_unknown E anc names acc = acc ++ map (fun k => (k, token_error anc $"unknown")) names.
Proof.
  intros H. unfold add_unknown.
  transitivity (set_all (e_local E) (map (fun k => (k, token_error anc $"unknown")) names) acc).
  - unfold set_all. clear H. revert acc. induction names as [|k names IH]; intros acc; cbn; [reflexivity|]. apply IH.
  - apply set_all_new. rewrite map_app, map_map, map_id. exact H.
Qed.

Lemma kept_keys order rs ke : In ke (kept order rs) -> exists k, fst ke = VStr k /\ In k order.
Proof.
  unfold kept. intros H. apply in_flat_map in H. destruct H as [[k r] [Hin H]].
  destruct r as [x|]; cbn in H; [|contradiction]. destruct H as [<-|[]].
  exists k. split; [reflexivity|]. apply in_combine_l in Hin. exact Hin.
Qed.

Lemma kept_distinct L order rs : NoDup order -> distinct L (map fst (kept order rs)).
Proof.
  revert rs. induction order as [|k order IH]; intros [|r rs] Hnd; try exact I.
  inversion Hnd as [|? ? Hnin Hnd']; subst. unfold kept. cbn [combine flat_map snd fst].
  destruct r as [x|]; [|apply IH; exact Hnd']. cbn [app map fst distinct]. split.
  - intros k' Hk'. apply in_map_iff in Hk'. destruct Hk' as [ke [<- Hke]].
    apply (kept_keys order rs) in Hke. destruct Hke as [k2 [-> Hin]].
    cbn. apply str_eqb_neq. intros ->. contradiction.
  - apply IH. exact Hnd'.
Qed.

(** ** The structure *)

Lemma visits_incl0 defn ko order : visits defn ko order -> incl order defn.
Proof.
  intros Hvis. unfold visits in Hvis. destruct ko as [[|o os]|]; [subst; apply incl_refl| |subst; apply incl_refl].
  apply Hvis.
Qed.

Lemma order_names0 defn ko order : visits defn ko order ->
  match ko with Some (o :: os) => Ok (o :: os) | _ => Ok (map fst defn) end = Ok (map fst order) :> res (list str).
Proof.
  intros Hvis. unfold visits in Hvis. destruct ko as [[|o os]|]; [subst; reflexivity| |subst; reflexivity].
  destruct Hvis as [-> _]. reflexivity.
Qed.

Section S.
Variable E : env.
Variable desc : field -> res val.
Variable recon : val -> res field.
Variable n : nat.
Variables (p : params) (defn : list (str * field)) (strict : bool) (ko : option (list str)).
Variables (partial : bool) (ph : phase) (ser : bool) (anc : list str).
Variable order : list (str * field).
Variable items : list (val * val).
Notation L := (e_local E).
Let path := path_of p (KStructure (SPlain defn) strict ko) anc.
Let run k f x := process_gen E desc recon n f false ph ser (path ++ [name_segment k]) x.
Let cdefn : list (str * child) := map (fun kf : str * field => (fst kf, (snd kf, process_gen E desc recon n (snd kf) false))) defn.
Let step := sstep E cdefn items partial ph ser path.
Let fates := fate E run ph partial path items.

Hypothesis Hpre : p_preprocessor p = None.
Hypothesis Hnd : NoDup (map fst defn).
Hypothesis Hndo : NoDup (map fst order).
Hypothesis Hdef : Forall (fun kf => defined E (snd kf)) order.
Hypothesis Hvis : visits defn ko order.
Hypothesis Hdis : distinct L (map fst items).

Lemma visits_incl : incl order defn.
Proof using Hvis. exact (visits_incl0 _ _ _ Hvis). Qed.

Lemma cdefn_get k f : In (k, f) order -> aget k cdefn = Some (f, process_gen E desc recon n f false).
Proof using Hnd Hvis.
  intros Hin. apply visits_incl in Hin. unfold cdefn. apply aget_NoDup_In.
  - rewrite map_map. exact Hnd.
  - apply in_map_iff. exists (k, f). auto.
Qed.

Lemma given k v : sget k items = Some v <-> In (VStr k, v) items.
Proof using Hdis. eapply sget_distinct. exact Hdis. Qed.

Lemma sstep_fate k f :
  In (k, f) order ->
  match step k with
  | Ok None => fates (k, f) None
  | Ok (Some (e, b)) => exists o, fates (k, f) (Some o) /\ recorded o e /\ b = is_ok o
  | Raise (XErr _) => False
  | Raise (XPy x) => fates (k, f) (Some (Raise (XPy x)))
  end.
Proof.
  intros Hin. unfold step, sstep. rewrite (cdefn_get k f Hin). cbn [fst snd].
  rewrite Forall_forall in Hdef. specialize (Hdef _ Hin). cbn in Hdef.
  assert (Hwrap : forall r, wrap_undef E f r = r) by (intros; apply wrap_defined, Hdef).
  destruct Hdef as [q Hq]. assert (Hfp := Hq). apply defined_fparams in Hfp.
  assert (Hcoll : forall v, fates (k, f) (Some (run k f v)) ->
    match (do x <- collect (wrap_undef E f (run k f v)); Ok (Some x)) with
    | Ok None => fates (k, f) None
    | Ok (Some (e, b)) => exists o, fates (k, f) (Some o) /\ recorded o e /\ b = is_ok o
    | Raise (XErr _) => False
    | Raise (XPy x) => fates (k, f) (Some (Raise (XPy x)))
    end).
  { intros v Hf. rewrite Hwrap. destruct (run k f v) as [r|[e|x]] eqn:Hr; cbn.
    - exists (Ok r). split; [exact Hf|]. split; [left; reflexivity|reflexivity].
    - exists (Raise (XErr e)). split; [exact Hf|]. split; [right; eauto|reflexivity].
    - exact Hf. }
  unfold decide. destruct (sget k items) as [v|] eqn:Hs.
  - apply given in Hs. cbn [bind]. rewrite Hfp.
    destruct (p_ignore_null q && is_none v) eqn:Hi.
    + apply andb_true_iff in Hi. destruct Hi as [Hi Hv]. destruct v; try discriminate Hv.
      eapply fate_null_ignored; eauto.
    + apply Hcoll. eapply fate_given; eauto.
      intros [H1 ->]. rewrite H1 in Hi. discriminate.
  - assert (Habs := proj1 (sget_None k items) Hs). clear Hs.
    destruct partial eqn:Hp; cbn [bind].
    + apply fate_partial; auto.
    + rewrite Hfp. destruct (phase_eqb ph Inbound && negb (is_none (p_default q))) eqn:Hdflt; cbn [bind].
      * apply andb_true_iff in Hdflt. destruct Hdflt as [Hph Hdflt].
        assert (Hph' : ph = Inbound) by (destruct ph; [reflexivity|discriminate]).
        assert (Hdn : p_default q <> VNone) by (intros Hx; rewrite Hx in Hdflt; discriminate).
        assert (Hig : p_ignore_null q && is_none (p_default q) = false).
        { apply andb_false_iff. right. destruct (is_none (p_default q)); [discriminate|reflexivity]. }
        rewrite Hig. apply Hcoll. eapply fate_default; eauto.
      * assert (Hor : ph = Outbound \/ p_default q = VNone).
        { destruct ph; [right|left; reflexivity]. cbn in Hdflt.
          destruct (p_default q); try discriminate. reflexivity. }
        destruct (p_required q) eqn:Hrq; cbn [bind].
        -- exists (fails path $"required"). split; [eapply fate_required; eauto|].
           split; [right; eexists; split; reflexivity|reflexivity].
        -- eapply fate_optional; eauto.
Qed.

Lemma fate_fun kf a b : fates kf a -> fates kf b -> a = b.
Proof.
  intros Ha Hb.
  assert (Hdet : forall f q q', defined_as E f q -> defined_as E f q' -> q = q').
  { intros f q q' H1 H2. apply defined_fparams in H1. apply defined_fparams in H2. congruence. }
  assert (Hgiv : forall k v v', In (VStr k, v) items -> In (VStr k, v') items -> v = v').
  { intros k v v' H1 H2. apply given in H1. apply given in H2. congruence. }
  inversion Ha; subst; inversion Hb; subst; try reflexivity; try congruence;
    repeat match goal with
    | H1 : defined_as E ?f ?q, H2 : defined_as E ?f ?q' |- _ =>
        assert_fails (constr_eq q q'); assert (q = q') by (eapply Hdet; eauto); subst; clear H2
    | H1 : In (VStr ?k, ?v) items, H2 : In (VStr ?k, ?v') items |- _ =>
        assert_fails (constr_eq v v'); assert (v = v') by (eapply Hgiv; eauto); subst
    | H1 : In (VStr ?k, ?v) items, H2 : forall v, ~ In (VStr ?k, v) items |- _ =>
        exfalso; exact (H2 _ H1)
    end; try reflexivity; try congruence; try tauto.
  all: try (exfalso; tauto).
  all: try (exfalso; match goal with H : _ \/ _ |- _ => destruct H; congruence end).
Qed.

Lemma order_names : match ko with Some (o :: os) => Ok (o :: os) | _ => Ok (map fst cdefn) end
                    = Ok (map fst order) :> res (list str).
Proof using Hvis.
  replace (map fst cdefn) with (map fst defn) by (unfold cdefn; rewrite map_map; reflexivity).
  exact (order_names0 _ _ _ Hvis).
Qed.

Lemma process_struct_eq o :
  process_gen E desc recon n (Fld p (KStructure (SPlain defn) strict ko)) partial ph ser anc (VDict o items) =
  (do rs <- traverse step (map fst order);
   let names := fold_left (fun ns k => kdel k ns) (map fst order) (map fst items) in
   let acc := kept (map fst order) rs ++
              (if strict then map (fun k => (k, token_error path $"unknown")) names else []) in
   if fine rs && (negb strict || match names with [] => true | _ => false end)
   then Ok (VDict (has_order ko) acc) else serr path (VDict (has_order ko) acc)).
Proof using Hpre Hndo Hvis Hdis.
  rewrite process_Fld. unfold process_body.
  rewrite (path_of_eq p (KStructure (SPlain defn) strict ko) anc) by reflexivity. cbn [kmap sdef_map].
  fold path. unfold process_structure. rewrite is_null_some by discriminate. cbn [bind as_dict].
  unfold pre_raw. rewrite Hpre. cbn [bind as_dict]. unfold struct_run. fold cdefn.
  assert (Ho : match ko with Some (o :: os) => poly_order (o :: os) VNone | _ => Ok (map fst cdefn) end
               = Ok (map fst order)) by apply order_names.
  rewrite Ho. cbn [bind].
  rewrite struct_loop_traverse.
  - fold step. destruct (traverse step (map fst order)) as [rs|x]; cbn [bind]; [|reflexivity].
    cbn [app]. destruct strict; cbn [negb orb].
    + rewrite add_unknown_new; [reflexivity|].
      apply distinct_app. split; [apply kept_distinct; exact Hndo|]. split; [apply kdel_all_distinct; exact Hdis|].
      intros a b Ha Hb. apply in_map_iff in Ha. destruct Ha as [ke [<- Hke]].
      apply kept_keys in Hke. destruct Hke as [k [-> Hk]]. apply kdel_all in Hb. destruct Hb as [_ Hb].
      cbn. destruct b; try reflexivity. apply str_eqb_neq. intros ->. exact (Hb s Hk eq_refl).
    + rewrite app_nil_r. reflexivity.
  - exact Hndo.
  - intros k _. apply kmem_sget.
  - reflexivity.
Qed.

Lemma traverse_gathered l rs :
  incl l order -> traverse step (map fst l) = Ok rs ->
  gathered fates recorded l (kept (map fst l) rs)
  /\ (fine rs = true -> gathered fates (fun o y => o = Ok y) l (kept (map fst l) rs))
  /\ (fine rs = false -> exists kf o, In kf l /\ fates kf (Some o) /\ rejected o).
Proof.
  intros Hincl H. apply traverse_ok in H. revert Hincl H. revert rs.
  induction l as [|[k f] l IH]; intros rs Hincl H.
  - inversion H; subst. cbn. repeat split; try constructor. discriminate.
  - inversion H as [|? r ? rs' Hr Hrs]; subst. cbn [map fst].
    assert (Hin : In (k, f) order) by (apply Hincl; left; reflexivity).
    destruct (IH rs' ltac:(intros x Hx; apply Hincl; right; exact Hx) Hrs) as [IH1 [IH2 IH3]].
    assert (Hst := sstep_fate k f Hin). cbn [fst] in Hr. rewrite Hr in Hst.
    destruct r as [[e b]|].
    + destruct Hst as [o [Ho [Hrec ->]]].
      change (kept (k :: map fst l) (Some (e, is_ok o) :: rs')) with ((VStr k, e) :: kept (map fst l) rs').
      split; [|split].
      * apply gathered_add with (o := o); assumption.
      * cbn [fine forallb snd]. intros Hf. apply andb_true_iff in Hf. destruct Hf as [Hf1 Hf2].
        apply gathered_add with (o := o); [exact Ho| |apply IH2, Hf2].
        destruct Hrec as [Hrec|[x [Hrec _]]]; [exact Hrec|]. subst o. discriminate.
      * cbn [fine forallb snd]. intros Hf. apply andb_false_iff in Hf. destruct Hf as [Hf|Hf].
        -- exists (k, f), o. split; [left; reflexivity|]. split; [exact Ho|].
           destruct Hrec as [Hrec|[x [Hrec _]]]; [subst o; discriminate|]. exists x. exact Hrec.
        -- destruct (IH3 Hf) as [kf [o' [H1 H2]]]. exists kf, o'. split; [right; exact H1|exact H2].
    + change (kept (k :: map fst l) (None :: rs')) with (kept (map fst l) rs').
      split; [|split].
      * constructor; auto.
      * intros Hf. constructor; auto.
      * intros Hf. destruct (IH3 Hf) as [kf [o' [H1 H2]]]. exists kf, o'. split; [right; exact H1|exact H2].
Qed.

Lemma gathered_traverse l es :
  incl l order -> gathered fates recorded l es ->
  exists rs, traverse step (map fst l) = Ok rs /\ kept (map fst l) rs = es
    /\ (gathered fates (fun o y => o = Ok y) l es -> fine rs = true).
Proof.
  intros Hincl H. induction H as [|[k f] l es Hf Hg IH|k f o e l es Hf Hr Hg IH].
  - exists []. repeat split.
  - destruct IH as [rs [Ht [Hk Hfi]]]. { intros x Hx. apply Hincl. right. exact Hx. }
    assert (Hin : In (k, f) order) by (apply Hincl; left; reflexivity).
    assert (Hst := sstep_fate k f Hin).
    assert (Hs : step k = Ok None).
    { destruct (step k) as [[[e b]|]|[x|x]].
      - destruct Hst as [o [Ho _]]. discriminate (fate_fun _ _ _ Ho Hf).
      - reflexivity.
      - destruct Hst.
      - discriminate (fate_fun _ _ _ Hst Hf). }
    exists (None :: rs). cbn [map fst traverse]. rewrite Hs, Ht. split; [reflexivity|]. split; [exact Hk|].
    intros Hg2. inversion Hg2; subst; [auto|].
    match goal with H : fates (k, f) (Some _) |- _ => discriminate (fate_fun _ _ _ Hf H) end.
  - destruct IH as [rs [Ht [Hk Hfi]]]. { intros x Hx. apply Hincl. right. exact Hx. }
    assert (Hin : In (k, f) order) by (apply Hincl; left; reflexivity).
    assert (Hst := sstep_fate k f Hin).
    assert (Hs : step k = Ok (Some (e, is_ok o))).
    { destruct (step k) as [[[e' b]|]|[x|x]].
      - destruct Hst as [o' [Ho' [Hr' ->]]]. injection (fate_fun _ _ _ Ho' Hf) as ->.
        do 3 f_equal. destruct Hr as [->|[y [-> ->]]], Hr' as [Hx|[z [Hx ->]]]; congruence.
      - discriminate (fate_fun _ _ _ Hst Hf).
      - destruct Hst.
      - injection (fate_fun _ _ _ Hst Hf) as <-. destruct Hr as [Hx|[z [Hx _]]]; discriminate. }
    exists (Some (e, is_ok o) :: rs). cbn [map fst traverse]. rewrite Hs, Ht. split; [reflexivity|].
    split; [unfold kept; cbn; f_equal; exact Hk|].
    intros Hg2. inversion Hg2; subst.
    + match goal with H : fates (k, f) None |- _ => discriminate (fate_fun _ _ _ Hf H) end.
    + match goal with H : fates (k, f) (Some _) |- _ => injection (fate_fun _ _ _ Hf H) as Ho end.
      cbn [fine forallb snd]. rewrite Ho. cbn. auto.
Qed.

Lemma traverse_total :
  (forall kf o, In kf order -> fates kf (Some o) -> orderly o) ->
  exists rs, traverse step (map fst order) = Ok rs.
Proof.
  intros Hord. destruct (traverse step (map fst order)) as [rs|x] eqn:Ht; [eauto|exfalso].
  apply traverse_raise in Ht. destruct Ht as [pre [k [post [Heq [Hs _]]]]].
  assert (Hin : In k (map fst order)) by (rewrite Heq; apply in_or_app; right; left; reflexivity).
  apply in_map_iff in Hin. destruct Hin as [[k' f] [Hk Hin]]. cbn in Hk. subst k'.
  assert (Hst := sstep_fate k f Hin). rewrite Hs in Hst. destruct x as [e|x]; [exact Hst|].
  exact (Hord _ _ Hin Hst x eq_refl).
Qed.
End S.

(** ** C24 *)

(** @prop C24 A structure accepts a dict exactly when it has no unknown key (if strict) and every
    visited key is left out or accepted; the result has exactly the entries of the keys that are not
    left out, with the results of their fields.  What becomes of a key is the relation [fate]. *)
Lemma structure_accepts :
  forall E desc recon n p defn strict ko partial ph ser anc order o items r,
    p_preprocessor p = None -> NoDup (map fst defn) -> NoDup (map fst order) ->
    Forall (fun kf => defined E (snd kf)) order -> visits defn ko order ->
    distinct (e_local E) (map fst items) ->
    let f := Fld p (KStructure (SPlain defn) strict ko) in
    let path := path_of p (KStructure (SPlain defn) strict ko) anc in
    let run k g x := process_gen E desc recon n g false ph ser (path ++ [name_segment k]) x in
    (process_gen E desc recon n f partial ph ser anc (VDict o items) = Ok r
     <-> (strict = true -> forall k, In k (map fst items) -> exists s, k = VStr s /\ In s (map fst order))
         /\ exists entries, r = VDict (has_order ko) entries
              /\ gathered (fate E run ph partial path items) (fun out y => out = Ok y) order entries).
Proof.
  intros E desc recon n p defn strict ko partial ph ser anc order o items r
    Hpre Hnd Hndo Hdef Hvis Hdis f path run.
  unfold f. rewrite (process_struct_eq E desc recon n p defn strict ko partial ph ser anc order items) by assumption.
  fold path. cbn zeta.
  set (names := fold_left (fun ns k => kdel k ns) (map fst order) (map fst items)).
  assert (Hnames : names = [] <-> forall k, In k (map fst items) -> exists s, k = VStr s /\ In s (map fst order)).
  { split.
    - intros Hn k Hk.
      assert (Hno : ~ In k names) by (rewrite Hn; intros []).
      destruct (match k with VStr s => smem s (map fst order) | _ => false end) eqn:Hm.
      + destruct k; try discriminate. exists s. split; [reflexivity|]. apply smem_In, Hm.
      + exfalso. apply Hno. apply kdel_all. split; [exact Hk|]. intros s Hs ->.
        apply smem_In in Hs. congruence.
    - intros H. destruct names as [|k names'] eqn:Hn; [reflexivity|exfalso].
      assert (Hin : In k names) by (rewrite Hn; left; reflexivity).
      unfold names in Hin. apply kdel_all in Hin. destruct Hin as [H1 H2].
      destruct (H k H1) as [s [-> Hs]]. exact (H2 s Hs eq_refl). }
  split.
  - intros H. apply bind_Ok in H. destruct H as [rs [Ht H]].
    destruct (traverse_gathered E desc recon n p defn strict ko partial ph ser anc order items
                Hnd Hdef Hvis Hdis order rs (incl_refl _) Ht) as [_ [H2 _]].
    destruct (fine rs) eqn:Hf; [|discriminate]. cbn [andb] in H.
    destruct strict; cbn [negb orb] in H.
    + destruct names as [|k names'] eqn:Hn; [|discriminate].
      split; [intros _; apply Hnames; reflexivity|].
      cbn [map] in H. rewrite app_nil_r in H. injection H as <-. eauto.
    + split; [discriminate|]. rewrite app_nil_r in H. injection H as <-. eauto.
  - intros [Hs [entries [-> Hg]]].
    destruct (gathered_traverse E desc recon n p defn strict ko partial ph ser anc order items
                Hnd Hdef Hvis Hdis order entries (incl_refl _)) as [rs [Ht [Hk Hfi]]].
    { clear - Hg. induction Hg as [|kf l es H1 H2 IH|k g out e l es H1 H2 H3 IH];
        [constructor|apply gathered_skip; assumption|].
      apply gathered_add with (o := out); [exact H1|left; exact H2|exact IH]. }
    fold path in Ht. rewrite Ht. cbn [bind]. rewrite Hk, (Hfi Hg). cbn [andb].
    destruct strict; cbn [negb orb].
    + assert (Hn : names = []) by (apply Hnames; auto). rewrite Hn. cbn [map]. rewrite app_nil_r. reflexivity.
    + rewrite app_nil_r. reflexivity.
Qed.

(** @example
(* a is given, b gets its default, c is optional and left out. *)
Example C24_example :
  run0 (Fld p0 (KStructure (SPlain [($"a", Fld p_req (KInteger None None));
                                    ($"b", Fld (p_def (VInt 7)) (KInteger None None));
                                    ($"c", Fld p0 (KInteger None None))]) true None))
    Inbound false (VDict false [(VStr $"a", VInt 1)])
  = Ok (VDict false [(VStr $"a", VInt 1); (VStr $"b", VInt 7)]).
Proof. reflexivity. Qed.
@end *)

(** ** C25 *)

(** @prop C25 If some visited key is rejected or a strict structure is given an unknown key, the one
    error that is raised maps every rejected key to its error, every accepted key to its result, and
    every unknown key to [unknown]; no other key appears. *)
Lemma structure_errors :
  forall E desc recon n p defn strict ko partial ph ser anc order o items,
    p_preprocessor p = None -> NoDup (map fst defn) -> NoDup (map fst order) ->
    Forall (fun kf => defined E (snd kf)) order -> visits defn ko order ->
    distinct (e_local E) (map fst items) ->
    let f := Fld p (KStructure (SPlain defn) strict ko) in
    let path := path_of p (KStructure (SPlain defn) strict ko) anc in
    let run k g x := process_gen E desc recon n g false ph ser (path ++ [name_segment k]) x in
    let fates := fate E run ph partial path items in
    let is_unknown k := In k (map fst items) /\ forall s, In s (map fst order) -> k <> VStr s in
    (forall kf out, In kf order -> fates kf (Some out) -> orderly out) ->
    (exists kf out, In kf order /\ fates kf (Some out) /\ rejected out)
    \/ (strict = true /\ exists k, is_unknown k) ->
    exists entries unknown,
      process_gen E desc recon n f partial ph ser anc (VDict o items)
      = fails_with path (VDict (has_order ko) (entries ++ unknown))
      /\ gathered fates recorded order entries
      /\ (forall k, In k (map fst unknown) <-> strict = true /\ is_unknown k)
      /\ Forall (fun ke => snd ke = token_error path $"unknown") unknown.
Proof.
  intros E desc recon n p defn strict ko partial ph ser anc order o items
    Hpre Hnd Hndo Hdef Hvis Hdis f path run fates is_unknown Hord Hbad.
  destruct (traverse_total E desc recon n p defn strict ko partial ph ser anc order items
              Hnd Hdef Hvis Hdis Hord) as [rs Ht].
  destruct (traverse_gathered E desc recon n p defn strict ko partial ph ser anc order items
              Hnd Hdef Hvis Hdis order rs (incl_refl _) Ht) as [H1 [H2 _]].
  set (names := fold_left (fun ns k => kdel k ns) (map fst order) (map fst items)).
  assert (Hnames : forall k, In k names <-> is_unknown k) by (intros k; apply kdel_all).
  exists (kept (map fst order) rs),
    (if strict then map (fun k => (k, token_error path $"unknown")) names else []).
  split; [|split; [exact H1|split]].
  - unfold f. rewrite (process_struct_eq E desc recon n p defn strict ko partial ph ser anc order items) by assumption.
    rewrite Ht. cbn [bind]. fold path. fold names.
    match goal with |- (if ?b then _ else _) = _ => assert (Hb : b = false) end.
    { apply andb_false_iff. destruct Hbad as [[kf [out [Hin [Hf [e He]]]]]|[Hs [k Hk]]].
      - left. destruct (fine rs) eqn:Hfine; [exfalso|reflexivity].
        specialize (H2 eq_refl). clear - H2 Hin Hf He Hdis.
        fold path in H2. fold run in H2. fold fates in H2.
        induction H2 as [|kf' l es Hf' Hg IH|k f' o' e' l es Hf' Hr Hg IH]; [destruct Hin| |].
        + destruct Hin as [->|Hin]; [|auto].
          discriminate (fate_fun E desc recon n p defn strict ko partial ph ser anc items Hdis kf _ _ Hf Hf').
        + destruct Hin as [<-|Hin]; [|auto].
          injection (fate_fun E desc recon n p defn strict ko partial ph ser anc items Hdis _ _ _ Hf Hf') as Hx.
          subst out. congruence.
      - right. subst strict. cbn. apply Hnames in Hk. destruct names; [destruct Hk|reflexivity]. }
    rewrite Hb. reflexivity.
  - intros k. destruct strict.
    + rewrite map_map, map_id, Hnames. tauto.
    + split; [intros []|intros [H _]; discriminate].
  - destruct strict; [|constructor]. apply Forall_forall. intros ke Hke. apply in_map_iff in Hke.
    destruct Hke as [k [<- _]]. reflexivity.
Qed.

(** @prop C25 A value that is not a dict is rejected as such. *)
Lemma structure_invalid :
  forall E desc recon n p d strict ko partial ph ser anc v,
    as_dict v = None -> v <> VNone ->
    process_gen E desc recon n (Fld p (KStructure d strict ko)) partial ph ser anc v
    = invalid_type (path_of p (KStructure d strict ko) anc).
Proof.
  intros E desc recon n p d strict ko partial ph ser anc v Hv Hn.
  rewrite process_Fld. unfold process_body.
  rewrite (path_of_eq p (KStructure d strict ko) anc) by reflexivity. cbn [kmap].
  unfold process_structure. rewrite is_null_some by exact Hn. cbn [bind]. rewrite Hv. reflexivity.
Qed.

(** @example
(* All failures at once: bad a, missing b, unknown z; c is good. *)
Example C25_example :
  run0 (Fld p0 (KStructure (SPlain [($"a", Fld p0 (KInteger (Some 5%Z) None));
                                    ($"b", Fld p_req (KInteger None None));
                                    ($"c", Fld p0 (KInteger None None))]) true None))
    Inbound false (VDict false [(VStr $"z", VInt 0); (VStr $"c", VInt 1); (VStr $"a", VInt 1)])
  = fails_with [$"(structure)"]
      (VDict false
         [(VStr $"a", VErr (Err CValidation [VDict false [(VStr $"token", VStr $"minimum")]]
                                [$"(structure)"; $".a"] None true));
          (VStr $"b", token_error [$"(structure)"] $"required");
          (VStr $"c", VInt 1);
          (VStr $"z", token_error [$"(structure)"] $"unknown")]).
Proof. reflexivity. Qed.
@end *)

(** ** C26 *)

Lemma gathered_in fates (R : res val -> val -> Prop) order es k f o :
  gathered fates R order es -> NoDup (map fst order) -> In (k, f) order ->
  (forall a b, fates (k, f) a -> fates (k, f) b -> a = b) ->
  fates (k, f) o ->
  match o with
  | Some out => exists e, In (VStr k, e) es /\ R out e
  | None => ~ In (VStr k) (map fst es)
  end.
Proof.
  intros Hg Hnd Hin Hfun Ho.
  assert (Hsub : forall l es', gathered fates R l es' -> forall k', In (VStr k') (map fst es') -> In k' (map fst l)).
  { intros l es' H. induction H as [| |k1 f1 o1 e1 l es1 H1 H2 H3 IH]; intros k' Hk'; cbn in *; auto.
    destruct Hk' as [[= <-]|Hk']; auto. }
  induction Hg as [|[k1 f1] l es Hf Hg IH|k1 f1 o1 e1 l es Hf Hr Hg IH]; [destruct Hin| |].
  - cbn [map fst] in Hnd. inversion Hnd as [|? ? Hnin Hnd']; subst.
    destruct Hin as [Heq|Hin].
    + injection Heq as -> ->. rewrite (Hfun _ _ Ho Hf). intros Hc. apply Hnin. eapply Hsub; eassumption.
    + apply IH; assumption.
  - cbn [map fst] in Hnd. inversion Hnd as [|? ? Hnin Hnd']; subst.
    destruct Hin as [Heq|Hin].
    + injection Heq as -> ->. rewrite (Hfun _ _ Ho Hf). exists e1. split; [left; reflexivity|exact Hr].
    + specialize (IH Hnd' Hin). destruct o as [out|].
      * destruct IH as [e [H1 H2]]. exists e. split; [right; exact H1|exact H2].
      * cbn. intros [Heq|Hc]; [|contradiction]. injection Heq as <-. apply Hnin.
        apply (in_map fst) in Hin. exact Hin.
Qed.

(** @prop C26 For an absent key with a default: inbound the result has the key with the processed
    default; outbound, and in a partial run, it does not have the key, and the value is not accepted
    at all if the key is required (outbound, not partial). *)
Lemma structure_defaults :
  forall E desc recon n p defn strict ko partial ph ser anc order o items k f q entries,
    p_preprocessor p = None -> NoDup (map fst defn) -> NoDup (map fst order) ->
    Forall (fun kf => defined E (snd kf)) order -> visits defn ko order ->
    distinct (e_local E) (map fst items) ->
    In (k, f) order -> defined_as E f q -> p_default q <> VNone -> (forall v, ~ In (VStr k, v) items) ->
    let path := path_of p (KStructure (SPlain defn) strict ko) anc in
    process_gen E desc recon n (Fld p (KStructure (SPlain defn) strict ko)) partial ph ser anc (VDict o items)
    = Ok (VDict (has_order ko) entries) ->
    (partial = false -> ph = Inbound ->
       exists y, In (VStr k, y) entries
         /\ process_gen E desc recon n f false ph ser (path ++ [name_segment k]) (p_default q) = Ok y)
    /\ (partial = true \/ ph = Outbound -> ~ In (VStr k) (map fst entries))
    /\ (partial = false -> ph = Outbound -> p_required q = false).
Proof.
  intros E desc recon n p defn strict ko partial ph ser anc order o items k f q entries
    Hpre Hnd Hndo Hdef Hvis Hdis Hin Hq Hdflt Habs path Hout.
  apply (structure_accepts E desc recon n p defn strict ko partial ph ser anc order) in Hout; try assumption.
  destruct Hout as [_ [entries' [Heq Hg]]]. injection Heq as <-.
  assert (Hfun := fate_fun E desc recon n p defn strict ko partial ph ser anc items Hdis (k, f)).
  assert (Hin' := fun o H => gathered_in _ _ _ _ k f o Hg Hndo Hin Hfun H).
  split; [|split].
  - intros Hp Hph.
    destruct (Hin' _ (fate_default _ _ _ _ _ _ k f q Hq Habs Hp Hph Hdflt)) as [e [H1 H2]]. eauto.
  - intros Hor. destruct partial eqn:Hp.
    + apply (Hin' None). apply fate_partial; auto.
    + destruct Hor as [|Hph]; [discriminate|]. destruct (p_required q) eqn:Hr.
      * destruct (Hin' _ (fate_required _ _ _ _ _ _ k f q Hq Habs eq_refl (or_introl Hph) Hr)) as [e [_ H2]].
        discriminate.
      * apply (Hin' None). eapply fate_optional; eauto.
  - intros Hp Hph. destruct (p_required q) eqn:Hr; [|reflexivity]. exfalso.
    destruct (Hin' _ (fate_required _ _ _ _ _ _ k f q Hq Habs Hp (or_introl Hph) Hr)) as [e [_ H2]].
    discriminate.
Qed.

(** @example
(* Inbound, outbound and partial runs on an empty dict. *)
Example C26_example :
  let f := Fld p0 (KStructure (SPlain [($"b", Fld (p_def (VInt 7)) (KInteger None None))]) true None) in
  run0 f Inbound false (VDict false []) = Ok (VDict false [(VStr $"b", VInt 7)])
  /\ run0 f Outbound false (VDict false []) = Ok (VDict false [])
  /\ process_gen env0 nodesc norecon 5 f true Inbound false [] (VDict false []) = Ok (VDict false []).
Proof. repeat split; reflexivity. Qed.
@end *)

(** @prop C26 A partial run does not require any key: with every present key accepted it succeeds on
    exactly those keys. *)
Lemma structure_partial_run :
  forall E desc recon n p defn strict ko ph ser anc order o items,
    p_preprocessor p = None -> NoDup (map fst defn) -> NoDup (map fst order) ->
    Forall (fun kf => defined E (snd kf)) order -> visits defn ko order ->
    distinct (e_local E) (map fst items) ->
    let path := path_of p (KStructure (SPlain defn) strict ko) anc in
    (forall k, In k (map fst items) -> exists s, k = VStr s /\ In s (map fst order)) ->
    (forall k f v, In (k, f) order -> In (VStr k, v) items ->
       accepted (process_gen E desc recon n f false ph ser (path ++ [name_segment k]) v)) ->
    accepted (process_gen E desc recon n (Fld p (KStructure (SPlain defn) strict ko)) true ph ser anc
                (VDict o items)).
Proof.
  intros E desc recon n p defn strict ko ph ser anc order o items
    Hpre Hnd Hndo Hdef Hvis Hdis path Hkeys Hacc.
  set (run := fun k g x => process_gen E desc recon n g false ph ser (path ++ [name_segment k]) x).
  assert (Hg : exists es, gathered (fate E run ph true path items) (fun out y => out = Ok y) order es).
  { assert (Hall : forall k f, In (k, f) order -> defined E f /\
               forall v, In (VStr k, v) items -> accepted (run k f v)).
    { intros k f Hin. split; [rewrite Forall_forall in Hdef; exact (Hdef _ Hin)|]. intros v Hv. eauto. }
    clear - Hall. induction order as [|[k f] l IH]; [exists []; constructor|].
    destruct IH as [es Hes]. { intros k0 f0 H0. apply Hall. right. exact H0. }
    destruct (Hall k f (or_introl eq_refl)) as [[q Hq] Hv].
    destruct (sget k items) as [v|] eqn:Hs.
    - apply sget_In in Hs. destruct (Hv v Hs) as [y Hy].
      destruct (p_ignore_null q && is_none v) eqn:Hi.
      + apply andb_true_iff in Hi. destruct Hi as [Hi Hn]. destruct v; try discriminate.
        exists es. constructor; [eapply fate_null_ignored; eauto|exact Hes].
      + exists ((VStr k, y) :: es). econstructor; [eapply fate_given; eauto|exact Hy|exact Hes].
        intros [H1 ->]. rewrite H1 in Hi. discriminate.
    - exists es. constructor; [apply fate_partial; [apply sget_None, Hs|reflexivity]|exact Hes]. }
  destruct Hg as [es Hes]. exists (VDict (has_order ko) es).
  apply (structure_accepts E desc recon n p defn strict ko true ph ser anc order); try assumption.
  split; [intros _; exact Hkeys|]. exists es. split; [reflexivity|exact Hes].
Qed.

(** @example
(* The required key b is absent. *)
Example C26_partial_example :
  let f := Fld p0 (KStructure (SPlain [($"a", Fld p0 (KInteger None None));
                                       ($"b", Fld p_req (KInteger None None))]) true None) in
  process_gen env0 nodesc norecon 5 f true Inbound false [] (VDict false [(VStr $"a", VInt 1)])
  = Ok (VDict false [(VStr $"a", VInt 1)])
  /\ process_gen env0 nodesc norecon 5 f false Inbound false [] (VDict false [(VStr $"a", VInt 1)])
  = fails_with [$"(structure)"] (VDict false [(VStr $"a", VInt 1);
                                              (VStr $"b", token_error [$"(structure)"] $"required")]).
Proof. split; reflexivity. Qed.
@end *)

(** ** C27 *)

(** @prop C27 The claim does not hold: a null for an ignored field that has a default is dropped,
    while the absent key gets the default; and a null for an ignored required field is accepted, while
    the absent key is rejected. *)
Lemma ignore_null_absence_refuted :
  exists E desc recon n f f' d,
    process_gen E desc recon n f false Inbound false [] (VDict false [(VStr $"a", VNone)]) = Ok (VDict false [])
    /\ process_gen E desc recon n f false Inbound false [] (VDict false []) = Ok (VDict false [(VStr $"a", d)])
    /\ process_gen E desc recon n f' false Inbound false [] (VDict false [(VStr $"a", VNone)]) = Ok (VDict false [])
    /\ rejected (process_gen E desc recon n f' false Inbound false [] (VDict false [])).
Proof.
  exists env0, nodesc, norecon, O,
    (Fld p0 (KStructure (SPlain [($"a", Fld {| p_name := None; p_nonnull := false; p_required := false;
       p_ignore_null := true; p_default := VInt 3; p_constant := VNone; p_preprocessor := None;
       p_extractor := None; p_instantiator := None; p_title := VNone; p_description := VNone;
       p_notes := VNone; p_aspects := [] |} (KInteger None None))]) true None)),
    (Fld p0 (KStructure (SPlain [($"a", Fld {| p_name := None; p_nonnull := false; p_required := true;
       p_ignore_null := true; p_default := VNone; p_constant := VNone; p_preprocessor := None;
       p_extractor := None; p_instantiator := None; p_title := VNone; p_description := VNone;
       p_notes := VNone; p_aspects := [] |} (KInteger None None))]) true None)),
    (VInt 3).
  repeat split; try reflexivity. eexists. reflexivity.
Qed.

(** @prop C27 Part of the claim that holds: the null of an ignored field is never reported and never
    in the result; and for a field without default that is not required, or in a partial run, it is
    exactly as absence. *)
Lemma ignore_null_partial :
  forall E run ph partial path k f q before after,
    defined_as E f q -> p_ignore_null q = true ->
    distinct (e_local E) (map fst (before ++ (VStr k, VNone) :: after)) ->
    let fates items := fate E run ph partial path items in
    (forall o, fates (before ++ (VStr k, VNone) :: after) (k, f) o <-> o = None)
    /\ (partial = true \/ p_required q = false /\ (ph = Outbound \/ p_default q = VNone) ->
        forall o, fates (before ++ after) (k, f) o <-> o = None).
Proof.
  intros E run ph partial path k f q before after Hq Hi Hdis fates.
  assert (Hdet : forall q', defined_as E f q' -> q' = q).
  { intros q' H1. apply defined_fparams in H1. apply defined_fparams in Hq. congruence. }
  assert (Hin : In (VStr k, VNone) (before ++ (VStr k, VNone) :: after)) by (apply in_elt).
  assert (Hgiv : forall v, In (VStr k, v) (before ++ (VStr k, VNone) :: after) -> v = VNone).
  { intros v H1. apply (sget_distinct (e_local E)) in H1; [|exact Hdis].
    apply (sget_distinct (e_local E)) in Hin; [|exact Hdis]. congruence. }
  assert (Habs : forall v, ~ In (VStr k, v) (before ++ after)).
  { intros v Hv. rewrite map_app in Hdis. apply distinct_app in Hdis.
    destruct Hdis as [_ [[H2 _] H3]].
    assert (Hrefl : veq (e_local E) (VStr k) (VStr k) = true) by (cbn; apply str_eqb_refl).
    apply in_app_or in Hv. destruct Hv as [Hv|Hv]; apply (in_map fst) in Hv.
    - specialize (H3 _ (VStr k) Hv (or_introl eq_refl)). cbn [fst] in H3. congruence.
    - specialize (H2 _ Hv). cbn [fst] in H2. congruence. }
  split.
  - intros o. split.
    + intros H. inversion H; subst; try reflexivity.
      * match goal with H1 : defined_as E f ?q', H2 : ~ _ |- _ => exfalso; apply H2; rewrite (Hdet q' H1); auto end.
      * exfalso. match goal with H1 : forall v, ~ _ |- _ => exact (H1 _ Hin) end.
      * exfalso. match goal with H1 : forall v, ~ _ |- _ => exact (H1 _ Hin) end.
    + intros ->. eapply fate_null_ignored; eauto.
  - intros Hor o. split.
    + intros H. inversion H; subst; try reflexivity.
      * exfalso. eapply Habs; eassumption.
      * match goal with H1 : defined_as E f ?q' |- _ => rewrite (Hdet q' H1) in * end.
        destruct Hor as [|[_ [|]]]; congruence.
      * match goal with H1 : defined_as E f ?q' |- _ => rewrite (Hdet q' H1) in * end.
        destruct Hor as [|[? _]]; congruence.
    + intros ->. destruct partial eqn:Hp; [apply fate_partial; auto|].
      destruct Hor as [|[H1 H2]]; [discriminate|]. eapply fate_optional; eauto.
Qed.

(** @example
(* The null of the optional ignored field is dropped. *)
Example C27_example :
  run0 (Fld p0 (KStructure (SPlain [($"a", Fld {| p_name := None; p_nonnull := true; p_required := false;
       p_ignore_null := true; p_default := VNone; p_constant := VNone; p_preprocessor := None;
       p_extractor := None; p_instantiator := None; p_title := VNone; p_description := VNone;
       p_notes := VNone; p_aspects := [] |} (KInteger None None));
      ($"b", Fld p_nn (KInteger None None))]) true None))
    Inbound false (VDict false [(VStr $"a", VNone); (VStr $"b", VInt 2)])
  = Ok (VDict false [(VStr $"b", VInt 2)]).
Proof. reflexivity. Qed.
@end *)

(** ** C28 *)

(** @prop C28 A polymorphic structure does with a dict exactly what the plain structure of the
    selected variant does: no discriminator gives [required], the discriminator is processed by its
    own field, an unknown one gives [unrecognized]. *)
Lemma polymorphic_selects :
  forall E desc recon n p on q name variants strict partial ph ser anc o items,
    p_preprocessor p = None -> defined_as E on q -> p_name q = Some name ->
    distinct (e_local E) (map fst items) ->
    let path := path_of p (KStructure (SPoly on variants) strict None) anc in
    let out := process_gen E desc recon n (Fld p (KStructure (SPoly on variants) strict None))
                 partial ph ser anc (VDict o items) in
    let run v := process_gen E desc recon n on false ph ser (path ++ [name_segment name]) v in
    let chosen id := find (fun vd => veq (e_local E) (fst vd) id) variants in
    ((forall v, In (VStr name, v) items -> v = VNone) -> out = fails path $"required")
    /\ (forall v, In (VStr name, v) items -> v <> VNone ->
         (forall x, run v = Raise x -> out = Raise x)
         /\ (forall id, run v = Ok id -> hashable id = true ->
              (chosen id = None -> out = fails path $"unrecognized")
              /\ (forall vk defn, chosen id = Some (vk, defn) -> defn <> [] ->
                  out = process_gen E desc recon n (Fld p (KStructure (SPlain defn) strict None))
                          partial ph ser anc (VDict o items)))).
Proof.
  intros E desc recon n p on q name variants strict partial ph ser anc o items Hpre Hq Hname Hdis
    path out run chosen.
  set (g := fun kf : str * field => (fst kf, (snd kf, process_gen E desc recon n (snd kf) false))).
  assert (Hpoly : out =
    match match sget name items with None | Some VNone => None | Some v => Some v end with
    | None => verr path $"required"
    | Some ident =>
        do ident' <- run ident;
        if hashable ident' then
          match find (fun vd => veq (e_local E) (fst vd) ident')
                  (map (fun vl => (fst vl, map g (snd vl))) variants) with
          | Some (_, kf :: rest) => struct_run E (kf :: rest) strict None ident' partial ph ser path items
          | _ => verr path $"unrecognized"
          end
        else py TypeError
    end).
  { unfold out. rewrite process_Fld. unfold process_body.
    rewrite (path_of_eq p (KStructure (SPoly on variants) strict None) anc) by reflexivity.
    cbn [kmap sdef_map]. fold path. unfold process_structure.
    rewrite is_null_some by discriminate. cbn [bind as_dict].
    unfold pre_raw. rewrite Hpre. cbn [bind as_dict fst snd].
    apply defined_fparams in Hq. rewrite Hq, Hname.
    destruct (sget name items) as [[]|]; reflexivity. }
  assert (Hfind : forall id, find (fun vd => veq (e_local E) (fst vd) id)
                    (map (fun vl => (fst vl, map g (snd vl))) variants)
                  = option_map (fun vl => (fst vl, map g (snd vl))) (chosen id)).
  { intros id. unfold chosen. clear. induction variants as [|[vk d] vs IH]; cbn; [reflexivity|].
    destruct (veq (e_local E) vk id); [reflexivity|exact IH]. }
  split.
  - intros Hnone. rewrite Hpoly. destruct (sget name items) as [v|] eqn:Hs; [|reflexivity].
    apply sget_In in Hs. rewrite (Hnone v Hs). reflexivity.
  - intros v Hv Hnn. apply (sget_distinct (e_local E)) in Hv; [|exact Hdis].
    assert (Hsome : match sget name items with None | Some VNone => None | Some v => Some v end = Some v).
    { rewrite Hv. destruct v; try reflexivity. contradiction. }
    rewrite Hsome in Hpoly. rewrite Hpoly. split.
    + intros x ->. reflexivity.
    + intros id -> Hh. cbn [bind]. rewrite Hh, Hfind. split.
      * intros ->. reflexivity.
      * intros vk defn -> Hne. cbn [option_map fst snd].
        destruct defn as [|kf rest]; [contradiction|]. cbn [map].
        rewrite process_Fld. unfold process_body.
        rewrite (path_of_eq p (KStructure (SPlain (kf :: rest)) strict None) anc) by reflexivity.
        cbn [kmap sdef_map]. unfold process_structure. rewrite is_null_some by discriminate.
        cbn [bind as_dict]. unfold pre_raw. rewrite Hpre. cbn [bind as_dict].
        assert (Hpath : path_of p (KStructure (SPlain (kf :: rest)) strict None) anc = path)
          by reflexivity.
        rewrite Hpath. reflexivity.
Qed.

(** @prop C28 The result carries the discriminator, if the chosen variant has a field for it: the
    value under the discriminator's name is what that field makes of it. *)
Lemma polymorphic_discriminator :
  forall E desc recon n p on q name variants strict partial ph ser anc o items id vk defn f qf v entries,
    p_preprocessor p = None -> defined_as E on q -> p_name q = Some name ->
    distinct (e_local E) (map fst items) ->
    In (VStr name, v) items -> v <> VNone ->
    let path := path_of p (KStructure (SPoly on variants) strict None) anc in
    process_gen E desc recon n on false ph ser (path ++ [name_segment name]) v = Ok id ->
    hashable id = true ->
    find (fun vd => veq (e_local E) (fst vd) id) variants = Some (vk, defn) ->
    NoDup (map fst defn) -> Forall (fun kf => defined E (snd kf)) defn ->
    In (name, f) defn -> defined_as E f qf ->
    process_gen E desc recon n (Fld p (KStructure (SPoly on variants) strict None))
      partial ph ser anc (VDict o items) = Ok (VDict false entries) ->
    exists y, In (VStr name, y) entries
      /\ process_gen E desc recon n f false ph ser (path ++ [name_segment name]) v = Ok y.
Proof.
  intros E desc recon n p on q name variants strict partial ph ser anc o items id vk defn f qf v entries
    Hpre Hq Hname Hdis Hin Hnn path Hon Hh Hfind Hnd Hdef Hf Hqf Hout.
  destruct (polymorphic_selects E desc recon n p on q name variants strict partial ph ser anc o items
              Hpre Hq Hname Hdis) as [_ Hsel].
  destruct (Hsel v Hin Hnn) as [_ Hsel2].
  destruct (Hsel2 id Hon Hh) as [_ Hsel3].
  assert (Hne : defn <> []) by (intros ->; destruct Hf).
  rewrite (Hsel3 vk defn Hfind Hne) in Hout.
  apply (structure_accepts E desc recon n p defn strict None partial ph ser anc defn) in Hout;
    try assumption; [|reflexivity].
  destruct Hout as [_ [entries' [Heq Hg]]]. injection Heq as <-.
  assert (Hfun := fate_fun E desc recon n p defn strict None partial ph ser anc items Hdis (name, f)).
  assert (Hfate : ~ (p_ignore_null qf = true /\ v = VNone)) by tauto.
  destruct (gathered_in _ _ _ _ name f _ Hg Hnd Hf Hfun
              (fate_given _ _ _ _ _ _ name f qf v Hqf Hin Hfate)) as [e [H1 H2]].
  exists e. split; [exact H1|exact H2].
Qed.

(** @example
(* Two variants selected by an enumeration. *)
Example C28_example :
  let kindf := Fld (p_named $"kind") (KEnumeration [VStr $"i"; VStr $"t"] None) in
  let f := Fld p0 (KStructure (SPoly kindf
     [(VStr $"i", [($"kind", kindf); ($"x", Fld p_req (KInteger None None))]);
      (VStr $"t", [($"kind", kindf); ($"x", Fld p_req (KText None None None true))])]) true None) in
  run0 f Inbound false (VDict false [(VStr $"kind", VStr $"t"); (VStr $"x", VStr $"a")])
  = Ok (VDict false [(VStr $"kind", VStr $"t"); (VStr $"x", VStr $"a")])
  /\ run0 f Inbound false (VDict false [(VStr $"x", VStr $"a")]) = fails [$"(structure)"] $"required"
  /\ run0 f Inbound false (VDict false [(VStr $"kind", VStr $"z")])
     = just_token CInvalidType [$"(structure)"; $".kind"] $"invalid".
Proof. repeat split; reflexivity. Qed.
@end *)

(** ** C29 *)

Lemma gathered_sublist fates R order es :
  gathered fates R order es -> sublist (map fst es) (map (fun kf => VStr (fst kf)) order).
Proof.
  intros H. induction H; cbn [map fst];
    [constructor|apply sublist_skip; assumption|apply sublist_take; assumption].
Qed.

(** @prop C29 The keys of a result are the visited keys, in the order of [key_order] if there is one
    (else of the definition), with some left out. *)
Lemma structure_key_order :
  forall E desc recon n p defn strict ko partial ph ser anc order o items r,
    p_preprocessor p = None -> NoDup (map fst defn) -> NoDup (map fst order) ->
    Forall (fun kf => defined E (snd kf)) order -> visits defn ko order ->
    distinct (e_local E) (map fst items) ->
    process_gen E desc recon n (Fld p (KStructure (SPlain defn) strict ko)) partial ph ser anc (VDict o items)
    = Ok r ->
    exists entries, r = VDict (has_order ko) entries
      /\ sublist (map fst entries)
           (map VStr (match ko with Some (k :: ks) => k :: ks | _ => map fst defn end)).
Proof.
  intros E desc recon n p defn strict ko partial ph ser anc order o items r
    Hpre Hnd Hndo Hdef Hvis Hdis Hout.
  apply (structure_accepts E desc recon n p defn strict ko partial ph ser anc order) in Hout; try assumption.
  destruct Hout as [_ [entries [-> Hg]]]. exists entries. split; [reflexivity|].
  apply gathered_sublist in Hg.
  assert (Heq : map VStr (match ko with Some (k :: ks) => k :: ks | _ => map fst defn end)
                = map (fun kf : str * field => VStr (fst kf)) order).
  { unfold visits in Hvis. destruct ko as [[|k ks]|].
    - subst. rewrite map_map. reflexivity.
    - destruct Hvis as [<- _]. rewrite map_map. reflexivity.
    - subst. rewrite map_map. reflexivity. }
  rewrite Heq. exact Hg.
Qed.

Lemma NoDup_app_left {A} (l m : list A) : NoDup (l ++ m) -> NoDup l.
Proof.
  induction l as [|a l IH]; cbn; intros H; [constructor|]. inversion H as [|? ? Hn Hl]; subst.
  constructor; [|auto]. intros Hin. apply Hn, in_or_app. auto.
Qed.

(** @prop C29 A key order that names a key not in the definition makes every dict fail with KeyError
    (unless an exception of an earlier field comes first). *)
Lemma structure_key_order_undefined :
  forall E desc recon n p defn strict o1 o2 k partial ph ser anc order o items,
    p_preprocessor p = None -> NoDup (map fst defn) -> NoDup (o1 ++ k :: o2) ->
    map fst order = o1 -> incl order defn ->
    Forall (fun kf => defined E (snd kf)) order -> ~ In k (map fst defn) ->
    distinct (e_local E) (map fst items) ->
    let ko := Some (o1 ++ k :: o2) in
    let path := path_of p (KStructure (SPlain defn) strict ko) anc in
    let run k g x := process_gen E desc recon n g false ph ser (path ++ [name_segment k]) x in
    (forall kf out, In kf order -> fate E run ph partial path items kf (Some out) -> orderly out) ->
    process_gen E desc recon n (Fld p (KStructure (SPlain defn) strict ko)) partial ph ser anc (VDict o items)
    = Raise (XPy KeyError).
Proof.
  intros E desc recon n p defn strict o1 o2 k partial ph ser anc order o items
    Hpre Hnd Hndo Ho1 Hincl Hdef Hk Hdis ko path run Hord.
  rewrite process_Fld. unfold process_body.
  rewrite (path_of_eq p (KStructure (SPlain defn) strict ko) anc) by reflexivity. cbn [kmap sdef_map].
  fold path. unfold process_structure. rewrite is_null_some by discriminate. cbn [bind as_dict].
  unfold pre_raw. rewrite Hpre. cbn [bind as_dict]. unfold struct_run.
  set (cdefn := map (fun kf : str * field => (fst kf, (snd kf, process_gen E desc recon n (snd kf) false))) defn : list (str * child)).
  assert (Ho : match ko with Some (o :: os) => poly_order (o :: os) VNone | _ => Ok (map fst cdefn) end
               = Ok (o1 ++ k :: o2)) by (unfold ko; destruct o1; reflexivity).
  rewrite Ho. cbn [bind]. rewrite struct_loop_traverse; [|exact Hndo|intros k0 _; apply kmem_sget|reflexivity].
  match goal with |- bind (bind ?m _) _ = _ => assert (Ht : m = py KeyError) end.
  { apply traverse_raise. exists o1, k, o2. split; [reflexivity|]. split.
    - unfold sstep. assert (Hn : aget k cdefn = None).
      { apply aget_None. unfold cdefn. rewrite map_map. exact Hk. }
      rewrite Hn. reflexivity.
    - subst o1. apply Forall_forall. intros k0 Hin0. apply in_map_iff in Hin0.
      destruct Hin0 as [[k1 f1] [<- Hin1]]. cbn [fst].
      destruct order as [|kf0 ord0] eqn:Hord0; [destruct Hin1|].
      assert (Hvis : visits defn (Some (map fst order)) order).
      { rewrite Hord0. cbn. split; [reflexivity|exact Hincl]. }
      rewrite <- Hord0 in *.
      assert (Hndo' : NoDup (map fst order)) by (eapply NoDup_app_left; exact Hndo).
      assert (Hst := sstep_fate E desc recon n p defn strict (Some (map fst order)) partial ph ser anc order items
                       Hnd Hdef Hvis Hdis k1 f1 Hin1).
      change (path_of p (KStructure (SPlain defn) strict (Some (map fst order))) anc) with path in Hst.
      fold cdefn in Hst. fold run in Hst.
      destruct (sstep E cdefn items partial ph ser path k1) as [r|[e|x]]; [eauto|destruct Hst|].
      exfalso. exact (Hord _ _ Hin1 Hst x eq_refl). }
  rewrite Ht. reflexivity.
Qed.

(** @example
(* Given z, y, x in some order, the result follows the key order; an undefined key fails. *)
Example C29_example :
  let d := SPlain [($"x", Fld p0 (KInteger None None)); ($"y", Fld p0 (KInteger None None));
                   ($"z", Fld p0 (KInteger None None))] in
  run0 (Fld p0 (KStructure d true (Some [$"z"; $"x"; $"y"]))) Inbound false
    (VDict false [(VStr $"x", VInt 1); (VStr $"z", VInt 3); (VStr $"y", VInt 2)])
  = Ok (VDict true [(VStr $"z", VInt 3); (VStr $"x", VInt 1); (VStr $"y", VInt 2)])
  /\ run0 (Fld p0 (KStructure d true (Some [$"z"; $"w"]))) Inbound false (VDict false [(VStr $"z", VStr $"a")])
  = Raise (XPy KeyError).
Proof. split; reflexivity. Qed.
@end *)

(** @prop C29 A defined key that the key order omits is treated as an unknown key: rejected if the
    structure is strict, dropped if not. *)
Lemma structure_key_order_omits :
  forall E desc recon n p defn strict k0 ks partial ph ser anc order o items r k v,
    p_preprocessor p = None -> NoDup (map fst defn) -> NoDup (map fst order) ->
    Forall (fun kf => defined E (snd kf)) order -> visits defn (Some (k0 :: ks)) order ->
    distinct (e_local E) (map fst items) ->
    In (VStr k, v) items -> ~ In k (k0 :: ks) ->
    process_gen E desc recon n (Fld p (KStructure (SPlain defn) strict (Some (k0 :: ks))))
      partial ph ser anc (VDict o items) = Ok r ->
    strict = false /\ exists entries, r = VDict true entries /\ ~ In (VStr k) (map fst entries).
Proof.
  intros E desc recon n p defn strict k0 ks partial ph ser anc order o items r k v
    Hpre Hnd Hndo Hdef Hvis Hdis Hin Hno Hout.
  assert (Hord : map fst order = k0 :: ks) by apply Hvis.
  assert (Hout' := Hout).
  apply (structure_accepts E desc recon n p defn strict (Some (k0 :: ks)) partial ph ser anc order) in Hout; try assumption.
  destruct Hout as [Hs [entries [-> Hg]]]. split.
  - destruct strict; [exfalso|reflexivity].
    destruct (Hs eq_refl (VStr k) (in_map fst _ _ Hin)) as [s [[= <-] Hin']].
    rewrite Hord in Hin'. contradiction.
  - exists entries. split; [reflexivity|]. intros Hc. apply Hno. rewrite <- Hord.
    clear - Hg Hc. induction Hg as [| |k1 f1 o1 e1 l es H1 H2 H3 IH]; cbn in *; auto.
    destruct Hc as [[= <-]|Hc]; auto.
Qed.

(** @example
(* y is not in the key order. *)
Example C29_omits_example :
  let d := SPlain [($"x", Fld p0 (KInteger None None)); ($"y", Fld p0 (KInteger None None))] in
  run0 (Fld p0 (KStructure d false (Some [$"x"]))) Inbound false
    (VDict false [(VStr $"x", VInt 1); (VStr $"y", VInt 2)])
  = Ok (VDict true [(VStr $"x", VInt 1)]).
Proof. reflexivity. Qed.
@end *)
