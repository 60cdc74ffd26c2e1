(** * Facts about constructors and copies. *)
From Verif Require Import PyBaseFacts Induct ProcessFacts Spec StructFacts UndefProofs.
From Verif Require Export ConSpec.

Lemma alike_refl f : alike f f.
Proof. reflexivity. Qed.
Lemma alike_sym f g : alike f g -> alike g f.
Proof. unfold alike. congruence. Qed.
Lemma alike_trans f g h : alike f g -> alike g h -> alike f h.
Proof. unfold alike. congruence. Qed.

(** ** Validation does not look at documentation *)

Lemma approx_both {A} (a b : res A) : approx a b -> approx b a -> a = b.
Proof. intros [-> | ->] [H | H]; congruence. Qed.

Lemma body_bare E desc recon sub p k partial ph ser anc v :
  process_body E desc recon sub p k partial ph ser anc v
  = process_body E desc recon sub (bare p) k partial ph ser anc v.
Proof. destruct k; reflexivity. Qed.

Lemma fparams_undocumented E f :
  option_map bare (fparams E f) = option_map bare (fparams E (undocumented f)).
Proof. destruct f; reflexivity. Qed.

Lemma undocumented_process E desc recon n f : forall partial ph ser anc v,
  process_gen E desc recon n (undocumented f) partial ph ser anc v
  = process_gen E desc recon n f partial ph ser anc v.
Proof.
  induction f as [i|p k IHk] using field_ind'; intros partial ph ser anc v; [reflexivity|].
  cbn [undocumented]. rewrite !process_Fld. rewrite (body_bare _ _ _ _ p), kmap_kmap. apply approx_both.
  - apply body_mono; [|intros; apply approx_refl]. intros f Hf. split.
    + symmetry. apply fparams_undocumented.
    + cbn. intros. rewrite IHk by exact Hf. apply approx_refl.
  - apply body_mono; [|intros; apply approx_refl]. intros f Hf. split.
    + apply fparams_undocumented.
    + cbn. intros. rewrite IHk by exact Hf. apply approx_refl.
Qed.

Lemma alike_process E desc recon n f g partial ph ser anc v : alike f g ->
  process_gen E desc recon n f partial ph ser anc v = process_gen E desc recon n g partial ph ser anc v.
Proof. intros H. rewrite <- undocumented_process, H. apply undocumented_process. Qed.

(** ** Lists *)

Lemma each_ok {A B} (f : A -> res B) l bs : each f l = Ok bs <-> Forall2 (fun a b => f a = Ok b) l bs.
Proof.
  revert bs. induction l as [|a l IH]; intros bs; cbn.
  - split; [intros H; injection H as <-; constructor|intros H; inversion H; reflexivity].
  - split.
    + intros H. apply bind_Ok in H. destruct H as [b [Hb H]]. apply bind_Ok in H. destruct H as [l' [Hl H]].
      injection H as <-. constructor; [exact Hb|apply IH, Hl].
    + intros H. inversion H as [|? b ? bs' Hb Hl]; subst. rewrite Hb. cbn. apply IH in Hl. rewrite Hl. reflexivity.
Qed.

Lemma each_id {A} (f : A -> res A) l : (forall a, In a l -> f a = Ok a) -> each f l = Ok l.
Proof.
  induction l as [|a l IH]; intros H; cbn; [reflexivity|]. rewrite H by (left; reflexivity). cbn.
  rewrite IH by (intros; apply H; right; assumption). reflexivity.
Qed.

Lemma each_map {A B C} (f : B -> res C) (g : A -> B) l : each f (map g l) = each (fun a => f (g a)) l.
Proof. induction l as [|a l IH]; cbn; [reflexivity|]. rewrite IH. reflexivity. Qed.

Lemma each_ext {A B} (f g : A -> res B) l : (forall a, In a l -> f a = g a) -> each f l = each g l.
Proof.
  induction l as [|a l IH]; intros H; cbn; [reflexivity|]. rewrite H by (left; reflexivity).
  rewrite IH by (intros; apply H; right; assumption). reflexivity.
Qed.

Lemma each_total {A B} (f : A -> res B) (g : A -> B) l : (forall a, In a l -> f a = Ok (g a)) -> each f l = Ok (map g l).
Proof.
  induction l as [|a l IH]; intros H; cbn; [reflexivity|]. rewrite H by (left; reflexivity). cbn.
  rewrite IH by (intros; apply H; right; assumption). reflexivity.
Qed.

(** ** Keyword arguments *)

Lemma others_get k names kw : aget k (others names kw) = if smem k names then None else aget k kw.
Proof.
  unfold others. induction kw as [|[x v] kw IH]; [cbn; destruct (smem k names); reflexivity|].
  cbn [filter aget fst]. destruct (str_eqb_spec k x) as [<-|Hn].
  - destruct (smem k names) eqn:Hm; cbn; [rewrite IH; reflexivity|]. rewrite str_eqb_refl. reflexivity.
  - destruct (smem x names); cbn; [exact IH|]. destruct (str_eqb_spec k x); [contradiction|exact IH].
Qed.

Lemma others_arg k names kw : arg k (others names kw) = if smem k names then VNone else arg k kw.
Proof. unfold arg. rewrite others_get. destruct (smem k names); reflexivity. Qed.

Lemma others_In kv names kw : In kv (others names kw) -> In kv kw.
Proof. unfold others. rewrite filter_In. intros []. assumption. Qed.

Lemma add_aspects_ok extra : forall acc, Forall (fun kv => fst kv <> []) extra ->
  exists r, add_aspects extra acc = Ok r.
Proof.
  induction extra as [|[k v] l IH]; intros acc H; cbn; [eauto|]. inversion H as [|? ? Hk Hl]; subst.
  destruct k as [|c k]; [exfalso; apply Hk; reflexivity|]. destruct ((c =? 95)%N || is_none v); apply IH, Hl.
Qed.

Lemma add_aspects_fieldless extra : forall acc r, add_aspects extra acc = Ok r ->
  Forall (fun kv => fieldless (snd kv) = true) extra ->
  forallb (fun kv => fieldless (snd kv)) acc = true -> forallb (fun kv => fieldless (snd kv)) r = true.
Proof.
  induction extra as [|[k v] l IH]; intros acc r H Hx Ha; cbn in H; [congruence|].
  inversion Hx as [|? ? Hv Hl]; subst. destruct k as [|c k]; [discriminate|].
  destruct ((c =? 95)%N || is_none v); [apply (IH acc r H Hl Ha)|]. apply (IH _ r H Hl). clear -Hv Ha.
  cbn [snd] in Hv. generalize dependent (c :: k). intros s.
  induction acc as [|[x w] acc IH]; cbn [aset forallb snd] in *; [rewrite Hv; reflexivity|]. apply andb_prop in Ha.
  destruct Ha as [H1 H2]. destruct (str_eqb s x); cbn [forallb snd]; [rewrite Hv, H2; reflexivity|].
  rewrite H1. apply IH, H2.
Qed.

(** The arguments that make [Field.__init__] produce the parameters [p]. *)
Record base_ok (E : env) (kw : list (str * val)) (p : params) : Prop := {
  bo_name : arg $"name" kw = opt VStr (p_name p);
  bo_nonnull : flag $"nonnull" kw = p_nonnull p;
  bo_required : flag $"required" kw = p_required p;
  bo_ignore : flag $"ignore_null" kw = p_ignore_null p;
  bo_nonempty : flag $"nonempty" kw = false;
  bo_default : arg $"default" kw = p_default p;
  bo_constant : arg $"constant" kw = p_constant p;
  bo_inst : callable E $"__instantiate__" (arg $"instantiator" kw) = Ok (p_instantiator p);
  bo_ext : callable E $"__extract__" (arg $"extractor" kw) = Ok (p_extractor p);
  bo_pre : arg $"preprocessor" kw = callee (p_preprocessor p);
  bo_title : arg $"title" kw = p_title p;
  bo_description : arg $"description" kw = p_description p;
  bo_notes : arg $"notes" kw = p_notes p;
  bo_aspects : arg $"aspects" kw = VNone \/ exists l, arg $"aspects" kw = VDict false (strs l);
  bo_keys : Forall (fun kv => fst kv <> []) kw
}.

Definition same_but_aspects (p q : params) : Prop :=
  p_title p = p_title q /\ p_description p = p_description q /\ p_notes p = p_notes q /\ bare p = bare q.

(** The arguments that become aspects contain no fields. *)
Definition asides (kw : list (str * val)) : Prop :=
  forall kv, In kv kw -> fst kv = $"aspects" \/ smem (fst kv) base_args = false -> fieldless (snd kv) = true.

Lemma strs_each l : each (fun kv => do s <- as_str (fst kv); Ok (s, snd kv)) (strs l) = Ok l.
Proof. unfold strs. rewrite each_map. apply each_id. intros [a b] _. reflexivity. Qed.

Lemma init_params_ok E kw p : base_ok E kw p ->
  exists p', init_params E kw = Ok p' /\ same_but_aspects p' p
    /\ (asides kw -> forallb (fun kv => fieldless (snd kv)) (p_aspects p') = true).
Proof.
  intros H. unfold init_params. rewrite (bo_inst _ _ _ H), (bo_ext _ _ _ H). cbn [bind].
  assert (Ha : exists asp, match arg $"aspects" kw with
            | VDict _ l => each (fun kv => do s <- as_str (fst kv); Ok (s, snd kv)) l
            | v => if truthy v then outside else Ok []
            end = Ok asp /\ (asides kw -> forallb (fun kv => fieldless (snd kv)) asp = true)).
  { destruct (bo_aspects _ _ _ H) as [-> | [l Hl]]; [exists []; auto|]. rewrite Hl. rewrite strs_each. exists l.
    split; [reflexivity|]. intros Hf. unfold arg in Hl. destruct (aget _ kw) as [w|] eqn:Hg; [|discriminate]. subst w.
    apply aget_In in Hg. specialize (Hf _ Hg (or_introl eq_refl)). rename Hf into Hf'. clear Hg. rename Hf' into Hg. cbn in Hg. unfold strs in Hg.
    clear -Hg. induction l as [|[x y] l IH]; [reflexivity|]. cbn in *. apply andb_prop in Hg. destruct Hg as [-> Hg].
    apply IH, Hg. }
  destruct Ha as [asp [-> Hasp]]. cbn [bind].
  rewrite (bo_name _ _ _ H), (bo_pre _ _ _ H).
  replace (match opt VStr (p_name p) with VNone => Ok None | VStr s => Ok (Some s) | _ => outside end)
    with (Ok (p_name p)) by (destruct (p_name p); reflexivity).
  replace (match callee (p_preprocessor p) with VNone => Ok None | VObj i _ => Ok (Some i) | _ => outside end)
    with (Ok (p_preprocessor p)) by (destruct (p_preprocessor p); reflexivity).
  cbn [bind].
  destruct (add_aspects_ok (others base_args kw) asp) as [r Hr].
  { rewrite Forall_forall. intros kv Hkv. apply others_In in Hkv. pose proof (bo_keys _ _ _ H) as Hk.
    rewrite Forall_forall in Hk. apply Hk, Hkv. }
  rewrite Hr. cbn [bind]. eexists. split; [reflexivity|]. split.
  - unfold same_but_aspects, bare. cbn [p_title p_description p_notes p_name p_nonnull p_required p_ignore_null
      p_default p_constant p_preprocessor p_extractor p_instantiator].
    rewrite (bo_title _ _ _ H), (bo_description _ _ _ H), (bo_notes _ _ _ H), (bo_nonnull _ _ _ H), (bo_required _ _ _ H),
      (bo_ignore _ _ _ H), (bo_nonempty _ _ _ H), (bo_default _ _ _ H), (bo_constant _ _ _ H), !Bool.orb_false_r. auto.
  - intros Hf. cbn [p_aspects]. apply (add_aspects_fieldless _ _ _ Hr); [|apply Hasp, Hf].
    rewrite Forall_forall. intros kv Hkv. apply Hf; [apply (others_In _ _ _ Hkv)|]. right.
    unfold others in Hkv. apply filter_In in Hkv. destruct Hkv as [_ Hkv]. apply Bool.negb_true_iff in Hkv. exact Hkv.
Qed.

Lemma base_ok_others E c kw p : base_ok E kw p -> base_ok E (others (class_args c) kw) p.
Proof.
  intros H. destruct H. constructor; unfold flag in *; rewrite ?others_arg;
    try (destruct c; assumption); try (destruct c; (assumption || reflexivity)).
  rewrite Forall_forall in *. intros kv Hkv. apply bo_keys0. apply (others_In _ _ _ Hkv).
Qed.

(** The arguments that make the constructor of a class produce the kind [k]. *)
Definition kind_ok (E : env) (cl : field -> list (str * val) -> res field) (kw : list (str * val)) (k : kind) : Prop :=
  match k with
  | KField | KBoolean | KError | KObject | KUUID => True
  | KBinary mn mx => length_arg (arg $"min_length" kw) = Ok mn /\ length_arg (arg $"max_length" kw) = Ok mx
  | KText pat mn mx s => pattern_arg E (arg $"pattern" kw) = Ok pat
      /\ length_arg (arg $"min_length" kw) = Ok mn /\ length_arg (arg $"max_length" kw) = Ok mx
      /\ flag_on $"strip" kw = s
  | KEmail mu ex mn mx => flag $"multiple" kw = mu /\ flag $"extended" kw = ex /\ mu && ex = false
      /\ length_arg (arg $"min_length" kw) = Ok mn /\ length_arg (arg $"max_length" kw) = Ok mx
  | KDate mn mx => date_arg E (arg $"minimum" kw) = Ok mn /\ date_arg E (arg $"maximum" kw) = Ok mx
  | KTime mn mx => time_arg E (arg $"minimum" kw) = Ok mn /\ time_arg E (arg $"maximum" kw) = Ok mx
  | KDateTime mn mx utc => flag $"utc" kw = utc
      /\ datetime_arg E utc (arg $"minimum" kw) = Ok mn /\ datetime_arg E utc (arg $"maximum" kw) = Ok mx
  | KDecimal mn mx => dec_arg E (arg $"minimum" kw) = Ok mn /\ dec_arg E (arg $"maximum" kw) = Ok mx
  | KFloat mn mx => float_arg (arg $"minimum" kw) = Ok mn /\ float_arg (arg $"maximum" kw) = Ok mx
  | KInteger mn mx => int_arg (arg $"minimum" kw) = Ok mn /\ int_arg (arg $"maximum" kw) = Ok mx
  | KDefinition vf => valid_fields_arg (arg $"valid_fields" kw) = Ok vf
  | KSurrogate vs => valid_surrogates_arg (arg $"valid_surrogates" kw) = Ok vs
  | KEnumeration l ig => enumeration_arg (arg $"enumeration" kw) = Ok l
      /\ ignored_arg (arg $"ignored_values" kw) = Ok ig
  | KToken sg => segments_arg (arg $"segments" kw) = Ok sg
  | KMap v key rk => arg $"value" kw = VField v /\ key_arg (arg $"key" kw) = Ok key
      /\ required_keys_arg (arg $"required_keys" kw) = Ok rk
  | KSequence it mn mx u => arg $"item" kw = VField it
      /\ length_arg (arg $"min_length" kw) = Ok mn /\ length_arg (arg $"max_length" kw) = Ok mx
      /\ flag $"unique" kw = u
  | KTuple l => fields_arg (arg $"values" kw) = Ok l
  | KUnion l => fields_arg (arg $"fields" kw) = Ok l
  | KStructure d strict order =>
      key_order_arg (arg $"key_order" kw) = Ok order /\ flag_on $"strict" kw = strict
      /\ truthy (arg $"generate_default" kw) = false
      /\ match d with
         | SPlain l => truthy (arg $"polymorphic_on" kw) = false /\ structure_items (arg $"structure" kw) = Ok l
         | SPoly on vs =>
             exists items q kd name,
               as_dict (arg $"structure" kw) = Some items /\ sget $"*" items = None
               /\ arg $"polymorphic_on" kw = VField on /\ on = Fld q kd /\ p_required q = true
               /\ p_name q = Some name
               /\ each (fun kv => do fields <- structure_items (snd kv);
                                  do c <- cl on [($"constant", fst kv)];
                                  Ok (fst kv, aset name c fields)) items = Ok vs
         end
  end.

Lemma set_default_same p : set_default (p_default p) p = p.
Proof. destruct p; reflexivity. Qed.

Lemma nonempty_none E kw p : base_ok E kw p -> nonempty_args kw = [] /\ min_length_arg kw = arg $"min_length" kw.
Proof. intros H. unfold nonempty_args, min_length_arg. rewrite (bo_nonempty _ _ _ H). auto. Qed.

Lemma init_ok E cl kw p k : base_ok E kw p -> kind_ok E cl kw k ->
  exists p', init E cl (cls_of k) kw = Ok (Fld p' k) /\ same_but_aspects p' p
    /\ (asides (others (class_args (cls_of k)) kw) -> forallb (fun kv => fieldless (snd kv)) (p_aspects p') = true).
Proof.
  intros Hb Hk.
  destruct (nonempty_none E kw p Hb) as [Hne Hml].
  destruct (init_params_ok E _ p (base_ok_others E (cls_of k) kw p Hb)) as [p' [Hp [Hs Ha]]].
  exists p'. split; [|split; [exact Hs|exact Ha]].
  destruct k; cbn [cls_of] in *; cbn [kind_ok] in Hk; unfold init; cbv zeta;
    try (rewrite Hp; reflexivity).
  - rewrite Hne. cbn [app]. rewrite Hp. cbn [bind]. rewrite Hml. destruct Hk as [-> ->]. reflexivity.
  - rewrite Hp. cbn [bind]. destruct Hk as [-> ->]. reflexivity.
  - rewrite Hp. cbn [bind]. destruct Hk as [Hu [H1 H2]]. rewrite Hu, H1, H2. reflexivity.
  - rewrite Hp. cbn [bind]. destruct Hk as [-> ->]. reflexivity.
  - rewrite Hp. cbn [bind]. rewrite Hk. reflexivity.
  - destruct Hk as [H1 [H2 [H3 [H4 H5]]]]. rewrite H1, H2, H3, Hne. cbn [app]. rewrite Hp. cbn [bind]. rewrite Hml, H4, H5.
    reflexivity.
  - rewrite Hp. cbn [bind]. destruct Hk as [-> ->]. reflexivity.
  - rewrite Hp. cbn [bind]. destruct Hk as [-> ->]. reflexivity.
  - rewrite Hp. cbn [bind]. destruct Hk as [-> ->]. reflexivity.
  - rewrite Hp. cbn [bind]. destruct Hk as [-> [-> ->]]. reflexivity.
  - rewrite Hp. cbn [bind]. destruct Hk as [-> [-> [-> Hu]]]. rewrite Hu. reflexivity.
  - unfold init_structure. cbv zeta. destruct Hk as [Ho [Hst [Hg Hd]]]. unfold generated_default. rewrite Hg. cbn [andb].
    destruct d as [l|on vs].
    + destruct Hd as [Hon Hi]. unfold structure_items in Hi. destruct (as_dict (arg $"structure" kw)) eqn:Hd; [|discriminate].
      rewrite Hon, Ho. cbn [bind]. rewrite Hp. cbn [bind]. unfold structure_items. rewrite Hd, Hi. cbn [bind].
      rewrite set_default_same, Hst. reflexivity.
    + destruct Hd as [items [q [kd [name [Hd [Hstar [Hon [-> [Hr [Hn Hv]]]]]]]]]]. rewrite Hd, Hon.
      cbn [truthy]. unfold merge_common. rewrite Hstar. cbn [bind]. rewrite Hr. cbn [bind]. rewrite Ho. cbn [bind].
      rewrite Hp. cbn [bind]. rewrite Hn. cbn [bind]. rewrite Hv. cbn [bind]. rewrite set_default_same, Hst. reflexivity.
  - rewrite Hp. cbn [bind]. rewrite Hk. reflexivity.
  - rewrite Hne. cbn [app]. rewrite Hp. cbn [bind]. rewrite Hml. destruct Hk as [-> [-> [-> Hs']]]. rewrite Hs'. reflexivity.
  - rewrite Hp. cbn [bind]. destruct Hk as [-> ->]. reflexivity.
  - rewrite Hp. cbn [bind]. rewrite Hk. reflexivity.
  - rewrite Hp. cbn [bind]. rewrite Hk. reflexivity.
  - rewrite Hp. cbn [bind]. rewrite Hk. reflexivity.
Qed.

(** ** Copies *)

Lemma dcopy_fieldless E cl v : fieldless v = true -> dcopy E cl v = Ok v.
Proof.
  induction v as [v IH] using val_ind'. intros H.
  destruct v as [ | | | | | | | | | |l|l|o l|i l|i s ve l|e|f]; try reflexivity; cbn in H; [| | |discriminate].
  - cbn. replace ((fix go (l0 : list val) : res (list val) := _) l) with (Ok l); [reflexivity|]. symmetry.
    assert (Hl : forall w, In w l -> dcopy E cl w = Ok w).
    { intros w Hw. apply IH; [exact Hw|]. rewrite forallb_forall in H. apply H, Hw. }
    clear IH H. induction l as [|x l IHl]; [reflexivity|]. rewrite Hl by (left; reflexivity). cbn [bind].
    rewrite IHl by (intros; apply Hl; right; assumption). reflexivity.
  - cbn. replace ((fix go (l0 : list val) : res (list val) := _) l) with (Ok l); [reflexivity|]. symmetry.
    assert (Hl : forall w, In w l -> dcopy E cl w = Ok w).
    { intros w Hw. apply IH; [exact Hw|]. rewrite forallb_forall in H. apply H, Hw. }
    clear IH H. induction l as [|x l IHl]; [reflexivity|]. rewrite Hl by (left; reflexivity). cbn [bind].
    rewrite IHl by (intros; apply Hl; right; assumption). reflexivity.
  - cbn. replace ((fix go (l0 : list (val * val)) : res (list (val * val)) := _) l) with (Ok l); [reflexivity|]. symmetry.
    assert (Hl : forall kv, In kv l -> dcopy E cl (snd kv) = Ok (snd kv)).
    { intros [a w] Hw. apply IH; [|rewrite forallb_forall in H; apply (H (a, w)), Hw].
      cbn. apply in_flat_map. exists (a, w). split; [exact Hw|right; left; reflexivity]. }
    clear IH H. induction l as [|[a x] l IHl]; [reflexivity|]. rewrite (Hl (a, x) (or_introl eq_refl) : dcopy E cl x = Ok x). cbn [bind].
    rewrite IHl by (intros; apply Hl; right; assumption). reflexivity.
Qed.

(** The copies as iterations. *)
Lemma dcopy_list E cl l : dcopy E cl (VList l) = do l' <- each (dcopy E cl) l; Ok (VList l').
Proof. cbn. f_equal. induction l as [|x l IH]; cbn; [reflexivity|]. rewrite IH. reflexivity. Qed.
Lemma dcopy_tuple E cl l : dcopy E cl (VTuple l) = do l' <- each (dcopy E cl) l; Ok (VTuple l').
Proof. cbn. f_equal. induction l as [|x l IH]; cbn; [reflexivity|]. rewrite IH. reflexivity. Qed.
Lemma dcopy_dict E cl o l : dcopy E cl (VDict o l)
  = do l' <- each (fun kv => do w <- dcopy E cl (snd kv); Ok (fst kv, w)) l; Ok (VDict o l').
Proof.
  cbn. f_equal. induction l as [|[a x] l IH]; cbn; [reflexivity|]. rewrite IH. destruct (dcopy E cl x); reflexivity.
Qed.

Definition copied (E : env) cl (v : val) : val := match dcopy E cl v with Ok w => w | Raise _ => v end.

Lemma copied_fieldless E cl v : fieldless v = true -> copied E cl v = v.
Proof. intros H. unfold copied. rewrite dcopy_fieldless by exact H. reflexivity. Qed.

Lemma aget_app {A} k (l m : list (str * A)) : aget k (l ++ m) = match aget k l with Some a => Some a | None => aget k m end.
Proof. induction l as [|[x a] l IH]; cbn; [reflexivity|]. destruct (str_eqb k x); [reflexivity|exact IH]. Qed.

Lemma copy_attrs_get E cl l : forall kw,
  Forall (fun kv => aget (fst kv) kw = None -> exists w, dcopy E cl (snd kv) = Ok w) l ->
  exists kw', copy_attrs E cl l kw = Ok kw'
    /\ (forall k, aget k kw' = match aget k kw with Some v => Some v | None => option_map (copied E cl) (aget k l) end)
    /\ (forall kv, In kv kw' -> In kv kw \/ exists v, In (fst kv, v) l /\ snd kv = copied E cl v).
Proof.
  induction l as [|[k v] l IH]; intros kw H; cbn [copy_attrs].
  - exists kw. split; [reflexivity|]. split; [|auto]. intros k. cbn. destruct (aget k kw); reflexivity.
  - inversion H as [|? ? Hw Hl]; subst. cbn [fst snd] in Hw. destruct (aget k kw) as [u|] eqn:Hk.
    + destruct (IH kw Hl) as [kw' [H1 [H2 H3]]]. exists kw'. split; [exact H1|]. split.
      * intros x. rewrite H2. cbn [aget]. destruct (aget x kw) eqn:Hx; [reflexivity|].
        destruct (str_eqb_spec x k) as [-> |]; [congruence|reflexivity].
      * intros kv Hkv. destruct (H3 kv Hkv) as [Hi|[v' [Hi Hv]]]; [auto|]. right. exists v'. split; [right; exact Hi|exact Hv].
    + destruct (Hw eq_refl) as [w Hw']. rewrite Hw'. destruct (IH (kw ++ [(k, w)])) as [kw' [H1 [H2 H3]]].
      { eapply Forall_impl; [|exact Hl]. intros kv Hkv Hn. apply Hkv. rewrite aget_app in Hn.
        destruct (aget (fst kv) kw); [discriminate|reflexivity]. }
      exists kw'. split; [exact H1|]. split.
      * intros x. rewrite H2, aget_app. cbn [aget]. destruct (aget x kw) eqn:Hx; [reflexivity|].
        destruct (str_eqb_spec x k) as [-> |]; [|reflexivity]. cbn. unfold copied. rewrite Hw'. reflexivity.
      * intros kv Hkv. destruct (H3 kv Hkv) as [Hi|[v' [Hi Hv]]].
        -- apply in_app_or in Hi. destruct Hi as [Hi|[<-|[]]]; [auto|]. right. exists v. split; [left; reflexivity|].
           cbn. unfold copied. rewrite Hw'. reflexivity.
        -- right. exists v'. split; [right; exact Hi|exact Hv].
Qed.
