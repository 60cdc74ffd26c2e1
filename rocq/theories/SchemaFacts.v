(** * Cloning a structural field with one of its slots replaced. *)
From Verif Require Import CloneFacts Schema.
From Verif Require Import PyBaseFacts StructProofs ConFacts ConSpec.

Lemma clone_start E m p k slot v : within (S m) (Fld p k) -> sound E (Fld p k) ->
  In slot (slots (cls_of k)) -> slot <> $"key" -> slot <> $"polymorphic_on" ->
  exists k1 kw2,
    clone E (S m) (Fld p k) [(slot, v)] = init E (clone E m) (cls_of k) kw2
    /\ kalike k1 k /\ (forall g, In g (subfields k1) -> sound E g)
    /\ (forall key w, key <> slot -> aget key (kind_attrs E k1) = Some w -> aget key kw2 = Some w)
    /\ aget slot kw2 = Some v
    /\ aget $"generate_default" kw2 = None
    /\ base_ok E kw2 p
    /\ (forall kv, In kv (others (class_args (cls_of k)) kw2) ->
          fst kv = $"aspects" \/ smem (fst kv) base_args = false -> fieldless (snd kv) = true).
Proof.
  intros Hw Hs Hslot Hnk Hnp. set (kw := [(slot, v)]).
  assert (Hcls0 : smem slot (class_args (cls_of k)) = true /\ smem slot base_args = false /\ smem slot commons = false
     /\ slot <> $"generate_default" /\ slot <> []).
  { destruct k; cbn in Hslot; repeat (destruct Hslot as [<-|Hslot]; [try contradiction; repeat split; reflexivity || discriminate|]); contradiction. }
  destruct Hcls0 as [Hca [Hba [Hco [Hgd Hne]]]].
  apply sound_Fld in Hs. destruct Hs as [[Hp1 [Hp2 [Hp3 [Hp4 Hp5]]]] [Hk Hsub]]. cbn [within] in Hw.
  set (cl := clone E m).
  assert (Hcopy : forall g, In g (subfields k) -> copyable E cl g).
  { intros g Hg. destruct (sound_inv E g (Hsub g Hg)) as [q [kq ->]].
    destruct (clone_ok E m q kq [] (Hw _ Hg) (Hsub _ Hg) (Forall_nil _)) as [g' [H1 [H2 H3]]]. rewrite replaced_nil, rekind_nil in H2.
    exists g'. split; [|auto]. cbn [dcopy]. fold cl in H1. rewrite H1. reflexivity. }
  destruct (copy_kind E cl k Hcopy Hk) as [k1 [Hcp [Hka [Hcls Hsub1]]]].
  cbn [clone].
  set (kw1 := match aget $"default" kw with Some _ => kw | None => kw ++ [($"default", p_default p)] end).
  assert (Hdf : aget $"default" kw = None).
  { unfold kw. cbn [aget]. destruct (str_eqb_spec $"default" slot) as [<-|]; [discriminate|reflexivity]. }
  assert (Hkw1 : forall key, aget key kw1 = match aget key kw with
                   | Some v => Some v
                   | None => if str_eqb key $"default" then Some (p_default p) else None end).
  { intros key. unfold kw1. rewrite Hdf. rewrite aget_app. destruct (aget key kw); [reflexivity|]. cbn [aget].
    destruct (str_eqb key $"default"); reflexivity. }
  assert (Hin1 : forall kv, In kv kw1 -> kv = (slot, v) \/ fst kv = $"default").
  { intros kv Hi. unfold kw1 in Hi. rewrite Hdf in Hi. unfold kw in Hi. destruct Hi as [<-|[<-|[]]]; [left|right]; reflexivity. }
  pose (base := [($"aspects", VDict false (strs (p_aspects p))); ($"constant", p_constant p);
   ($"default", p_default p); ($"description", p_description p);
   ($"extractor", callee (p_extractor p)); ($"ignore_null", VBool (p_ignore_null p));
   ($"instantiator", callee (p_instantiator p)); ($"name", opt VStr (p_name p));
   ($"notes", p_notes p); ($"nonnull", VBool (p_nonnull p)); ($"required", VBool (p_required p));
   ($"title", p_title p)] ++ match p_preprocessor p with Some i => [($"preprocessor", VObj i [])] | None => [] end).
  assert (Hattrs : attrs E p k = base ++ kind_attrs E k) by (unfold attrs, base; rewrite <- app_assoc; reflexivity).
  assert (Hbase : forall kv, In kv base -> fst kv = $"default" \/ fieldless (snd kv) = true).
  { intros kv Hi. unfold base in Hi. apply in_app_or in Hi. cbn [In] in Hi. destruct Hi as [Hi|Hi].
    - repeat (destruct Hi as [Hi|Hi];
              [subst kv; cbn [fst snd];
               first [left; reflexivity | right; first [reflexivity | assumption | apply fieldless_strs_values, Hp5
                 | match goal with |- context [opt _ ?o] => destruct o; reflexivity end
                 | match goal with |- context [callee ?o] => destruct o; reflexivity end]]|]).
      contradiction.
    - destruct (p_preprocessor p); [|contradiction]. destruct Hi as [<-|[]]. right. reflexivity. }
  assert (Hbkeys : forall kv, In kv base -> smem (fst kv) base_args = true).
  { intros kv Hi. unfold base in Hi. apply in_app_or in Hi. cbn [In] in Hi. destruct Hi as [Hi|Hi].
    - repeat (destruct Hi as [Hi|Hi]; [subst kv; reflexivity|]). contradiction.
    - destruct (p_preprocessor p); [|contradiction]. destruct Hi as [<-|[]]. reflexivity. }
  destruct (copy_attrs_get E cl (attrs E p k) kw1) as [kw2 [Hkw2 [Hget Hin2]]].
  { rewrite Hattrs. apply Forall_app. split.
    - rewrite Forall_forall. intros kv Hi Hn. destruct (Hbase kv Hi) as [Hd|Hf].
      + rewrite Hkw1, Hd, Hdf in Hn. discriminate.
      + exists (snd kv). apply dcopy_fieldless, Hf.
    - unfold copies in Hcp. clear -Hcp. induction Hcp as [|a b l l' [_ Hv] Hl IH]; constructor; [|exact IH].
      intros _. eauto. }
  fold cl. rewrite Hkw2. cbn [bind].
  assert (Hgb : forall key v, aget key base = Some v -> fieldless v = true \/ key = $"default").
  { intros key w Hg. apply aget_In in Hg. destruct (Hbase _ Hg); auto. }
  assert (Hget' : forall key, key <> slot -> aget key kw2 =
             match aget key base with Some v => Some v | None => aget key (kind_attrs E k1) end).
  { intros key Hns. rewrite Hget, Hkw1. unfold kw. cbn [aget]. rewrite (proj2 (str_eqb_neq key slot) Hns).
    destruct (str_eqb_spec key $"default") as [-> |Hn]; [reflexivity|].
    rewrite Hattrs, aget_app. destruct (aget key base) as [w|] eqn:Hb.
    - cbn. destruct (Hgb _ _ Hb) as [Hf|]; [|contradiction]. rewrite copied_fieldless by exact Hf. reflexivity.
    - apply copies_get, Hcp. }
  assert (Hkind : forall key w, key <> slot -> aget key (kind_attrs E k1) = Some w -> aget key kw2 = Some w).
  { intros key w Hns Hg. rewrite Hget' by exact Hns. destruct (kind_keys E _ key w (aget_In _ _ _ Hg)) as [Ha [Hb _]].
    destruct (aget key base) as [u|] eqn:Hbs; [|exact Hg].
    apply aget_In, Hbkeys in Hbs. cbn [fst] in Hbs. congruence. }
  assert (Hnbase : forall key, smem key base_args = true -> aget key (kind_attrs E k1) = None).
  { intros key H1. destruct (aget key (kind_attrs E k1)) as [w|] eqn:Hi; [|reflexivity]. apply aget_In, kind_keys in Hi.
    destruct Hi as [_ [Hi _]]. congruence. }
  assert (Hns : forall key, smem key base_args = true -> key <> slot) by (intros key H1 ->; congruence).
  assert (Hrz : rezone_args E k kw kw2 = Ok kw2) by (destruct k; try reflexivity; contradiction).
  rewrite Hrz. cbn [bind].
  assert (Hb2 : forall key w, smem key base_args = true -> aget key base = Some w -> arg key kw2 = w).
  { intros key w H1 H2. unfold arg. rewrite Hget' by (apply Hns, H1). rewrite H2. reflexivity. }
  assert (Hnone : forall key, smem key base_args = true -> aget key base = None -> arg key kw2 = VNone).
  { intros key H1 H2. unfold arg. rewrite Hget' by (apply Hns, H1). rewrite H2, Hnbase by exact H1. reflexivity. }
  exists k1, kw2. split; [reflexivity|]. split; [exact Hka|]. split; [exact Hsub1|]. split; [exact Hkind|]. split.
  { rewrite Hget, Hkw1. unfold kw. cbn [aget]. rewrite str_eqb_refl. reflexivity. }
  split.
  { rewrite Hget' by (intros Hx; apply Hgd; symmetry; exact Hx).
    replace (aget $"generate_default" base) with (@None val) by (unfold base; destruct (p_preprocessor p); reflexivity).
    destruct k1; reflexivity. }
  split.
  { constructor; unfold flag; try (erewrite Hb2; [|reflexivity|reflexivity]);
      try (match goal with |- truthy (VBool ?b) = _ => destruct b; reflexivity end); try reflexivity.
    - rewrite Hnone; [reflexivity|reflexivity|unfold base; destruct (p_preprocessor p); reflexivity].
    - destruct (p_instantiator p); reflexivity.
    - destruct (p_extractor p); reflexivity.
    - destruct (p_preprocessor p) as [i|] eqn:Hpp; [apply Hb2; unfold base; rewrite ?Hpp; reflexivity|].
      apply Hnone; [reflexivity|]. unfold base. rewrite ?Hpp. reflexivity.
    - right. exists (p_aspects p). reflexivity.
    - rewrite Forall_forall. intros kv Hi. destruct (Hin2 kv Hi) as [Hi1|[w [Hi1 Hv]]].
      + apply Hin1 in Hi1. destruct Hi1 as [-> | Hi1]; [exact Hne|destruct kv as [x y]; cbn in Hi1 |- *; subst x; discriminate].
      + rewrite Hattrs in Hi1. apply in_app_or in Hi1. destruct Hi1 as [Hi1|Hi1].
        * apply Hbkeys in Hi1. intros He. destruct kv as [key u]. cbn [fst] in *. subst key. discriminate.
        * apply kind_keys in Hi1. apply Hi1. }
  intros kv Hi1 Hkey. unfold others in Hi1. apply filter_In in Hi1. destruct Hi1 as [Hi1 Hcl].
  apply Bool.negb_true_iff in Hcl.
  destruct (Hin2 kv Hi1) as [Hx|[w [Hx Hv]]].
  - apply Hin1 in Hx. exfalso. destruct Hx as [-> |Hx]; [cbn [fst] in Hcl; congruence|].
    rewrite Hx in Hkey. destruct Hkey; discriminate.
  - rewrite Hv. rewrite Hattrs in Hx. apply in_app_or in Hx. destruct Hx as [Hx|Hx].
    + destruct (Hbase _ Hx) as [Hdf'|Hf]; cbn [fst snd] in *; [|rewrite copied_fieldless; exact Hf].
      exfalso. rewrite Hdf' in Hkey. destruct Hkey; discriminate.
    + apply kind_keys in Hx. destruct Hx as [_ [_ [_ [Hx|Hf]]]]; [congruence|]. rewrite copied_fieldless; exact Hf.
Qed.


Lemma clone_slot E m p k slot v k2 : within (S m) (Fld p k) -> sound E (Fld p k) ->
  In slot (slots (cls_of k)) -> slot <> $"key" -> slot <> $"polymorphic_on" -> cls_of k2 = cls_of k ->
  (forall k1 kw2, kalike k1 k -> (forall g, In g (subfields k1) -> sound E g) ->
     (forall key w, key <> slot -> aget key (kind_attrs E k1) = Some w -> aget key kw2 = Some w) ->
     aget slot kw2 = Some v -> aget $"generate_default" kw2 = None ->
     exists k3, cls_of k3 = cls_of k2 /\ kalike k3 k2 /\ kind_ok E (clone E m) kw2 k3) ->
  exists g, clone E (S m) (Fld p k) [(slot, v)] = Ok g /\ alike g (Fld p k2).
Proof.
  intros Hw Hs H1 H2 H3 Hc Hk.
  destruct (clone_start E m p k slot v Hw Hs H1 H2 H3) as [k1 [kw2 [He [Ha [Hsub [Hg [Hv [Hgd [Hb Has]]]]]]]]].
  destruct (Hk k1 kw2 Ha Hsub Hg Hv Hgd) as [k3 [Hc3 [Ha3 Hok]]].
  destruct (init_ok E (clone E m) kw2 p k3 Hb Hok) as [p' [Hi [[_ [_ [_ Hbare]]] _]]].
  exists (Fld p' k3). rewrite He, <- Hc, <- Hc3. split; [exact Hi|]. apply alike_Fld. split; assumption.
Qed.

Lemma clone_value E m p v key rk v' : within (S m) (Fld p (KMap v key rk)) -> sound E (Fld p (KMap v key rk)) ->
  exists g, clone E (S m) (Fld p (KMap v key rk)) [($"value", VField v')] = Ok g /\ alike g (Fld p (KMap v' key rk)).
Proof.
  intros Hw Hs. pose proof Hs as Hs'. apply sound_Fld in Hs'. destruct Hs' as [_ [_ Hsub0]].
  apply (clone_slot E m p _ $"value" (VField v') (KMap v' key rk) Hw Hs); try discriminate; [left; reflexivity|reflexivity|].
  intros k1 kw2 Ha Hsub Hg Hv Hgd. destruct k1; try discriminate. unfold kalike in Ha. cbn in Ha. injection Ha as Hv1 Hk1 ->.
  exists (KMap v' key0 rk). split; [reflexivity|]. split; [unfold kalike; cbn; rewrite Hk1; reflexivity|].
  cbn [kind_ok]. unfold arg. rewrite Hv. split; [reflexivity|].
  rewrite (Hg $"key" (opt VField key0)), (Hg $"required_keys" (opt VList rk)) by (discriminate || reflexivity).
  split; [|destruct rk; reflexivity]. destruct key0 as [f|]; [|reflexivity].
  destruct (sound_inv E f) as [q [kd ->]]; [apply Hsub; right; left; reflexivity|]. reflexivity.
Qed.

Lemma clone_item E m p it mn mx u it' : within (S m) (Fld p (KSequence it mn mx u)) -> sound E (Fld p (KSequence it mn mx u)) ->
  exists g, clone E (S m) (Fld p (KSequence it mn mx u)) [($"item", VField it')] = Ok g /\ alike g (Fld p (KSequence it' mn mx u)).
Proof.
  intros Hw Hs. pose proof Hs as Hs'. apply sound_Fld in Hs'. destruct Hs' as [_ [[Hn1 Hn2] Hsub0]].
  apply (clone_slot E m p _ $"item" (VField it') (KSequence it' mn mx u) Hw Hs); try discriminate; [left; reflexivity|reflexivity|].
  intros k1 kw2 Ha Hsub Hg Hv Hgd. destruct k1; try discriminate. unfold kalike in Ha. cbn in Ha. injection Ha as Hv1 -> -> ->.
  exists (KSequence it' mn mx u). split; [reflexivity|]. split; [reflexivity|].
  cbn [kind_ok]. unfold flag, arg. rewrite Hv. split; [reflexivity|].
  rewrite (Hg $"min_length" (opt VInt mn)), (Hg $"max_length" (opt VInt mx)), (Hg $"unique" (VBool u)) by (discriminate || reflexivity).
  split; [apply length_arg_val, Hn1|]. split; [apply length_arg_val, Hn2|]. destruct u; reflexivity.
Qed.

Lemma clone_values E m p l l' : within (S m) (Fld p (KTuple l)) -> sound E (Fld p (KTuple l)) -> l' <> [] ->
  exists g, clone E (S m) (Fld p (KTuple l)) [($"values", VTuple (map VField l'))] = Ok g /\ alike g (Fld p (KTuple l')).
Proof.
  intros Hw Hs Hl.
  apply (clone_slot E m p _ $"values" _ (KTuple l') Hw Hs); try discriminate; [left; reflexivity|reflexivity|].
  intros k1 kw2 Ha Hsub Hg Hv Hgd. exists (KTuple l'). split; [reflexivity|]. split; [reflexivity|].
  cbn [kind_ok]. unfold arg. rewrite Hv. apply fields_arg_val, Hl.
Qed.

Lemma clone_fields E m p l l' : within (S m) (Fld p (KUnion l)) -> sound E (Fld p (KUnion l)) -> l' <> [] ->
  exists g, clone E (S m) (Fld p (KUnion l)) [($"fields", VList (map VField l'))] = Ok g /\ alike g (Fld p (KUnion l')).
Proof.
  intros Hw Hs Hl.
  apply (clone_slot E m p _ $"fields" _ (KUnion l') Hw Hs); try discriminate; [left; reflexivity|reflexivity|].
  intros k1 kw2 Ha Hsub Hg Hv Hgd. exists (KUnion l'). split; [reflexivity|]. split; [reflexivity|].
  cbn [kind_ok]. unfold arg. rewrite Hv. pose proof (fields_arg_val l' Hl) as H. destruct l'; [contradiction|exact H].
Qed.

Lemma structure_items_named l : structure_items (struct_val l) = Ok (map (fun kf => (fst kf, named (fst kf) (snd kf))) l).
Proof.
  unfold structure_items, struct_val. cbn [as_dict]. rewrite each_map. apply each_total. intros [s f] Hi. reflexivity.
Qed.

Lemma clone_structure E m p l s o l' : within (S m) (Fld p (KStructure (SPlain l) s o)) -> sound E (Fld p (KStructure (SPlain l) s o)) ->
  exists g, clone E (S m) (Fld p (KStructure (SPlain l) s o)) [($"structure", struct_val l')] = Ok g
    /\ alike g (Fld p (KStructure (SPlain (map (fun kf => (fst kf, named (fst kf) (snd kf))) l')) s o)).
Proof.
  intros Hw Hs. pose proof Hs as Hs'. apply sound_Fld in Hs'. destruct Hs' as [_ [[Ho Hn] Hsub0]].
  set (l2 := map (fun kf => (fst kf, named (fst kf) (snd kf))) l').
  apply (clone_slot E m p _ $"structure" _ (KStructure (SPlain l2) s o) Hw Hs); try discriminate; [left; reflexivity|reflexivity|].
  intros k1 kw2 Ha Hsub Hg Hv Hgd. destruct k1; try discriminate. destruct d; try discriminate.
  unfold kalike in Ha. cbn in Ha. injection Ha as Hl1 -> ->.
  exists (KStructure (SPlain l2) s o). split; [reflexivity|]. split; [reflexivity|].
  cbn [kind_ok]. unfold flag_on, arg. rewrite Hv, Hgd.
  rewrite (Hg $"key_order" (opt (fun l => VList (map VStr l)) o)), (Hg $"strict" (VBool s)), (Hg $"polymorphic_on" VNone) by (discriminate || reflexivity).
  split; [|split; [destruct s; reflexivity|split; [reflexivity|split; [reflexivity|apply structure_items_named]]]].
  destruct o as [[|x xs]|]; [contradiction Ho; reflexivity| |reflexivity].
  cbn [opt map]. unfold key_order_arg. rewrite <- (map_cons VStr), each_map. rewrite each_id; reflexivity.
Qed.

Lemma aset_alike name c c' l l' : alike c c' -> map uf l = map uf l' -> map uf (aset name c l) = map uf (aset name c' l').
Proof.
  intros Hc. revert l'. induction l as [|[s f] l IH]; intros [|[s' f'] l'] H; try discriminate.
  - cbn. unfold uf. cbn. rewrite Hc. reflexivity.
  - cbn [map] in H. injection H as -> Hf H. cbn [aset]. destruct (str_eqb name s'); cbn [map].
    + unfold uf at 1 3. cbn [fst snd]. rewrite Hc, H. reflexivity.
    + rewrite (IH l' H). unfold uf at 1 3. cbn [fst snd]. rewrite Hf. reflexivity.
Qed.

Lemma clone_variants E m p q kd name vs s o vs' : within (S m) (Fld p (KStructure (SPoly (Fld q kd) vs) s o)) ->
  sound E (Fld p (KStructure (SPoly (Fld q kd) vs) s o)) -> p_name q = Some name ->
  map fst vs' = map fst vs -> Forall (fun vd => Forall has_name (snd vd)) vs' ->
  exists g, clone E (S m) (Fld p (KStructure (SPoly (Fld q kd) vs) s o))
              [($"structure", VDict false (map (fun vl => (fst vl, struct_val (snd vl))) vs'))] = Ok g
    /\ alike g (Fld p (KStructure (SPoly (Fld q kd)
                 (map (fun vl => (fst vl, aset name (Fld (with_constant q (fst vl)) kd) (snd vl))) vs')) s o)).
Proof.
  intros Hw Hs Hname Hfst Hnames. pose proof Hs as Hs'. apply sound_Fld in Hs'. destruct Hs' as [_ [[Ho Hn] Hsub0]].
  destruct Hn as [q0 [kd0 [name0 [Heq [Hn0 [Hr HF]]]]]]. injection Heq as <- <-.
  rewrite Hname in Hn0. injection Hn0 as <-.
  assert (Hid : forall i, In i (map fst vs') -> i <> VStr $"*" /\ fieldless i = true).
  { intros i Hi. rewrite Hfst in Hi. apply in_map_iff in Hi. destruct Hi as [vd [<- Hi]].
    rewrite Forall_forall in HF. destruct (HF _ Hi) as [H1 [H2 _]]. auto. }
  set (vs2 := map (fun vl => (fst vl, aset name (Fld (with_constant q (fst vl)) kd) (snd vl))) vs').
  apply (clone_slot E m p _ $"structure" _ (KStructure (SPoly (Fld q kd) vs2) s o) Hw Hs); try discriminate; [left; reflexivity|reflexivity|].
  intros k1 kw2 Ha Hsub Hg Hv Hgd. destruct k1; try discriminate. destruct d as [|on1 vs1]; try discriminate.
  pose proof Ha as Ha'. unfold kalike in Ha. cbn in Ha. injection Ha as Hl1 _ -> ->.
  change (alike on1 (Fld q kd)) in Hl1. destruct (alike_inv _ _ _ Hl1) as [q1 [kd1 [-> [Hb1 Hk1]]]].
  assert (Hon : In (Fld q1 kd1) (subfields (KStructure (SPoly (Fld q1 kd1) vs1) s o : kind))) by (left; reflexivity).
  assert (Hcl : forall i, In i (map fst vs') -> exists c, clone E m (Fld q1 kd1) [($"constant", i)] = Ok c
                 /\ alike c (Fld (with_constant q i) kd)).
  { intros i Hi. destruct (clone_ok E m q1 kd1 [($"constant", i)]) as [c [H1 [H2 H3]]].
    - apply (within_alike _ _ (Fld q kd) Hl1). cbn [within] in Hw. apply Hw. left. reflexivity.
    - apply Hsub, Hon.
    - constructor; [|constructor]. left. destruct (Hid i Hi) as [_ Hf]. destruct i; cbn in Hf |- *; auto 10.
    - exists c. split; [exact H1|]. rewrite replaced_constant, rekind_const in H2. apply (alike_trans _ _ _ H2).
      apply alike_Fld. split; [|exact Hk1]. clear -Hb1. destruct q1, q. unfold with_constant, bare in *. cbn in *.
      injection Hb1. intros. subst. reflexivity. }
  assert (Hvs : exists vs3, each (fun kv => do fields <- structure_items (snd kv);
                                  do c <- clone E m (Fld q1 kd1) [($"constant", fst kv)];
                                  Ok (fst kv, aset name c fields))
                     (map (fun vl => (fst vl, struct_val (snd vl))) vs') = Ok vs3
                   /\ map uv vs3 = map uv vs2).
  { unfold vs2. clear -Hcl Hnames. induction vs' as [|[i l] vs' IH]; [exists []; split; reflexivity|].
    inversion Hnames as [|? ? Hn1 Hn2]; subst. cbn [snd] in Hn1.
    destruct IH as [vs3 [H1 H2]]; [exact Hn2|intros j Hj; apply Hcl; right; exact Hj|].
    destruct (Hcl i (or_introl eq_refl)) as [c [Hc1 Hc2]].
    exists ((i, aset name c l) :: vs3). cbn [map each fst snd]. rewrite structure_items_val by exact Hn1. cbn [bind].
    rewrite Hc1. cbn [bind]. rewrite H1. cbn [bind]. split; [reflexivity|].
    rewrite H2. f_equal. unfold uv. cbn [fst snd]. f_equal. apply aset_alike; [exact Hc2|reflexivity]. }
  destruct Hvs as [vs3 [Hv1 Hv2]].
  exists (KStructure (SPoly (Fld q1 kd1) vs3) s o). split; [reflexivity|]. split.
  { unfold kalike. cbn. do 2 f_equal; [exact Hl1|exact Hv2]. }
  destruct (bare_name _ _ Hb1) as [Hbn Hbr].
  cbn [kind_ok]. unfold flag_on, arg. rewrite Hv, Hgd.
  rewrite (Hg $"key_order" (opt (fun l => VList (map VStr l)) o)), (Hg $"strict" (VBool s)),
    (Hg $"polymorphic_on" (VField (Fld q1 kd1))) by (discriminate || reflexivity).
  split; [|split; [destruct s; reflexivity|split; [reflexivity|]]].
  { destruct o as [[|x xs]|]; [contradiction Ho; reflexivity| |reflexivity].
    cbn [opt map]. unfold key_order_arg. rewrite <- (map_cons VStr), each_map. rewrite each_id; reflexivity. }
  exists (map (fun vl => (fst vl, struct_val (snd vl))) vs'), q1, kd1, name.
  split; [reflexivity|]. split; [|repeat (split; [congruence|]); exact Hv1].
  apply sget_None. intros v Hi. apply in_map_iff in Hi. destruct Hi as [vd [He Hi]]. injection He as He _.
  apply (in_map fst) in Hi. destruct (Hid _ Hi) as [Hne _]. contradiction.
Qed.
